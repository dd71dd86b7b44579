(** The AES-256 cipher as FIPS 197 defines it, independent of any table or
    program: arithmetic in GF(2^8), S-box by inversion and affine map, the
    state as four rows and four columns, the key schedule by its recurrence. *)
From Coq Require Import Init.Byte NArith List Bool Arith.
From Coq Require Strings.Byte.
Import ListNotations.

Definition to_num (b : byte) : N := Strings.Byte.to_N b.
Definition of_num (n : N) : byte :=
  match Strings.Byte.of_N n with Some b => b | None => x00 end.

(** addition in GF(2^8): bit by bit modulo 2 (FIPS 197, 4.1) *)
Definition add (a b : byte) : byte :=
  let '(a0, (a1, (a2, (a3, (a4, (a5, (a6, a7))))))) := Byte.to_bits a in
  let '(b0, (b1, (b2, (b3, (b4, (b5, (b6, b7))))))) := Byte.to_bits b in
  Byte.of_bits (xorb a0 b0, (xorb a1 b1, (xorb a2 b2, (xorb a3 b3,
               (xorb a4 b4, (xorb a5 b5, (xorb a6 b6, xorb a7 b7))))))).

(** polynomials over GF(2), a number being the list of its coefficients *)
Definition poly_mul (a b : N) : N :=
  fold_left (fun acc i => if N.testbit b i then N.lxor acc (N.shiftl a i) else acc)
            [0; 1; 2; 3; 4; 5; 6; 7]%N 0%N.
(** modulo x^8 + x^4 + x^3 + x + 1 = 0x11b (4.2) *)
Definition poly_mod (p : N) : N :=
  fold_left (fun p i => if N.testbit p i then N.lxor p (N.shiftl 283 (i - 8)) else p)
            [14; 13; 12; 11; 10; 9; 8]%N p.
Definition mul (a b : byte) : byte := of_num (poly_mod (poly_mul (to_num a) (to_num b))).

Definition all_numbers : list N := map N.of_nat (seq 0 256).
(** the multiplicative inverse, 0 for 0 (5.1.1) *)
Definition inverse (a : byte) : byte :=
  match find (fun n => match mul a (of_num n) with x01 => true | _ => false end) all_numbers with
  | Some n => of_num n
  | None => x00
  end.
(** b'_i = b_i + b_(i+4) + b_(i+5) + b_(i+6) + b_(i+7) + c_i with c = 0x63 (5.1) *)
Definition affine (b : byte) : byte :=
  let bit i := N.testbit (to_num b) (N.of_nat (i mod 8)) in
  let out i := xorb (xorb (xorb (xorb (xorb (bit i) (bit (i + 4))) (bit (i + 5))) (bit (i + 6)))
                          (bit (i + 7))) (N.testbit 99 (N.of_nat i)) in
  Byte.of_bits (out 0, (out 1, (out 2, (out 3, (out 4, (out 5, (out 6, out 7))))))).
Definition sub (b : byte) : byte := affine (inverse b).

(** a state: row -> column -> byte *)
Definition state := nat -> nat -> byte.
Definition sub_bytes (s : state) : state := fun r c => sub (s r c).
Definition shift_rows (s : state) : state := fun r c => s r ((c + r) mod 4).
Definition mix_columns (s : state) : state := fun r c =>
  add (add (add (mul x02 (s r c)) (mul x03 (s ((r + 1) mod 4) c))) (s ((r + 2) mod 4) c))
      (s ((r + 3) mod 4) c).
(** [w i r] is byte r of word i of the key schedule *)
Definition add_round_key (w : nat -> nat -> byte) (round : nat) (s : state) : state :=
  fun r c => add (s r c) (w (4 * round + c) r).

(** the cipher (5.1, figure 5), 14 rounds *)
Definition round (w : nat -> nat -> byte) (s : state) (k : nat) : state :=
  add_round_key w k (mix_columns (shift_rows (sub_bytes s))).
Definition fips_cipher (w : nat -> nat -> byte) (block : list byte) : list byte :=
  let s : state := fun r c => nth (r + 4 * c) block x00 in
  let s := add_round_key w 0 s in
  let s := fold_left (round w) (seq 1 13) s in
  let s := add_round_key w 14 (shift_rows (sub_bytes s)) in
  map (fun k => s (k mod 4) (k / 4)) (seq 0 16).

(** the powers of x: x^(j-1) *)
Fixpoint power (n : nat) : byte := match n with O => x01 | S m => mul x02 (power m) end.
Definition rcon (j r : nat) : byte := if r =? 0 then power (j - 1) else x00.

(** the key schedule for 256-bit keys (5.2, figure 11) *)
Definition key_schedule (key : list byte) (w : nat -> nat -> byte) : Prop :=
  (forall i r, i < 8 -> r < 4 -> w i r = nth (4 * i + r) key x00) /\
  (forall i r, 8 <= i < 60 -> r < 4 ->
     w i r = add (w (i - 8) r)
                 (if i mod 8 =? 0 then add (sub (w (i - 1) ((r + 1) mod 4))) (rcon (i / 8) r)
                  else if i mod 8 =? 4 then sub (w (i - 1) r)
                  else w (i - 1) r)).

(** a sequence of bytes cut into blocks of 16 *)
Fixpoint blocks (fuel : nat) (l : list byte) : list (list byte) :=
  match fuel, l with
  | _, [] => []
  | O, _ => []
  | S k, _ => firstn 16 l :: blocks k (skipn 16 l)
  end.

(** sixteen bytes read as one number, most significant byte first *)
Definition big_endian (l : list byte) : N :=
  fold_left (fun a b => 256 * a + to_num b)%N l 0%N.
(** block [k] of a sequence of bytes *)
Definition block_of (k : nat) (l : list byte) : list byte := firstn 16 (skipn (16 * k) l).
(** two blocks added byte by byte *)
Definition add_blocks (a b : list byte) : list byte := map (fun p => add (fst p) (snd p)) (combine a b).
