(** What the conversions of numbers between element types mean. *)
From Coq Require Import Ascii String List ZArith Bool.
From Verif Require Import ShapeModel KernelBase CastModel.
Import ListNotations.
Local Open Scope Z_scope.

(** [v] units of 2^-1074 is a number with [p] significant bits, no bit below
    2^emin: m * 2^e with |m| < 2^p, emin <= e *)
Definition significand (p emin v : Z) : Prop := exists m e, v = m * 2 ^ (e + 1074) /\ Z.abs m < 2 ^ p /\ emin <= e.
Definition binary (p emin emax : Z) (x : num) : Prop :=
  match x with Num v => significand p emin v /\ Z.abs v < 2 ^ (emax + 1074) | _ => True end.

(** the integer [n] as a number *)
Definition integer (n : Z) : num := Num (n * 2 ^ 1074).

(** the integer types: bits, signed *)
Definition bits (t : Z) : option (Z * bool) :=
  match t with
  | 1 => Some (8, true) | 2 => Some (8, false) | 3 => Some (16, true) | 4 => Some (16, false)
  | 5 => Some (32, true) | 6 => Some (32, false) | 7 => Some (64, true) | 8 => Some (64, false)
  | 13 => Some (8, true) | 14 => Some (16, false) | 15 => Some (32, false) | 21 => Some (8, false)
  | _ => None
  end.
Definition fits (w : Z) (signed : bool) (n : Z) : Prop := if signed then - 2 ^ (w - 1) <= n < 2 ^ (w - 1) else 0 <= n < 2 ^ w.

(** a value of the element type [t] (half floats left out) *)
Definition holds (t : Z) (x : num) : Prop :=
  match bits t with
  | Some (w, s) => exists n, x = integer n /\ fits w s n
  | None => (t = 10 /\ binary 24 (-149) 128 x) \/ (t = 11 /\ binary 53 (-1074) 1024 x)
  end.

(** [w] is [v] rounded to [p] bits, ties to even *)
Definition rounded (p emin v w : Z) : Prop :=
  significand p emin w /\ (forall w', significand p emin w' -> Z.abs (v - w) <= Z.abs (v - w')) /\
  exists d q, w = q * 2 ^ d /\ 0 <= d /\ 2 * Z.abs (v - w) <= 2 ^ d /\ (2 * Z.abs (v - w) = 2 ^ d -> Z.even q = true).

(** the value of decimal digits *)
Definition is_digit (c : ascii) : Prop := (48 <= nat_of_ascii c <= 57)%nat.
Fixpoint decimal (l : list ascii) : Z := match l with [] => 0 | c :: r => (Z.of_nat (nat_of_ascii c) - 48) * 10 ^ Z.of_nat (length r) + decimal r end.
Definition white (c : ascii) : Prop := nat_of_ascii c = 32%nat \/ (9 <= nat_of_ascii c <= 13)%nat.

(** [a] of type [src] becomes [b] of type [dst]: integers modulo a power of two,
    fractions towards zero, floating point numbers to nearest *)
Definition rounds (p emin emax : Z) (a b : num) : Prop :=
  match a with
  | Num v => exists w, rounded p emin v w /\ ((Z.abs w < 2 ^ (emax + 1074) /\ b = Num w) \/ (2 ^ (emax + 1074) <= Z.abs w /\ b = Inf (v <? 0)))
  | _ => b = a
  end.
Definition converted (src dst : Z) (a b : num) : Prop :=
  match bits dst, bits src with
  | Some (w, s), Some _ => exists n k, a = integer n /\ b = integer k /\ fits w s k /\ (k - n) mod 2 ^ w = 0
  | Some (w, s), None => exists v k, a = Num v /\ b = integer k /\ fits w s k /\
      (0 <= v -> k * 2 ^ 1074 <= v < (k + 1) * 2 ^ 1074) /\ (v <= 0 -> (k - 1) * 2 ^ 1074 < v <= k * 2 ^ 1074)
  | None, _ => (dst = 10 /\ rounds 24 (-149) 128 a b) \/ (dst = 11 /\ rounds 53 (-1074) 1024 a b)
  end.
(** the element types without half floats *)
Definition plain (t : Z) : Prop := bits t <> None \/ t = 10 \/ t = 11.
(** every value of [src] is one of [dst] *)
Definition embeds (src dst : Z) : bool :=
  match bits src, bits dst with
  | Some (w, s), Some (w', s') => if Bool.eqb s s' then w <=? w' else negb s && (w <? w')
  | Some (w, _), None => ((dst =? 10) && (w <=? 16)) || ((dst =? 11) && (w <=? 32))
  | None, None => ((src =? 10) && ((dst =? 10) || (dst =? 11))) || ((src =? 11) && (dst =? 11))
  | _, _ => false
  end.
