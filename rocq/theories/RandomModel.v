(** Model of the random numbers: MT19937 and Random, include/utils/random.h and
    src/utils/random.cpp.

    Ints are 32-bit.  [strict] follows the C++ standard, in which an overflow of
    int, and a left shift of a negative int or one that pushes bits out, is
    undefined; otherwise such results wrap around, as the usual compilers make
    them.  Conversions from unsigned to int wrap and right shifts of negative ints
    keep the sign (implementation-defined; so do all the usual compilers).

    [rnd] is the rounding to double of an exact result.  Simplifications: exp, ray,
    weibull and normal are not modelled; the default seed, the clock's, is any int;
    m_seed, which nothing reads, is left out. *)
From Coq Require Import List ZArith Bool QArith.
From Verif Require Import ShapeModel KernelBase ConvModel ResizeModel.
Import ListNotations.
Local Open Scope Z_scope.

Definition MAX : Z := 2147483647.
Definition wrap (z : Z) : Z := (z + 2147483648) mod 4294967296 - 2147483648.
Definition is_int (z : Z) : bool := (-2147483648 <=? z) && (z <=? 2147483647).
(** the conversion of an int to unsigned *)
Definition unsigned (z : Z) : Z := z mod 4294967296.

Section Random.
Variable strict : bool.

(** the result of an operation on ints *)
Definition int_of (z : Z) : sres Z := if is_int z then SOk z else if strict then SUndef else SOk (wrap z).
(** y << k *)
Definition shift_left (y k : Z) : sres Z :=
  if strict && ((y <? 0) || (4294967296 <=? Z.shiftl y k)) then SUndef else SOk (wrap (Z.shiftl y k)).

(** MT and m_i *)
Definition twister : Type := list Z * Z.

(** random.cpp 24-27: [n] words from word [i] on *)
Fixpoint fill (n : nat) (i previous : Z) : sres (list Z) :=
  match n with
  | O => SOk []
  | S n' =>
      bind (int_of (1812433253 * Z.lxor previous (Z.shiftr previous 30))) (fun p =>
      bind (int_of (p + i)) (fun w =>
      let w := wrap (Z.land (unsigned w) 4294967295) in
      bind (fill n' (i + 1) w) (fun rest => SOk (w :: rest))))
  end.
(** 20-29 *)
Definition srand (seed : Z) : sres twister := bind (fill 623 1 seed) (fun rest => SOk (seed :: rest, 0)).

(** 31-44 *)
Definition rand (t : twister) : sres (Z * twister) :=
  let (mt, i) := t in
  bind (load mt i) (fun a =>
  bind (load mt ((i + 1) mod 624)) (fun b =>
  let generate := wrap (Z.land (unsigned a) 2147483648 + Z.land b 2147483647) in
  bind (load mt ((i + 397) mod 624)) (fun c =>
  let v := Z.lxor c (Z.shiftr generate 1) in
  let v := if negb (Z.land generate 1 =? 0) then wrap (Z.lxor (unsigned v) 2567483615) else v in
  let mt := set_nth (Z.to_nat i) v mt in
  let y := Z.lxor v (Z.shiftr v 11) in
  bind (shift_left y 7) (fun s =>
  let y := wrap (Z.lxor (unsigned y) (Z.land (unsigned s) 2636928640)) in
  bind (shift_left y 15) (fun s =>
  let y := wrap (Z.lxor (unsigned y) (Z.land (unsigned s) 4022730752)) in
  let y := Z.lxor y (Z.shiftr y 18) in
  SOk (y, (mt, (i + 1) mod 624))))))).

(** ** Random *)
Variable rnd : Q -> Q.

(** 68-70 *)
Definition unit (t : twister) : sres (Q * twister) :=
  bind (rand t) (fun r => SOk (rnd (inject_Z (fst r) / inject_Z MAX), snd r)).
(** a double converted to int *)
Definition int_of_double (v : Q) : sres Z := let z := truncate v in if is_int z then SOk z else SUndef.
(** 64-66 *)
Definition between (min max : Z) (t : twister) : sres (Z * twister) :=
  bind (int_of (max - min)) (fun d =>
  bind (unit t) (fun u =>
  bind (int_of_double (rnd (inject_Z d * fst u))) (fun k =>
  bind (int_of (min + k)) (fun z => SOk (z, snd u))))).

Inductive call := Seed (s : Z) | Next | Between (min max : Z) | Unit | Binomial (p : Q).
Inductive answer := Nothing | Int (z : Z) | Real (q : Q) | Bool (b : bool).

(** 56-74 *)
Definition do_call (c : call) (t : twister) : sres (answer * twister) :=
  match c with
  | Seed s => bind (srand s) (fun t' => SOk (Nothing, t'))
  | Next => bind (rand t) (fun r => SOk (Int (fst r), snd r))
  | Between min max => bind (between min max t) (fun r => SOk (Int (fst r), snd r))
  | Unit => bind (unit t) (fun r => SOk (Real (fst r), snd r))
  | Binomial p => bind (unit t) (fun r => SOk (Bool (negb (Qle_bool p (fst r))), snd r))
  end.
Fixpoint calls (l : list call) (t : twister) : sres (list answer) :=
  match l with
  | [] => SOk []
  | c :: rest => bind (do_call c t) (fun r => bind (calls rest (snd r)) (fun as_ => SOk (fst r :: as_)))
  end.
(** Random(seed), then the calls *)
Definition session (seed : Z) (l : list call) : sres (list answer) := bind (srand seed) (calls l).
End Random.
