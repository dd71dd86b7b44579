(** Reductions along axes, by coordinates. *)
From Coq Require Import List ZArith.
From Verif Require Import ShapeSpec KernelBase KernelSpec.
Import ListNotations.
Local Open Scope Z_scope.

(** all coordinates inside a shape, in row-major order *)
Fixpoint coordinates (shape : list Z) : list (list Z) :=
  match shape with
  | [] => [[]]
  | d :: rest => flat_map (fun k => map (cons k) (coordinates rest)) (map Z.of_nat (seq 0 (Z.to_nat d)))
  end.

(** [gt] orders the values: a strict weak order, such as greater-than on
    numbers *)
Definition strict_weak {A} (gt : A -> A -> bool) : Prop :=
  (forall a b, gt a b = true -> gt b a = false) /\
  (forall a b c, gt a b = false -> gt b c = false -> gt a c = false).

(** [m] is the first place of the greatest of [f 0] .. [f (n - 1)] *)
Definition first_max {A} (gt : A -> A -> bool) (n : Z) (f : Z -> option A) (m : Z) : Prop :=
  0 <= m < n /\ exists v, f m = Some v /\
    (forall k, 0 <= k < n -> exists w, f k = Some w /\ gt w v = false) /\
    (forall k, 0 <= k < m -> exists w, f k = Some w /\ gt v w = true).

(** the values of [x] over the block of axes [R], when its shape is
    [S ++ R ++ T], at [s] and [t] *)
Definition along {A} (x : tensor A) (R : list Z) (s t : list Z) : list (option A) :=
  map (fun r => elt x (s ++ r ++ t)) (coordinates R).

(** [out] holds, for each place outside the block, [f] of the values over it *)
Definition reduced {A B} (f : list A -> B -> Prop) (S R T : list Z) (between : list Z) (x : tensor A) (out : tensor B) : Prop :=
  t_shape x = S ++ R ++ T /\ t_shape out = S ++ map (fun _ => 1) between ++ T /\
  forall s t, inside S s -> inside T t ->
    exists vs v, along x R s t = map Some vs /\ elt out (s ++ map (fun _ => 0) between ++ t) = Some v /\ f vs v.

(** [v] is the greatest of [vs] *)
Definition greatest {A} (gt : A -> A -> bool) (vs : list A) (v : A) : Prop :=
  In v vs /\ forall w, In w vs -> gt w v = false.

(** the axes of a block: all counted from the front or all from the back *)
Definition block_dims (dims : list Z) (rank first count : nat) : Prop :=
  dims = map (fun k => Z.of_nat k) (seq first count) \/ dims = map (fun k => Z.of_nat k - Z.of_nat rank) (seq first count).

(** the four bytes of a 32-bit number, low byte first; two's complement *)
Definition encode32 (v : Z) : list Z := [v mod 2^8; v / 2^8 mod 2^8; v / 2^16 mod 2^8; v / 2^24 mod 2^8].
Definition is_int32 (v : Z) : Prop := - 2^31 <= v < 2^31.

(** the value of a finite float32 given by its 32 bits, in units of 2^-149 *)
Definition float_value (bits : Z) : Z :=
  let sign := if bits <? 2^31 then 1 else -1 in
  let magnitude := bits mod 2^31 in
  let e := magnitude / 2^23 in
  let m := magnitude mod 2^23 in
  sign * (if e =? 0 then m else (2^23 + m) * 2^(e - 1)).
(** sign 0, and neither infinite nor a NaN *)
Definition nonneg_float (bits : Z) : Prop := 0 <= bits < 255 * 2^23.
Definition float_greater (a b : Z) : bool := float_value b <? float_value a.
