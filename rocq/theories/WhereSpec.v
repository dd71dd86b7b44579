(** Broadcasting of any number of shapes, and ranges. *)
From Coq Require Import List ZArith.
From Verif Require Import ShapeSpec KernelBase KernelSpec EltwiseSpec.
Import ListNotations.
Local Open Scope Z_scope.

(** the largest rank *)
Definition rank_of (shapes : list (list Z)) : nat := fold_right Nat.max O (map (@length Z) shapes).

(** numpy's rule: along every axis (counted from the last) every shape has
    the size of the result or one, and some shape has the size of the result *)
Definition broadcast_of (shapes : list (list Z)) (o : list Z) : Prop :=
  length o = rank_of shapes /\
  forall i, (i < length o)%nat ->
    (forall s, In s shapes -> nth i (aligned (length o) s) 0 = 1 \/ nth i (aligned (length o) s) 0 = nth i o 0) /\
    exists s, In s shapes /\ nth i (aligned (length o) s) 0 = nth i o 0.

(** each element comes from the first or the second operand *)
Definition selected {A} (cond : tensor Z) (l r out : tensor A) : Prop :=
  t_dtype out = t_dtype l /\ broadcast_of [t_shape cond; t_shape l; t_shape r] (t_shape out) /\
  forall c, inside (t_shape out) c ->
    exists b a a', elt cond (shown (t_shape cond) c) = Some b /\
      elt l (shown (t_shape l) c) = Some a /\ elt r (shown (t_shape r) c) = Some a' /\
      elt out c = Some (if b =? 0 then a' else a).

(** [x] repeated along its axes of size one *)
Definition spread {A} (x : tensor A) (shape : list Z) (out : tensor A) : Prop :=
  t_dtype out = t_dtype x /\ broadcast_of [t_shape x; shape] (t_shape out) /\
  forall c, inside (t_shape out) c ->
    inside (t_shape x) (shown (t_shape x) c) /\ elt out c = elt x (shown (t_shape x) c).

(** first, first + delta, ... as long as limit is not reached *)
Definition before (delta a limit : Z) : Prop := (0 < delta /\ a < limit) \/ (delta < 0 /\ limit < a).
Definition is_range (first limit delta : Z) (l : list Z) : Prop :=
  forall i, (nth_error l i = Some (first + Z.of_nat i * delta) /\ before delta (first + Z.of_nat i * delta) limit) \/
            (nth_error l i = None /\ ~ before delta (first + Z.of_nat i * delta) limit).
