(** Tiling, as numpy.tile defines it. *)
From Coq Require Import List ZArith.
From Verif Require Import ShapeSpec KernelBase KernelSpec.
Import ListNotations.
Local Open Scope Z_scope.

(** [l] with ones in front, to length [n] *)
Definition ones_before (n : nat) (l : list Z) : list Z := repeat 1 (n - length l) ++ l.

Definition pointwise (f : Z -> Z -> Z) (a b : list Z) : list Z := map (fun xy => f (fst xy) (snd xy)) (combine a b).

(** with shape and repeats brought to the same length, the sizes multiply and
    every coordinate shows the element at the remainders *)
Definition tiled {A} (repeats : list Z) (x out : tensor A) : Prop :=
  let n := Nat.max (length (t_shape x)) (length repeats) in
  let s := ones_before n (t_shape x) in
  t_dtype out = t_dtype x /\
  t_shape out = pointwise Z.mul s (ones_before n repeats) /\
  forall c, inside (t_shape out) c ->
    inside s (pointwise Z.modulo c s) /\
    elt out c = elt (Tn (t_dtype x) s (t_data x)) (pointwise Z.modulo c s).
