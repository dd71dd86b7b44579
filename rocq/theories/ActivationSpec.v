(** What the operators on single elements and on channels have to compute. *)
From Coq Require Import List ZArith.
From Verif Require Import ShapeModel ShapeSpec KernelBase KernelSpec.
Import ListNotations.
Local Open Scope Z_scope.

(** the result has the type and the shape of [x] and [f] of its elements *)
Definition pointwise {R} (f : R -> R) (x : tensor R) (r : sres (raw_tensor R)) : Prop :=
  exists out, r = SOk (filled out) /\ wf out /\ t_dtype out = t_dtype x /\ t_shape out = t_shape x /\
    forall c, inside (t_shape x) c -> elt out c = option_map f (elt x c).

(** [f] may also depend on the index along the axis [dim] *)
Definition per_channel {R} (dim : Z) (f : Z -> R -> R) (x : tensor R) (r : sres (raw_tensor R)) : Prop :=
  exists out, r = SOk (filled out) /\ wf out /\ t_dtype out = t_dtype x /\ t_shape out = t_shape x /\
    forall c, inside (t_shape x) c -> elt out c = option_map (f (nth (Z.to_nat dim) c 0)) (elt x c).

(** the entry of a vector *)
Definition entry {R} (d : R) (p : tensor R) (k : Z) : R := match elt p [k] with Some v => v | None => d end.

(** one parameter for each slice of [x] along the axis [dim] *)
Definition channel_params {R} (dim : Z) (x : tensor R) (params : list (tensor R)) : Prop :=
  0 <= dim /\ exists c, nth_error (t_shape x) (Z.to_nat dim) = Some c /\
  Forall (fun p => wf p /\ t_shape p = [c] /\ t_dtype p = t_dtype x) params.

(** a strict order without incomparable numbers *)
Definition strict_order {R} (ltb : R -> R -> bool) : Prop :=
  (forall a b, ltb a b = true -> ltb b a = false) /\ (forall a b c, ltb a b = true -> ltb b c = true -> ltb a c = true) /\
  (forall a b, ltb a b = false -> ltb b a = false -> a = b).
