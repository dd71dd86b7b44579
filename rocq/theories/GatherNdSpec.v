(** Gathering and scattering with index rows. *)
From Coq Require Import List ZArith.
From Verif Require Import ShapeSpec KernelBase KernelSpec.
Import ListNotations.
Local Open Scope Z_scope.

(** the index row at coordinate [i] is [js] *)
Definition row_at (indices : tensor Z) (i js : list Z) : Prop :=
  forall k, (k < length js)%nat -> elt indices (i ++ [Z.of_nat k]) = Some (nth k js 0).

(** numpy: out[i, q] = x[indices[i, :], q] *)
Definition gathered_nd {A} (x : tensor A) (indices : tensor Z) (out : tensor A) : Prop :=
  t_dtype out = t_dtype x /\
  exists lead post many,
    t_shape x = lead ++ post /\ t_shape indices = many ++ [Z.of_nat (length lead)] /\
    t_shape out = many ++ post /\
    forall i js q, inside many i -> length js = length lead -> row_at indices i js -> inside post q ->
      elt out (i ++ q) = elt x (js ++ q).

(** numpy.take_along_axis: out[p, i, q] = x[p, indices[p, i, q], q] *)
Definition taken_along {A} (axis : nat) (x : tensor A) (indices : tensor Z) (out : tensor A) : Prop :=
  t_dtype out = t_dtype x /\ t_shape out = t_shape indices /\
  forall p i q k, length p = axis -> inside (t_shape indices) (p ++ i :: q) ->
    elt indices (p ++ i :: q) = Some k ->
    elt out (p ++ i :: q) = elt x (p ++ (if k <? 0 then k + nth axis (t_shape x) 0 else k) :: q).

(** out is [x] with row [indices i] replaced by row [i] of the updates; the
    last one wins *)
Definition scattered {A} (x : tensor A) (indices : list Z) (updates out : tensor A) : Prop :=
  t_dtype out = t_dtype x /\ t_shape out = t_shape x /\
  forall r q, inside (t_shape x) (r :: q) ->
    (forall i, nth_error indices i = Some r -> (forall j, (i < j)%nat -> nth_error indices j <> Some r) ->
       elt out (r :: q) = elt updates (Z.of_nat i :: q)) /\
    (~ In r indices -> elt out (r :: q) = elt x (r :: q)).
