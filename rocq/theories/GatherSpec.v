(** Gathering, as numpy.take defines it. *)
From Coq Require Import List ZArith.
From Verif Require Import ShapeSpec KernelBase KernelSpec.
Import ListNotations.
Local Open Scope Z_scope.

(** negative indices count from the end *)
Definition from_end (size i : Z) : Z := if i <? 0 then i + size else i.

Definition gathered {A} (axis : nat) (x : tensor A) (indices : tensor Z) (out : tensor A) : Prop :=
  t_dtype out = t_dtype x /\
  exists pre size post,
    t_shape x = pre ++ size :: post /\ length pre = axis /\
    t_shape out = pre ++ t_shape indices ++ post /\
    forall p i q k, inside pre p -> inside (t_shape indices) i -> inside post q ->
      elt indices i = Some k -> elt out (p ++ i ++ q) = elt x (p ++ from_end size k :: q).
