(** What it means that an inferred type and shape is right. *)
From Coq Require Import List ZArith.
From Verif Require Import KernelBase InferModel.
Import ListNotations.
Local Open Scope Z_scope.

(** A size of a prototype is unknown (negative) or the true one. *)
Definition size_ok (d n : Z) : Prop := d < 0 \/ d = n.
Definition shape_ok (ds ns : list Z) : Prop := Forall2 size_ok ds ns.

(** The prototype says nothing wrong about the tensor. *)
Definition describes {A} (p : proto) (t : tensor A) : Prop :=
  p_dtype p = t_dtype t /\ shape_ok (p_shape p) (t_shape t).
