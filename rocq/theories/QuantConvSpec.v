(** Specification of the quantized convolution. *)
From Coq Require Import List ZArith QArith.
From Verif Require Import KernelBase.
Import ListNotations.
Local Open Scope Z_scope.

(** a tensor of signed bytes *)
Definition bytes (t : tensor Z) : Prop := t_dtype t = 1 /\ Forall (fun v => -128 <= v <= 127) (t_data t).
(** [z] is [v] without its fraction *)
Definition without_fraction (v : Q) (z : Z) : Prop :=
  ((0 <= v)%Q /\ (inject_Z z <= v)%Q /\ (v < inject_Z (z + 1))%Q) \/ ((v < 0)%Q /\ (inject_Z (z - 1) < v)%Q /\ (v <= inject_Z z)%Q).
(** the numbers of an int32 *)
Definition int32 (v : Z) : Prop := - 2 ^ 31 <= v <= 2 ^ 31 - 1.
