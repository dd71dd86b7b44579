(** Broadcasting of the third operand of gemm. *)
From Coq Require Import List ZArith.
From Verif Require Import KernelBase KernelSpec ConvSpec.
Import ListNotations.
Local Open Scope Z_scope.

(** the entry of a scalar, a vector or a matrix that is used at row [i] and
    column [j]: an axis of size one is repeated *)
Definition broadcast_value {R} (dflt : R) (C : tensor R) (i j : Z) : R :=
  let pick (d k : Z) := if d =? 1 then 0 else k in
  match t_shape C with
  | [] => value dflt C []
  | [c1] => value dflt C [pick c1 j]
  | [c0; c1] => value dflt C [pick c0 i; pick c1 j]
  | _ => dflt
  end.

(** a shape that can be broadcast to [m; n] *)
Definition broadcasts (s : list Z) (m n : Z) : Prop :=
  match s with
  | [] => True
  | [c1] => c1 = 1 \/ c1 = n
  | [c0; c1] => (c0 = 1 \/ c0 = m) /\ (c1 = 1 \/ c1 = n)
  | _ => False
  end.
