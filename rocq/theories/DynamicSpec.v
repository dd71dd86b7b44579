(** Specification for the operators whose paddings and windows are inputs. *)
From Coq Require Import List ZArith Bool.
From Verif Require Import KernelBase.
Import ListNotations.
Local Open Scope Z_scope.

(** Parameters of the same shape and values *)
Definition same (p q : tensor Z) : Prop := t_shape p = t_shape q /\ t_data p = t_data q.

(** A [4; 2] table of paddings and a 4-vector, with all their elements *)
Definition table (p : tensor Z) : Prop := t_shape p = [4; 2] /\ length (t_data p) = 8%nat.
Definition four (v : tensor Z) : Prop := t_shape v = [4] /\ length (t_data v) = 4%nat.

(** The axes of batch and channel: 0 and 1 of NCHW, 0 and 3 of NHWC *)
Definition other_axes (nchw : bool) : list nat := if nchw then [0; 1]%nat else [0; 3]%nat.
(** padded by nothing there *)
Definition unpadded (nchw : bool) (p : tensor Z) : Prop :=
  forall a, In a (other_axes nchw) -> nth_error (t_data p) (2 * a) = Some 0 /\ nth_error (t_data p) (2 * a + 1) = Some 0.
(** 1 there *)
Definition ones (nchw : bool) (v : tensor Z) : Prop :=
  forall a, In a (other_axes nchw) -> nth_error (t_data v) a = Some 1.

(** The parameters of the last call, if there was one *)
Definition latest {A} (h : list A) : option A := nth_error (rev h) 0.
