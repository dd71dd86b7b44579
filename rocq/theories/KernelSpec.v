(** Tensors as functions from coordinates to elements. *)
From Coq Require Import List ZArith.
From Verif Require Import ShapeSpec KernelBase.
Import ListNotations.
Local Open Scope Z_scope.

(** as many elements as the shape says *)
Definition wf {A} (t : tensor A) : Prop :=
  Forall (fun d => 0 <= d) (t_shape t) /\ Z.of_nat (length (t_data t)) = elements (t_shape t).

(** the element at a coordinate *)
Definition elt {A} (t : tensor A) (c : list Z) : option A :=
  nth_error (t_data t) (Z.to_nat (position (t_shape t) c)).

(** all the memory has been written *)
Definition filled {A} (t : tensor A) : tensor (option A) :=
  Tn (t_dtype t) (t_shape t) (map Some (t_data t)).

(** replace one entry *)
Fixpoint at_axis (n : nat) (f : Z -> Z) (l : list Z) : list Z :=
  match l, n with
  | [], _ => []
  | x :: t, O => f x :: t
  | x :: t, S n' => x :: at_axis n' f t
  end.

(** an axis given as a possibly negative number, for a rank *)
Definition axis_of (dim : Z) (rank : nat) (axis : nat) : Prop :=
  (axis < rank)%nat /\ (dim = Z.of_nat axis \/ dim = Z.of_nat axis - Z.of_nat rank).

(** sum of integers *)
Fixpoint total (l : list Z) : Z := match l with [] => 0 | x :: r => x + total r end.
