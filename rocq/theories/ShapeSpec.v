(** Shapes and row-major order, independently of the code. *)
From Coq Require Import List ZArith.
Import ListNotations.
Local Open Scope Z_scope.

(** Number of elements. *)
Fixpoint elements (shape : list Z) : Z :=
  match shape with [] => 1 | d :: rest => d * elements rest end.

Definition positive_shape (shape : list Z) : Prop := Forall (fun d => 0 < d) shape.

(** A coordinate inside a shape. *)
Definition inside (shape coordinate : list Z) : Prop :=
  Forall2 (fun d c => 0 <= c < d) shape coordinate.

(** Row-major position of a coordinate. *)
Fixpoint position (shape coordinate : list Z) : Z :=
  match shape, coordinate with
  | _ :: ds, c :: cs => c * elements ds + position ds cs
  | _, _ => 0
  end.

(** [s] is what a requested shape with wildcards may stand for. *)
Definition fits (requested s : list Z) : Prop :=
  Forall2 (fun w x => if w <? 0 then 0 <= x else x = w) requested s.

(** At most one wildcard. *)
Definition one_wildcard (requested : list Z) : Prop :=
  (length (filter (fun w => (w <? 0)%Z) requested) <= 1)%nat.

(** Applying a function [n] times. *)
Fixpoint times {A} (n : nat) (f : A -> A) (x : A) : A :=
  match n with O => x | S n' => f (times n' f x) end.
