(** What a user observes of a thread pool: how often which task was handed
    over, how often run returned, how often the task was executed. *)
From Coq Require Import List Bool Arith.
From Verif Require Import PoolModel.
Import ListNotations.

Definition is_call (t : nat) (e : event) : bool := match e with CallRun _ t' => t =? t' | _ => false end.
Definition is_return (t : nat) (e : event) : bool := match e with RunReturned _ _ t' => t =? t' | _ => false end.
Definition is_execute (t : nat) (e : event) : bool := match e with Execute _ t' => t =? t' | _ => false end.
Definition is_return_at (k t : nat) (e : event) : bool :=
  match e with RunReturned _ k' t' => (k =? k') && (t =? t') | _ => false end.
Definition is_execute_at (k t : nat) (e : event) : bool :=
  match e with Execute k' t' => (k =? k') && (t =? t') | _ => false end.

(** how often task [t] was handed to run / run returned / the task was executed *)
Definition calls (t : nat) (l : list event) : nat := length (filter (is_call t) l).
Definition returns (t : nat) (l : list event) : nat := length (filter (is_return t) l).
Definition executions (t : nat) (l : list event) : nat := length (filter (is_execute t) l).
(** ... on thread [k] *)
Definition returns_on (k t : nat) (l : list event) : nat := length (filter (is_return_at k t) l).
Definition executions_on (k t : nat) (l : list event) : nat := length (filter (is_execute_at k t) l).

(** events other than new calls and spurious wake-ups *)
Definition continues (e : event) : Prop :=
  match e with CallRun _ _ | CallJoin _ | CallThreadJoin _ _ | Spurious => False | _ => True end.

