(** What a user of runtime contexts relies on. *)
From Coq Require Import List Bool ZArith.
From Verif Require Import RuntimeCtxModel.
Import ListNotations.
Local Open Scope Z_scope.

(** every context has a positive number of threads, and a pool of exactly that
    many which exists and is its own; every pool that exists has such an owner *)
Record sound (w : world) : Prop := {
  s_positive : forall a c, find w a = Some c -> 1 <= number c;
  s_pool : forall a c p, find w a = Some c -> pool c = Some p -> nth_error (pools w) p = Some (number c, true);
  s_own : forall a b c d p, find w a = Some c -> find w b = Some d -> pool c = Some p -> pool d = Some p -> a = b;
  s_owned : forall p n, nth_error (pools w) p = Some (n, true) -> exists a c, find w a = Some c /\ pool c = Some p }.

(** histories in which no moved-from context (one without a pool) is cloned *)
Inductive used procs env : world -> list call -> world -> Prop :=
| used_nil w : used procs env w [] w
| used_cons w x w' l w2 :
    (forall a c, x = Clone a -> find w a = Some c -> pool c <> None) ->
    (step procs env w x = Done w' \/ step procs env w x = Threw w') ->
    used procs env w' l w2 -> used procs env w (x :: l) w2.

(** the thread count a new context starts with *)
Definition default (procs : Z) (env : variable) : Z :=
  fixed procs (match env with Number n => n | _ => 4 end).
