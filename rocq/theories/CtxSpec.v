(** Nested scopes as a program text: what each read sees is determined by the
    scopes around it. *)
From Coq Require Import List Bool Arith.
From Verif Require Import CtxModel.
Import ListNotations.

Inductive stmt :=
| Scope (c : ctx) (body : list stmt)
| Assign (c : ctx)
| ReadPtr
| ReadRef.

(** the actions of a thread running it *)
Fixpoint acts (s : stmt) : list act :=
  match s with
  | Scope c body => Enter c :: concat (map acts body) ++ [Leave]
  | Assign c => [Set_ c]
  | ReadPtr => [Get]
  | ReadRef => [Ref]
  end.
Definition program (p : list stmt) : list act := concat (map acts p).

(** what it reads, in order, with [env] the context around it; an assignment
    holds until the end of the enclosing scope *)
Definition after (env : ctx) (s : stmt) : ctx := match s with Assign c => c | _ => env end.
Fixpoint sees (env : ctx) (s : stmt) : list seen :=
  match s with
  | Scope c body =>
      (fix go (env : ctx) (b : list stmt) : list seen :=
         match b with [] => [] | s :: r => sees env s ++ go (after env s) r end) c body
  | Assign _ => []
  | ReadPtr => [Pointer env]
  | ReadRef => [match env with Some n => Object n | None => NoContext end]
  end.
Fixpoint reads (env : ctx) (p : list stmt) : list seen :=
  match p with [] => [] | s :: r => sees env s ++ reads (after env s) r end.

(** a thread's own part of an interleaving *)
Definition of_thread {A} (i : nat) (l : list (nat * A)) : list A :=
  map snd (filter (fun x => fst x =? i) l).
Definition is_read (s : seen) : bool := match s with Nothing => false | _ => true end.
