(** Model of include/utils/ctxmgr_lite.h (28-90) and ctxmgr_lite_support.h
    (15-118): one context type.  A context is a number; [None] is the null
    pointer.  Every thread has its own slot (m_ctx is thread_local).  A bind
    object lives on the stack of its thread: entering a scope constructs it,
    leaving the scope (normally or by an exception) destroys it. *)
From Coq Require Import List Bool Arith.
Import ListNotations.

Definition ctx := option nat.

(** what a thread does *)
Inductive act :=
| Enter (c : ctx)   (* bind(ctx): ctxmgr_lite.h 43-46 *)
| Leave             (* ~bind: 52-54 *)
| Set_ (c : ctx)    (* of<T>::set: support 102-104 *)
| Get               (* of<T>::get: support 105-108 *)
| Ref.              (* of<T>::ref: support 109-112 *)

(** a thread: its slot and the bind objects on its stack, innermost first
    (their m_pre_ctx) *)
Record thread := mkThread { slot : ctx; binds : list ctx }.
Definition new_thread : thread := mkThread None [].

Inductive seen := Nothing | Pointer (c : ctx) | Object (n : nat) | NoContext.

(** [None]: leaving a scope that was not entered *)
Definition act1 (t : thread) (a : act) : option (seen * thread) :=
  match a with
  | Enter c => Some (Nothing, mkThread c (slot t :: binds t))
  | Leave => match binds t with
             | pre :: r => Some (Nothing, mkThread pre r)
             | [] => None
             end
  | Set_ c => Some (Nothing, mkThread c (binds t))
  | Get => Some (Pointer (slot t), t)
  | Ref => Some (match slot t with Some n => Object n | None => NoContext end, t)
  end.

(** threads run in any order; [who] does the next action *)
Definition threads := nat -> thread.
Definition upd (ts : threads) (i : nat) (t : thread) : threads := fun j => if j =? i then t else ts j.
Fixpoint exec (ts : threads) (l : list (nat * act)) : option (list (nat * seen) * threads) :=
  match l with
  | [] => Some ([], ts)
  | (i, a) :: r =>
      match act1 (ts i) a with
      | None => None
      | Some (s, t) => match exec (upd ts i t) r with
                       | None => None
                       | Some (ss, ts') => Some ((i, s) :: ss, ts')
                       end
      end
  end.
Definition new_threads : threads := fun _ => new_thread.
