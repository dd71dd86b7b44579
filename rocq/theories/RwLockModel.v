(** Model of the readers/writer lock (include/utils/mutex.h 12-70).

    A configuration is the three counters of the lock and, for each of any
    number of threads, where the thread stands.  All accesses to the counters
    happen with [m_mutex_counter] held, so the code between taking the mutex
    and releasing it (by returning, or by blocking in [wait]) is one step.
    [notify_one] wakes an arbitrary thread blocked on the condition, if any;
    [notify_all] wakes them all; a blocked thread may also wake spuriously.  A
    woken thread takes the mutex again at some later time and evaluates the
    predicate again.

    Usage discipline (that of unique_read_lock / unique_write_lock, 72-140): a
    thread releases what it holds, and calls lock only when holding nothing. *)
From Coq Require Import List Bool Arith.
Import ListNotations.

Inductive place :=
| Away          (* not using the lock *)
| ReadBlocked   (* in m_cond_read.wait, asleep *)
| ReadWoken     (* woken, has not taken the mutex yet *)
| Reading       (* lock_read returned *)
| WriteBlocked  (* in m_cond_write.wait, asleep *)
| WriteWoken
| Writing.      (* lock_write returned *)

Record config := mkConfig {
  reads : nat;             (* m_read_count *)
  writes : nat;            (* m_write_count *)
  writing : bool;          (* m_writing *)
  places : list place
}.

Definition place_eqb (a b : place) : bool :=
  match a, b with
  | Away, Away | ReadBlocked, ReadBlocked | ReadWoken, ReadWoken | Reading, Reading
  | WriteBlocked, WriteBlocked | WriteWoken, WriteWoken | Writing, Writing => true
  | _, _ => false
  end.

Fixpoint set_place (l : list place) (i : nat) (p : place) : list place :=
  match l, i with
  | [], _ => []
  | _ :: r, O => p :: r
  | x :: r, S i' => x :: set_place r i' p
  end.

Definition place_of (c : config) (i : nat) : place := nth i (places c) Away.

Definition initial (n : nat) : config := mkConfig 0 0 false (repeat Away n).

(** 29-30: evaluation of the predicate of lock_read, with the mutex held *)
Definition read_attempt (c : config) (i : nat) : config :=
  if writes c =? 0
  then mkConfig (S (reads c)) (writes c) (writing c) (set_place (places c) i Reading)
  else mkConfig (reads c) (writes c) (writing c) (set_place (places c) i ReadBlocked).

(** 37-38 *)
Definition write_attempt (c : config) (i : nat) : config :=
  if (reads c =? 0) && negb (writing c)
  then mkConfig (reads c) (writes c) true (set_place (places c) i Writing)
  else mkConfig (reads c) (writes c) (writing c) (set_place (places c) i WriteBlocked).

(** m_cond_write.notify_one(): the possible results *)
Inductive notify_writer : list place -> list place -> Prop :=
| notify_none l : ~ In WriteBlocked l -> notify_writer l l
| notify_some l j : nth_error l j = Some WriteBlocked ->
    notify_writer l (set_place l j WriteWoken).

(** m_cond_read.notify_all() *)
Definition notify_readers (l : list place) : list place :=
  map (fun p => match p with ReadBlocked => ReadWoken | _ => p end) l.

Inductive event := LockRead | LockWrite | Retry | ReleaseRead | ReleaseWrite | Spurious.

Inductive step : config -> nat -> event -> config -> Prop :=
(* 26-31 *)
| s_lock_read c i : nth_error (places c) i = Some Away ->
    step c i LockRead (read_attempt c i)
(* 33-39: the count is raised before waiting *)
| s_lock_write c i : nth_error (places c) i = Some Away ->
    step c i LockWrite
         (write_attempt (mkConfig (reads c) (S (writes c)) (writing c) (places c)) i)
| s_retry_read c i : nth_error (places c) i = Some ReadWoken ->
    step c i Retry (read_attempt c i)
| s_retry_write c i : nth_error (places c) i = Some WriteWoken ->
    step c i Retry (write_attempt c i)
(* 41-48 *)
| s_release_read c i l : nth_error (places c) i = Some Reading ->
    (if (pred (reads c) =? 0) && (0 <? writes c)
     then notify_writer (set_place (places c) i Away) l
     else l = set_place (places c) i Away) ->
    step c i ReleaseRead (mkConfig (pred (reads c)) (writes c) (writing c) l)
(* 50-62 *)
| s_release_write c i l : nth_error (places c) i = Some Writing ->
    (if pred (writes c) =? 0
     then l = notify_readers (set_place (places c) i Away)
     else notify_writer (set_place (places c) i Away) l) ->
    step c i ReleaseWrite (mkConfig (reads c) (pred (writes c)) false l)
| s_spurious_read c i : nth_error (places c) i = Some ReadBlocked ->
    step c i Spurious (mkConfig (reads c) (writes c) (writing c) (set_place (places c) i ReadWoken))
| s_spurious_write c i : nth_error (places c) i = Some WriteBlocked ->
    step c i Spurious (mkConfig (reads c) (writes c) (writing c) (set_place (places c) i WriteWoken)).

(** Executions, any schedule. *)
Inductive run : config -> list (nat * event) -> config -> Prop :=
| run_nil c : run c [] c
| run_cons c i e c1 l c2 : step c i e c1 -> run c1 l c2 -> run c ((i, e) :: l) c2.

Definition reachable (n : nat) (c : config) : Prop := exists l, run (initial n) l c.
