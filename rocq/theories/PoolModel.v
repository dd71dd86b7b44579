(** Model of Thread and ThreadPool (src/runtime/inside/thread_pool.cpp 10-122),
    without their destructors (those are in ThreadLifeModel.v).

    Any number of clients call [run], [join] and [Thread::join]; every
    interleaving of clients and workers is allowed.  A task is a number; it
    terminates without exception and does not use the pool ("TS_PARALLEL_XXX
    block do NOT support nest").  Code that runs with a mutex held is one step
    unless it holds the mutex while it calls the task or takes the other mutex:
    a worker keeps its task_mutex from the moment it finds a task until it
    sleeps again, which is several steps.  [wait] may wake spuriously. *)
From Coq Require Import List Bool Arith.
Import ListNotations.

Inductive wpc :=
| Asleep      (* in task_cond.wait *)
| Awake       (* started or woken, has not taken task_mutex yet *)
| Executing   (* in task(signet), holding task_mutex *)
| Executed    (* task returned; about to call after_task *)
| Recycled.   (* after_task returned; about to clear the task *)

Record worker := mkW { task : option nat; pc : wpc }.

Inductive client :=
| Free
| Loading (t : nat)             (* in run(t): about to take running_core_mutex *)
| LoadBlocked (t : nat)         (* waiting in load() *)
| Handing (k t : nat)           (* load() returned k; about to call Thread::run *)
| Inline (t : nat)              (* empty pool: has executed t itself *)
| Joining                       (* in ThreadPool::join, about to test *)
| JoinBlocked
| ThreadJoining (k : nat)       (* in Thread::join of worker k *)
| ThreadJoinBlocked (k : nat).

Record config := mkConfig {
  idle : list nat;              (* running_core *)
  workers : list worker;
  clients : list client
}.

Fixpoint upd {A} (l : list A) (i : nat) (x : A) : list A :=
  match l, i with
  | [], _ => []
  | _ :: r, O => x :: r
  | y :: r, S i' => y :: upd r i' x
  end.

(** 53-60 *)
Definition initial (n m : nat) : config :=
  mkConfig (seq 0 n) (repeat (mkW None Awake) n) (repeat Free m).

(** does the worker hold its task_mutex *)
Definition holds_mutex (w : worker) : bool :=
  match pc w with Asleep | Awake => false | _ => true end.

(** running_core_cond.notify_all() *)
Definition wake_pool (l : list client) : list client :=
  map (fun c => match c with LoadBlocked t => Loading t | JoinBlocked => Joining | _ => c end) l.

(** task_cond.notify_all() of worker k: clients in Thread::join, and (in
    [wake_worker]) the worker itself *)
Definition wake_thread (k : nat) (l : list client) : list client :=
  map (fun c => match c with
                | ThreadJoinBlocked k' => if k =? k' then ThreadJoining k' else c
                | _ => c end) l.
Definition wake_worker (w : wpc) : wpc := match w with Asleep => Awake | _ => w end.

Inductive event :=
| CallRun (i t : nat) | CallJoin (i : nat) | CallThreadJoin (i k : nat)
| RunReturned (i k t : nat) | JoinReturned (i : nat) | ThreadJoinReturned (i k : nat)
| Execute (k t : nat)
| Spurious | Quiet.

Inductive step : config -> event -> config -> Prop :=
(* a client calls *)
| s_call_run c i t : nth_error (clients c) i = Some Free ->
    step c (CallRun i t) (mkConfig (idle c) (workers c) (upd (clients c) i (Loading t)))
| s_call_join c i : nth_error (clients c) i = Some Free ->
    step c (CallJoin i) (mkConfig (idle c) (workers c) (upd (clients c) i Joining))
| s_call_thread_join c i k : nth_error (clients c) i = Some Free -> k < length (workers c) ->
    step c (CallThreadJoin i k) (mkConfig (idle c) (workers c) (upd (clients c) i (ThreadJoining k)))
(* 69-71, 84-86: an empty pool runs the task in the caller *)
| s_inline c i t : nth_error (clients c) i = Some (Loading t) -> workers c = [] ->
    step c (Execute 0 t) (mkConfig (idle c) (workers c) (upd (clients c) i (Inline t)))
| s_inline_return c i t : nth_error (clients c) i = Some (Inline t) ->
    step c (RunReturned i 0 t) (mkConfig (idle c) (workers c) (upd (clients c) i Free))
(* 98-104: load *)
| s_load_block c i t : nth_error (clients c) i = Some (Loading t) -> workers c <> [] -> idle c = [] ->
    step c Quiet (mkConfig (idle c) (workers c) (upd (clients c) i (LoadBlocked t)))
| s_load c i t k r : nth_error (clients c) i = Some (Loading t) -> workers c <> [] -> idle c = k :: r ->
    step c Quiet (mkConfig r (workers c) (upd (clients c) i (Handing k t)))
(* 21-27: Thread::run needs task_mutex; it overwrites the task *)
| s_hand c i k t w : nth_error (clients c) i = Some (Handing k t) ->
    nth_error (workers c) k = Some w -> holds_mutex w = false ->
    step c (RunReturned i k t)
         (mkConfig (idle c) (upd (workers c) k (mkW (Some t) (wake_worker (pc w))))
                   (wake_thread k (upd (clients c) i Free)))
(* 106-109 *)
| s_join_return c i : nth_error (clients c) i = Some Joining ->
    length (idle c) = length (workers c) ->
    step c (JoinReturned i) (mkConfig (idle c) (workers c) (upd (clients c) i Free))
| s_join_block c i : nth_error (clients c) i = Some Joining ->
    length (idle c) <> length (workers c) ->
    step c Quiet (mkConfig (idle c) (workers c) (upd (clients c) i JoinBlocked))
(* 36-39 *)
| s_thread_join_return c i k w : nth_error (clients c) i = Some (ThreadJoining k) ->
    nth_error (workers c) k = Some w -> holds_mutex w = false -> task w = None ->
    step c (ThreadJoinReturned i k) (mkConfig (idle c) (workers c) (upd (clients c) i Free))
| s_thread_join_block c i k w t : nth_error (clients c) i = Some (ThreadJoining k) ->
    nth_error (workers c) k = Some w -> holds_mutex w = false -> task w = Some t ->
    step c Quiet (mkConfig (idle c) (workers c) (upd (clients c) i (ThreadJoinBlocked k)))
(* 41-53: Thread::operating *)
| s_sleep c k w : nth_error (workers c) k = Some w -> pc w = Awake -> task w = None ->
    step c Quiet (mkConfig (idle c) (upd (workers c) k (mkW None Asleep)) (clients c))
| s_start c k w t : nth_error (workers c) k = Some w -> pc w = Awake -> task w = Some t ->
    step c Quiet (mkConfig (idle c) (upd (workers c) k (mkW (Some t) Executing)) (clients c))
| s_execute c k w t : nth_error (workers c) k = Some w -> pc w = Executing -> task w = Some t ->
    step c (Execute k t) (mkConfig (idle c) (upd (workers c) k (mkW (Some t) Executed)) (clients c))
(* 117-121: recycling_thread *)
| s_recycle c k w : nth_error (workers c) k = Some w -> pc w = Executed ->
    step c Quiet (mkConfig (k :: idle c) (upd (workers c) k (mkW (task w) Recycled))
                           (wake_pool (clients c)))
(* 48-50, then the loop condition: nothing to do, sleep *)
| s_clear c k w : nth_error (workers c) k = Some w -> pc w = Recycled ->
    step c Quiet (mkConfig (idle c) (upd (workers c) k (mkW None Asleep))
                           (wake_thread k (clients c)))
(* spurious wake-ups *)
| s_spurious_worker c k w : nth_error (workers c) k = Some w -> pc w = Asleep ->
    step c Spurious (mkConfig (idle c) (upd (workers c) k (mkW (task w) Awake)) (clients c))
| s_spurious_load c i t : nth_error (clients c) i = Some (LoadBlocked t) ->
    step c Spurious (mkConfig (idle c) (workers c) (upd (clients c) i (Loading t)))
| s_spurious_join c i : nth_error (clients c) i = Some JoinBlocked ->
    step c Spurious (mkConfig (idle c) (workers c) (upd (clients c) i Joining))
| s_spurious_thread_join c i k : nth_error (clients c) i = Some (ThreadJoinBlocked k) ->
    step c Spurious (mkConfig (idle c) (workers c) (upd (clients c) i (ThreadJoining k))).

Inductive run : config -> list event -> config -> Prop :=
| run_nil c : run c [] c
| run_cons c e c1 l c2 : step c e c1 -> run c1 l c2 -> run c (e :: l) c2.

(** 29-34: Thread::busy, with try_lock failing exactly when the mutex is held *)
Definition thread_busy (c : config) (k : nat) : option bool :=
  match nth_error (workers c) k with
  | None => None
  | Some w => if holds_mutex w then Some false
              else Some (match task w with Some _ => true | None => false end)
  end.

(** 111-116: ThreadPool::busy when try_lock succeeds *)
Definition pool_busy (c : config) : bool := negb (length (idle c) =? length (workers c)).
