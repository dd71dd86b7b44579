(** Model of the life of one Thread including its destructor
    (src/runtime/inside/thread_pool.cpp 10-53).  The destructor writes
    [is_running] and notifies without holding task_mutex, so here the test of
    the wait loop and the blocking that follows are separate steps. *)
From Coq Require Import List Bool.
Import ListNotations.

Inductive wpc :=
| Entering      (* started: about to lock task_mutex (42) *)
| Outer         (* 43: while (is_running) *)
| Inner         (* 44: while (is_running && !task) *)
| Committed     (* the condition of 44 held; about to block *)
| Asleep        (* blocked, mutex released *)
| Woken         (* about to lock task_mutex again *)
| Leaving       (* 45 *)
| Calling       (* 46-50 *)
| Exited.

Inductive dpc :=
| Alive         (* the destructor has not been called *)
| Notifying     (* 16 done *)
| JoiningCore   (* 17 done; in core.join() *)
| Destroyed.

Record life := mkLife {
  pc : wpc;
  dt : dpc;
  is_running : bool;
  task : option nat;
  handed : list nat;      (* tasks for which Thread::run returned *)
  executed : list nat
}.

Definition holds (s : life) : bool :=
  match pc s with Outer | Inner | Committed | Leaving | Calling => true | _ => false end.

Definition start : life := mkLife Entering Alive true None [] [].

Definition with_pc (s : life) (p : wpc) : life :=
  mkLife p (dt s) (is_running s) (task s) (handed s) (executed s).

(** task_cond.notify_all() *)
Definition notified (p : wpc) : wpc := match p with Asleep => Woken | _ => p end.

Definition no_task (s : life) : bool := match task s with None => true | Some _ => false end.

Inductive act := Worker | Run (t : nat) | DestroyBegin | DestroyGo | Spurious.

Inductive step : life -> act -> life -> Prop :=
| w_enter s : pc s = Entering -> step s Worker (with_pc s Outer)
| w_outer s : pc s = Outer ->
    step s Worker (with_pc s (if is_running s then Inner else Exited))
| w_inner s : pc s = Inner ->
    step s Worker (with_pc s (if is_running s && no_task s then Committed else Leaving))
| w_block s : pc s = Committed -> step s Worker (with_pc s Asleep)
| w_relock s : pc s = Woken -> step s Worker (with_pc s Inner)
| w_leave s : pc s = Leaving ->
    step s Worker (with_pc s (if is_running s then Calling else Exited))
| w_call s t : pc s = Calling -> task s = Some t ->
    step s Worker (mkLife Outer (dt s) (is_running s) None (handed s) (executed s ++ [t]))
| c_run s t : dt s = Alive -> holds s = false ->
    step s (Run t) (mkLife (notified (pc s)) (dt s) (is_running s) (Some t) (handed s ++ [t]) (executed s))
| d_flag s : dt s = Alive ->
    step s DestroyBegin (mkLife (pc s) Notifying false (task s) (handed s) (executed s))
| d_notify s : dt s = Notifying ->
    step s DestroyGo (mkLife (notified (pc s)) JoiningCore (is_running s) (task s) (handed s) (executed s))
| d_join s : dt s = JoiningCore -> pc s = Exited ->
    step s DestroyGo (mkLife (pc s) Destroyed (is_running s) (task s) (handed s) (executed s))
| spurious s : pc s = Asleep -> step s Spurious (with_pc s Woken).

Inductive run : life -> list act -> life -> Prop :=
| run_nil s : run s [] s
| run_cons s a s1 l s2 : step s a s1 -> run s1 l s2 -> run s (a :: l) s2.
