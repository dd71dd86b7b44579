(** Properties of the lock, the thread pool, parallel loops and synchronised
    memory: C23-C27, C60-C64. *)
From Coq Require Import List ZArith Bool Arith Lia Permutation.
From Verif Require RwLockModel RwLockProofs PoolModel PoolSpec PoolProofs PoolProofs2 ThreadLifeModel ThreadLifeProofs
  BinsModel BinsSpec BinsProofs SyncModel SyncSpec SyncProofs SyncProofs2.
Import ListNotations.

(** ** The readers/writer lock *)
Module Lock.
Import RwLockModel RwLockProofs.

(** C25: whatever the schedule, while a thread holds the lock for writing no
    other thread holds it, for reading or writing. *)
Theorem C25_writer_is_alone (n : nat) (c : config) (i j : nat) :
  reachable n c -> place_of c i = Writing ->
  place_of c j = Writing \/ place_of c j = Reading -> i = j.
Proof. apply exclusion. Qed.
Print Assumptions C25_writer_is_alone.

(** The counters are exact: they never under- or overflow the number of
    threads that read, or that write or want to. *)
Theorem C25_counters_exact (n : nat) (c : config) : reachable n c ->
  reads c = length (filter (place_eqb Reading) (places c)) /\
  writes c = length (filter (place_eqb WriteBlocked) (places c))
             + length (filter (place_eqb WriteWoken) (places c))
             + length (filter (place_eqb Writing) (places c)).
Proof. apply counts_exact. Qed.
Print Assumptions C25_counters_exact.

(** Several readers at once, then a writer alone: such states are reached. *)
Example C25_example :
  (exists c, reachable 3 c /\ place_of c 0 = Reading /\ place_of c 1 = Reading /\ place_of c 2 = WriteBlocked) /\
  (exists c, reachable 3 c /\ place_of c 2 = Writing /\ place_of c 0 = ReadBlocked).
Proof.
  split.
  - eexists. split.
    + exists [(0, LockRead); (1, LockRead); (2, LockWrite)].
      eapply run_cons; [apply s_lock_read; reflexivity|].
      eapply run_cons; [apply s_lock_read; reflexivity|].
      eapply run_cons; [apply s_lock_write; reflexivity|]. apply run_nil.
    + repeat split.
  - eexists. split.
    + exists [(2, LockWrite); (0, LockRead)].
      eapply run_cons; [apply s_lock_write; reflexivity|].
      eapply run_cons; [apply s_lock_read; reflexivity|]. apply run_nil.
    + repeat split.
Qed.

(** C26: suppose that from some reachable moment on nobody calls lock any more
    (and there are no spurious wake-ups to help).  Then only finitely many
    events can still happen; and when none can happen any more, every thread
    has got the lock and released it: nobody sleeps for ever. *)
Definition no_new_call (e : event) : Prop := e = Retry \/ e = ReleaseRead \/ e = ReleaseWrite.

Theorem C26_no_lost_wakeup (n : nat) (c : config) (l : list (nat * event)) (c' : config) :
  reachable n c -> run c l c' -> Forall (fun ie => no_new_call (snd ie)) l ->
  length l <= n * S n + n /\
  ((forall i e c2, step c' i e c2 -> ~ no_new_call e) ->
   forall i, place_of c' i = Away /\
     (place_of c i <> Away -> In (i, ReleaseRead) l \/ In (i, ReleaseWrite) l)).
Proof.
  intros Hr Hrun Hf.
  assert (Hf' : Forall (fun ie => pending_event (snd ie) = true) l).
  { eapply Forall_impl; [|exact Hf]. intros [i e] [H|[H|H]]; simpl in *; subst e; reflexivity. }
  split; [exact (run_bound n c l c' Hr Hrun Hf')|].
  intros Hstuck i.
  assert (Hr' : reachable n c').
  { destruct Hr as [l0 Hl0]. exists (l0 ++ l). clear - Hl0 Hrun.
    induction Hl0 as [|c0 j e c1 l1 c2 Hs Hl1 IH]; [exact Hrun|]. simpl. econstructor; [exact Hs|]. auto. }
  assert (Ha : place_of c' i = Away).
  { apply (stuck_all_away n c' Hr'). intros j e c2 Hs. specialize (Hstuck j e c2 Hs).
    destruct e; try reflexivity; exfalso; apply Hstuck; unfold no_new_call; auto. }
  split; [exact Ha|]. intros Hi. eapply run_leaves; eauto.
Qed.
Print Assumptions C26_no_lost_wakeup.

(** C60: while some thread writes or waits to write, no further thread starts
    reading. *)
Theorem C60_writers_go_first (n : nat) (c : config) (j : nat) (e : event) (c' : config) :
  reachable n c ->
  (exists i, place_of c i = WriteBlocked \/ place_of c i = WriteWoken \/ place_of c i = Writing) ->
  step c j e c' -> place_of c' j <> Reading.
Proof. intros H1 H2 H3 H4. exact (writers_first n c j e c' H1 H2 H3 H4). Qed.
Print Assumptions C60_writers_go_first.

Example C26_example : exists c l c', reachable 2 c /\ place_of c 1 = WriteBlocked /\ run c l c' /\
  Forall (fun ie => no_new_call (snd ie)) l /\ place_of c' 0 = Away /\ place_of c' 1 = Away.
Proof.
  eexists. exists [(0, ReleaseRead); (1, Retry); (1, ReleaseWrite)]. eexists.
  split; [exists [(0, LockRead); (1, LockWrite)];
    eapply run_cons; [apply s_lock_read; reflexivity|];
    eapply run_cons; [apply s_lock_write; reflexivity|]; apply run_nil|].
  split; [reflexivity|]. split.
  - eapply run_cons.
    { apply s_release_read; [reflexivity|]. cbn. apply (notify_some _ 1). reflexivity. }
    eapply run_cons; [apply s_retry_write; reflexivity|].
    eapply run_cons; [apply s_release_write; [reflexivity|cbn; reflexivity]|]. apply run_nil.
  - split; [|split; reflexivity].
    constructor; [right; left; reflexivity|]. constructor; [left; reflexivity|].
    constructor; [right; right; reflexivity|]. constructor.
Qed.
End Lock.

(** ** The thread pool *)
Module Pool.
Import PoolModel PoolSpec PoolProofs PoolProofs2.

(** C24: with any number of threads and clients, under every schedule, no task
    is executed more often than it was handed to the pool. *)
Theorem C24_at_most_once (n m : nat) (l : list event) (c : config) (t : nat) :
  run (initial n m) l c -> executions t l <= calls t l.
Proof. apply executed_at_most_called. Qed.
Print Assumptions C24_at_most_once.

(** When a ThreadPool::join returns, every task whose run had returned by then
    has been executed. *)
Theorem C24_join_waits (n m : nat) (l1 : list event) (i : nat) (l2 : list event) (c : config) (t : nat) :
  run (initial n m) (l1 ++ JoinReturned i :: l2) c -> returns t l1 <= executions t l1.
Proof. apply join_waits. Qed.
Print Assumptions C24_join_waits.

(** Thread::join on the thread that run returned waits for everything handed
    to that thread. *)
Theorem C61_thread_join_waits (n m : nat) (l1 : list event) (i k : nat) (l2 : list event) (c : config) (t : nat) :
  run (initial n m) (l1 ++ ThreadJoinReturned i k :: l2) c -> returns_on k t l1 <= executions_on k t l1.
Proof. apply thread_join_waits. Qed.
Print Assumptions C61_thread_join_waits.

(** C24, nothing is lost or stuck: if no further calls are made (and without
    spurious wake-ups), only finitely many events can happen, and when none can
    happen any more every call has returned and every task has been executed
    exactly as often as it was handed over. *)
Theorem C24_everything_completes (n m : nat) (l0 : list event) (c : config) (l : list event) (c' : config) :
  run (initial n m) l0 c -> run c l c' -> Forall continues l ->
  (exists bound, forall l' c2, run c l' c2 -> Forall continues l' -> length l' <= bound) /\
  ((forall e c2, step c' e c2 -> ~ continues e) ->
   Forall (fun x => x = Free) (clients c') /\
   forall t, executions t (l0 ++ l) = calls t (l0 ++ l) /\ returns t (l0 ++ l) = calls t (l0 ++ l)).
Proof.
  intros H0 H1 Hf. pose proof (run_inv _ _ _ _ H0) as I. split.
  - eexists. intros l' c2 Hr Hl'. pose proof (run_bounded _ _ _ Hr _ I Hl') as HB.
    eapply Nat.le_trans; [|exact HB]. lia.
  - intros Hs. pose proof (run_inv_gen _ _ _ H1 l0 I) as I'. split.
    + exact (proj1 (stuck_done _ _ I' Hs)).
    + intros t. exact (stuck_all_executed _ _ t I' Hs).
Qed.
Print Assumptions C24_everything_completes.

(** A run with two threads in the pool in which a client hands over two tasks
    and joins. *)
Example C24_example : exists l c, run (initial 1 1) l c /\
  l = [CallRun 0 7; Quiet; RunReturned 0 0 7; Quiet; CallJoin 0; Quiet; Execute 0 7; Quiet; JoinReturned 0].
Proof.
  eexists; eexists. split; [|reflexivity].
  eapply run_cons; [apply (s_call_run _ 0 7); reflexivity|].
  eapply run_cons; [eapply (s_load _ 0 7); [reflexivity|discriminate|reflexivity]|].
  eapply run_cons; [eapply (s_hand _ 0 0 7); reflexivity|].
  eapply run_cons; [eapply (s_start _ 0); reflexivity|].
  eapply run_cons; [apply (s_call_join _ 0); reflexivity|].
  eapply run_cons; [apply (s_join_block _ 0); [reflexivity|discriminate]|].
  eapply run_cons; [eapply (s_execute _ 0); reflexivity|].
  eapply run_cons; [eapply (s_recycle _ 0); reflexivity|].
  eapply run_cons; [apply (s_join_return _ 0); reflexivity|].
  apply run_nil.
Qed.

(** C62: "busy" should report a task in progress.  Thread::busy answers false
    all the time the worker is executing its task (try_lock fails). *)
Theorem C62_busy_refuted : exists l c k w, run (initial 1 1) l c /\
  nth_error (workers c) k = Some w /\ pc w = Executing /\ thread_busy c k = Some false.
Proof.
  exists [CallRun 0 7; Quiet; RunReturned 0 0 7; Quiet]. eexists. exists 0. eexists. split.
  - eapply run_cons; [apply (s_call_run _ 0 7); reflexivity|].
    eapply run_cons; [eapply (s_load _ 0 7); [reflexivity|discriminate|reflexivity]|].
    eapply run_cons; [eapply (s_hand _ 0 0 7); reflexivity|].
    eapply run_cons; [eapply (s_start _ 0); reflexivity|]. apply run_nil.
  - split; [reflexivity|]. split; reflexivity.
Qed.
Print Assumptions C62_busy_refuted.

(** What holds: an answer true means that a task was handed over that has not
    been executed; and a pool that reports not busy (with the mutex free) has
    executed everything handed over. *)
Theorem C62_busy_partial (n m : nat) (l : list event) (c : config) :
  run (initial n m) l c ->
  (forall k, thread_busy c k = Some true ->
     exists t, executions_on k t l < returns_on k t l) /\
  (pool_busy c = false -> forall t, returns t l <= executions t l).
Proof.
  intros Hrun. pose proof Hrun as H. apply run_inv in H. split.
  - intros k Hk. unfold thread_busy in Hk. destruct (nth_error (workers c) k) as [w|] eqn:Hw; [|discriminate].
    destruct (holds_mutex w) eqn:Hm; [discriminate|]. destruct (task w) as [t|] eqn:Et; [|discriminate].
    exists t. pose proof (i_exec_at _ _ H k t) as E. unfold at_worker in E. rewrite Hw in E.
    unfold to_execute in E. rewrite Et in E.
    rewrite (no_inline n m l c Hrun) in E; [|intros H0; rewrite H0 in Hw; destruct k; discriminate].
    unfold occ in *. unfold executions_on, returns_on in *.
    unfold holds_mutex in Hm. destruct (pc w); try discriminate Hm; rewrite Nat.eqb_refl in E; simpl in E;
      destruct (k =? 0); lia.
  - intros Hb t. unfold pool_busy in Hb. apply negb_false_iff, Nat.eqb_eq in Hb.
    pose proof (i_exec _ _ H t) as E.
    assert (sum (to_execute t) (workers c) = 0).
    { apply sum_zero. intros k w Hw. apply unassigned_done. eapply full_unassigned; eauto. }
    unfold returns, executions. unfold occ in E. lia.
Qed.
Print Assumptions C62_busy_partial.
End Pool.

(** ** Destroying a thread *)
Module Life.
Import ThreadLifeModel ThreadLifeProofs.

(** C63: destroying a Thread should always return.  It does not: if the
    destructor runs while the worker is between testing its wait condition and
    blocking, the notification is lost; worker and destructor then wait for
    each other, and nothing but a spurious wake-up can happen. *)
Theorem C63_destructor_returns_refuted : exists l s, run start l s /\
  dt s = JoiningCore /\ pc s = Asleep /\
  (forall a s', step s a s' -> a = Spurious).
Proof.
  exists lost_wakeup_run, stuck_life. split; [exact lost_wakeup|].
  split; [reflexivity|]. split; [reflexivity|]. exact stuck_life_stuck.
Qed.
Print Assumptions C63_destructor_returns_refuted.

(** In every other case it returns, after at most seven further steps. *)
Theorem C63_destructor_returns_partial (l0 : list act) (s s1 : life) (l : list act) (s2 : life) :
  run start l0 s -> pc s <> Committed -> step s DestroyBegin s1 -> run s1 l s2 ->
  (Forall (fun a => a = Worker \/ a = DestroyGo) l -> length l <= 7) /\
  ((forall a s', step s2 a s' -> ~ (a = Worker \/ a = DestroyGo)) -> dt s2 = Destroyed).
Proof. apply destroy_ends. Qed.
Print Assumptions C63_destructor_returns_partial.

(** C64: a task handed to a thread should be executed even if the thread is
    destroyed afterwards.  It may be dropped. *)
Theorem C64_task_survives_destruction_refuted : exists l s, run start l s /\
  dt s = Destroyed /\ handed s = [0] /\ executed s = [].
Proof. exact dropped_task. Qed.
Print Assumptions C64_task_survives_destruction_refuted.

Example C63_example : exists s s1, run start [Worker; Worker; Worker; Worker] s /\ pc s = Asleep /\
  step s DestroyBegin s1 /\ exists s2, run s1 [DestroyGo; Worker; Worker; Worker; DestroyGo] s2 /\ dt s2 = Destroyed.
Proof.
  eexists; eexists. split.
  { eapply run_cons; [apply w_enter; reflexivity|].
    eapply run_cons; [apply w_outer; reflexivity|].
    eapply run_cons; [apply w_inner; reflexivity|].
    eapply run_cons; [apply w_block; reflexivity|]. apply run_nil. }
  split; [reflexivity|]. split; [apply d_flag; reflexivity|].
  eexists. split.
  { eapply run_cons; [apply d_notify; reflexivity|].
    eapply run_cons; [apply w_relock; reflexivity|].
    eapply run_cons; [apply w_inner; reflexivity|].
    eapply run_cons; [apply w_leave; reflexivity|].
    eapply run_cons; [apply d_join; reflexivity|]. apply run_nil. }
  reflexivity.
Qed.
End Life.

(** ** Parallel loops *)
Module Bins.
Import BinsModel BinsSpec BinsProofs.
Local Open Scope Z_scope.

(** C27: split_bins cuts [first, second) into consecutive non-empty ranges that
    together contain every index exactly once and in order; there are at most
    [bins], all of the same size except that the last may be smaller, and that
    size is the rounded-up average.  Missing: ranges so near to INT_MAX that
    anchor + step overflows. *)
Theorem C27_split_bins_partial (first second bins : Z) :
  first < second -> 1 <= bins -> second - 1 + ceil_div (second - first) bins <= 2147483647 ->
  exists l, split_bins first second bins = BOk l /\
    indices l = range first second /\
    Forall (fun p => fst p < snd p) l /\
    Z.of_nat (length l) <= bins /\
    (1 < bins -> Forall (fun p => snd p - fst p <= ceil_div (second - first) bins) l /\
                 Forall (fun p => snd p - fst p = ceil_div (second - first) bins) (removelast l)).
Proof. apply split_bins_spec'. Qed.
Print Assumptions C27_split_bins_partial.

(** In particular for all non-negative ranges below 2^30. *)
Theorem C27_split_bins_below_2_30 (first second bins : Z) :
  0 <= first < second -> 1 <= bins -> second <= 1073741824 ->
  exists l, split_bins first second bins = BOk l /\ indices l = range first second /\
    Z.of_nat (length l) <= bins.
Proof.
  intros H1 H2 H3. destruct (split_bins_spec first second bins) as (l & E & Hi & _ & Hn & _); try lia.
  - apply small_enough; lia.
  - exists l. auto.
Qed.
Print Assumptions C27_split_bins_below_2_30.

Theorem C27_balanced (first second bins : Z) (l : list (Z * Z)) :
  first < second -> 1 < bins -> second - 1 + ceil_div (second - first) bins <= 2147483647 ->
  split_bins first second bins = BOk l ->
  Forall (fun p => (snd p - fst p - 1) * bins < second - first) l.
Proof. intros H1 H2 H3. rewrite <- bin_step_ceil in H3 by lia. apply split_bins_step; assumption. Qed.
Print Assumptions C27_balanced.

(** Near INT_MAX the addition overflows. *)
Theorem C27_split_bins_refuted : exists first second bins,
  0 <= first < second /\ second <= 2147483647 /\ 1 <= bins /\ split_bins first second bins = BUndef.
Proof. exists 0, 2147483647, 2. repeat split; try lia. Qed.
Print Assumptions C27_split_bins_refuted.

(** A parallel loop over [b, e) covers every index exactly once, whatever pool
    there is. *)
Theorem C27_parallel_ranges (pool : option nat) (b e : Z) :
  0 <= b <= e -> e <= 1073741824 ->
  exists l, parallel_ranges pool b e = BOk l /\ indices l = range b e.
Proof. intros. apply parallel_ranges_spec; lia. Qed.
Print Assumptions C27_parallel_ranges.

(** And executed on the pool: if task number r stands for the r-th range, each
    was handed over once and run returned for each before a join returned,
    then at that point each was executed exactly once, under every schedule. *)
Theorem C27_parallel_run (n m : nat) (b e : Z) (ranges : list (Z * Z)) l1 i l2 c :
  0 <= b <= e -> e <= 1073741824 -> parallel_ranges (Some n) b e = BOk ranges ->
  PoolModel.run (PoolModel.initial n m) (l1 ++ PoolModel.JoinReturned i :: l2) c ->
  (forall r, (r < length ranges)%nat -> PoolSpec.calls r l1 = 1%nat /\ PoolSpec.returns r l1 = 1%nat) ->
  indices ranges = range b e /\ forall r, (r < length ranges)%nat -> PoolSpec.executions r l1 = 1%nat.
Proof.
  intros H1 H2 H3 H4 H5. split.
  - destruct (parallel_ranges_spec (Some n) b e) as (l & E & Hi); try lia. congruence.
  - intros r Hr. destruct (H5 r Hr) as [E1 E2].
    pose proof (Pool.C24_join_waits _ _ _ _ _ _ r H4).
    destruct (PoolProofs2.run_app_inv _ _ _ _ H4) as (c1 & Hr1 & _).
    pose proof (Pool.C24_at_most_once _ _ _ _ r Hr1). lia.
Qed.
Print Assumptions C27_parallel_run.

Example C27_example : split_bins 0 10 4 = BOk [(0, 3); (3, 6); (6, 9); (9, 10)] /\
  split_bins 5 8 8 = BOk [(5, 6); (6, 7); (7, 8)] /\ parallel_ranges (Some 3%nat) 0 1 = BOk [(0, 1)].
Proof. repeat split. Qed.
End Bins.

(** ** Synchronised memory *)
Module Sync.
Import SyncModel SyncSpec SyncProofs SyncProofs2.

(** C23: copying between devices preserves the content.  Then for every
    history of reads, views and updates through handles that no update of
    another handle has disabled, every read on every device gives the content
    of the last update.  Missing: handles used after an update through another
    one, see below. *)
Theorem C23_coherent_partial {V C : Type} (convert : V -> nat -> nat -> V) (content : V -> C)
    (k : nat) (v : V) (history : list (use V)) (answers : list (option C)) (s : ideal C) :
  (forall v a b, content (convert v a b) = content v) ->
  ideal_steps content (mkIdeal [k] [true] (content v)) history = Some (answers, s) ->
  exists replies b, steps convert (make k v) (concat (map ops_of history)) = Some (replies, b) /\
    map (seen content) replies = answers.
Proof.
  intros Hc H. destruct (uses_spec convert content Hc history _ _ _ _ (rel_make content k v) H)
    as (r & b & H1 & H2 & _). eauto.
Qed.
Print Assumptions C23_coherent_partial.

(** Until a broadcast, the value is copied at most once to each device and
    never to the device it came from. *)
Theorem C23_one_copy_per_device {V : Type} (convert : V -> nat -> nat -> V) (k : nat) (v : V)
    (l : list (op V)) (replies : list (answer V)) (b : block V) :
  (forall i, ~ In (OBroadcast i) l) ->
  steps convert (make k v) l = Some (replies, b) -> NoDup (copies b) /\ ~ In k (copies b).
Proof.
  intros Hn H.
  assert (Hf : Forall no_broadcast l).
  { apply Forall_forall. intros o Ho. destruct o; simpl; auto. exact (Hn _ Ho). }
  destruct (steps_copies convert k l _ _ _ (make_copies k v) Hf H) as (H1 & H2 & _). auto.
Qed.
Print Assumptions C23_one_copy_per_device.

(** What is read on a device is on that device: if the handler copies to the
    device it is asked to and values are stored where they belong, every
    [sync(key)] in every history - broadcasts included - returns a value on
    device [key]. *)
Theorem C23_on_the_device {V : Type} (convert : V -> nat -> nat -> V) (place : V -> nat) (k : nat) (v : V)
    (l : list (op V)) (i key : nat) (replies : list (answer V)) (x : V) (b : block V) :
  (forall v from to, place (convert v from to) = to) -> place v = k ->
  (forall j key' y, In (OWrite j key' y) l -> place y = key') ->
  steps convert (make k v) (l ++ [OSync i key]) = Some (replies ++ [AValue x], b) -> place x = key.
Proof.
  intros Hc Hv Hw H.
  assert (F : Forall (writes_in_place place) (l ++ [OSync i key])).
  { apply Forall_app. split; [|constructor; [exact I|constructor]].
    apply Forall_forall. intros o Ho. destruct o; simpl; auto. exact (Hw _ _ _ Ho). }
  destruct (steps_placed convert place Hc _ _ _ _ _ (make_placed place k v Hv) F H) as (A & _).
  apply Forall2_app_inv_l in A. destruct A as (r1 & r2 & _ & A2 & E).
  inversion A2 as [|o y ? r2' Ha A3]; subst. inversion A3; subst.
  apply app_inj_tail in E. destruct E as [_ <-]. exact Ha.
Qed.
Print Assumptions C23_on_the_device.

(** A handle used after another handle's broadcast reads freed memory. *)
Theorem C23_stale_handle_refuted : exists l : list (op nat),
  l = [OView 0 1; OBroadcast 1; OValue 0] /\ steps (fun v _ _ => v) (make 0 42) l = None.
Proof. eexists. split; reflexivity. Qed.
Print Assumptions C23_stale_handle_refuted.

Example C23_example :
  steps (fun v _ _ => v) (make 0 42)
    (concat (map ops_of [Read 0 1; View 0 2; Update 1 2 43; Read 1 0; Read 1 1; ReadOwn 1]))
  = Some ([AValue 42; ANone; ANone; ANone; AValue 43; AValue 43; AValue 43],
          mkBlock [None; None; None; Some 43; Some 43; Some 43] [(2, 3); (0, 4); (1, 5)]
                  [mkHandle 0 0; mkHandle 2 3] [1; 2; 0; 1]) /\
  (exists s, ideal_steps (fun v => v) (mkIdeal [0] [true] 42)
     [Read 0 1; View 0 2; Update 1 2 43; Read 1 0; Read 1 1; ReadOwn 1]
   = Some ([Some 42; None; None; None; Some 43; Some 43; Some 43], s)).
Proof. split; [reflexivity|]. eexists. reflexivity. Qed.
End Sync.
