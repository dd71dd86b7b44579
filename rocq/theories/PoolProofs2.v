(** Consequences of the thread pool invariant. *)
From Coq Require Import List Bool Arith Lia.
From Verif Require Import PoolModel PoolProofs.
Import ListNotations.

Lemma run_inv_gen c l c' : run c l c' -> forall h, inv h c -> inv (h ++ l) c'.
Proof.
  induction 1 as [c|c e c1 l c2 Hs Hr IH]; intros h I.
  - rewrite app_nil_r. exact I.
  - replace (h ++ e :: l) with ((h ++ [e]) ++ l) by (rewrite <- app_assoc; reflexivity).
    apply IH. eapply step_inv; eauto.
Qed.

Lemma run_inv n m l c : run (initial n m) l c -> inv l c.
Proof. intros H. exact (run_inv_gen _ _ _ H [] (inv_initial n m)). Qed.

Lemma run_app_inv c l1 l2 c2 : run c (l1 ++ l2) c2 -> exists c1, run c l1 c1 /\ run c1 l2 c2.
Proof.
  revert c. induction l1 as [|e l1 IH]; intros c H; simpl in *.
  - exists c. split; [constructor|exact H].
  - inversion H as [|c0 e0 ca l0 cb Hs Hr]; subst. destruct (IH _ Hr) as (c1 & H1 & H2).
    exists c1. split; [econstructor; eauto|exact H2].
Qed.

Lemma sum_le {A} (f g : A -> nat) l : (forall x, f x <= g x) -> sum f l <= sum g l.
Proof. intros H. induction l as [|x l IH]; simpl; [lia|]. specialize (H x). lia. Qed.

Lemma inline_le_pending t c : is_inline t c <= is_pending t c.
Proof. destruct c; simpl; lia. Qed.

Lemma executed_at_most_called n m l c t : run (initial n m) l c ->
  occ (is_execute t) l <= occ (is_call t) l.
Proof.
  intros H. apply run_inv in H. pose proof (i_calls _ _ H t). pose proof (i_exec _ _ H t).
  pose proof (sum_le _ _ (clients c) (inline_le_pending t)). lia.
Qed.

Lemma join_waits n m l1 i l2 c t : run (initial n m) (l1 ++ JoinReturned i :: l2) c ->
  occ (is_return t) l1 <= occ (is_execute t) l1.
Proof.
  intros H. apply run_app_inv in H. destruct H as (c1 & H1 & H2).
  apply run_inv in H1. inversion H2 as [|c0 e0 ca l0 cb Hs Hr]; subst.
  assert (HL : length (idle c1) = length (workers c1)) by (inversion Hs; subst; assumption).
  pose proof (i_exec _ _ H1 t).
  assert (sum (to_execute t) (workers c1) = 0).
  { apply sum_zero. intros k w Hw. apply unassigned_done. eapply full_unassigned; eauto. }
  lia.
Qed.

Lemma thread_join_waits n m l1 i k l2 c t : run (initial n m) (l1 ++ ThreadJoinReturned i k :: l2) c ->
  occ (is_return_at k t) l1 <= occ (is_execute_at k t) l1.
Proof.
  intros H. apply run_app_inv in H. destruct H as (c1 & H1 & H2).
  apply run_inv in H1. inversion H2 as [|c0 e0 ca l0 cb Hs Hr]; subst.
  pose proof (i_exec_at _ _ H1 k t) as H.
  inversion Hs; subst.
  unfold at_worker in H. rewrite H5 in H. unfold to_execute in H. rewrite H9 in H. lia.
Qed.

(** *** Progress *)

(** neither a new call nor a spurious wake-up *)
Lemma stuck_done l c : inv l c -> (forall e c', step c e c' -> ~ continues e) ->
  Forall (fun x => x = Free) (clients c) /\ Forall (fun w => task w = None) (workers c).
Proof.
  intros I Hstuck.
  assert (HW : forall k w, nth_error (workers c) k = Some w -> pc w = Asleep /\ task w = None).
  { intros k w Hw. pose proof (i_worker _ _ I w (nth_error_In _ _ Hw)) as Hok. unfold worker_ok in Hok.
    destruct (pc w) eqn:Ep; destruct (task w) eqn:Et; try (exfalso; exact Hok); auto; exfalso.
    - exact (Hstuck _ _ (s_start c k w n Hw Ep Et) Logic.I).
    - exact (Hstuck _ _ (s_sleep c k w Hw Ep Et) Logic.I).
    - exact (Hstuck _ _ (s_execute c k w n Hw Ep Et) Logic.I).
    - exact (Hstuck _ _ (s_recycle c k w Hw Ep) Logic.I).
    - exact (Hstuck _ _ (s_clear c k w Hw Ep) Logic.I). }
  assert (Hm : forall k w, nth_error (workers c) k = Some w -> holds_mutex w = false).
  { intros k w Hw. destruct (HW k w Hw) as [E _]. unfold holds_mutex. rewrite E. reflexivity. }
  assert (Hh : forall i k t, nth_error (clients c) i = Some (Handing k t) -> False).
  { intros i k t Hx. destruct (nth_error (workers c) k) as [w|] eqn:Hw.
    - exact (Hstuck _ _ (s_hand c i k t w Hx Hw (Hm _ _ Hw)) Logic.I).
    - pose proof (i_token _ _ I k) as H. apply nth_error_None in Hw. apply Nat.ltb_ge in Hw. rewrite Hw in H.
      pose proof (sum_nth (is_handing k) _ _ _ Hx) as Hs. simpl in Hs. rewrite Nat.eqb_refl in Hs. simpl in *. lia. }
  assert (Hfull : length (idle c) = length (workers c)).
  { apply Nat.le_antisymm; [exact (idle_length _ _ I)|].
    rewrite <- (seq_length (length (workers c)) 0). apply NoDup_incl_length; [apply seq_NoDup|].
    intros k Hk. apply in_seq in Hk. apply occ_nat_in. pose proof (i_token _ _ I k) as H.
    assert (Hlt : k < length (workers c)) by lia.
    destruct (nth_error (workers c) k) as [w|] eqn:Hw; [|apply nth_error_None in Hw; lia].
    unfold at_worker in H. rewrite Hw in H. destruct (HW k w Hw) as [_ Et].
    unfold assigned in H. rewrite Et in H. apply Nat.ltb_lt in Hlt. rewrite Hlt in H. simpl in H.
    assert (sum (is_handing k) (clients c) = 0).
    { apply sum_zero. intros i x Hx. destruct x; try reflexivity. exfalso. eapply Hh; eauto. }
    lia. }
  split.
  - apply Forall_forall. intros x Hx. destruct (In_nth_error _ _ Hx) as [i Hi].
    destruct x as [|t|t|k t|t| | |k|k]; [reflexivity|..]; exfalso.
    + destruct (workers c) eqn:Ew.
      * exact (Hstuck _ _ (s_inline c i t Hi Ew) Logic.I).
      * destruct (idle c) eqn:Ei; [simpl in Hfull; discriminate|].
        refine (Hstuck _ _ (s_load c i t _ _ Hi _ Ei) Logic.I). congruence.
    + destruct (i_load _ _ I t Hx) as [E1 E2]. rewrite E1 in Hfull. destruct (workers c); [auto|discriminate].
    + eapply Hh; eauto.
    + exact (Hstuck _ _ (s_inline_return c i t Hi) Logic.I).
    + exact (Hstuck _ _ (s_join_return c i Hi Hfull) Logic.I).
    + exact (i_join _ _ I Hx Hfull).
    + pose proof (i_tjoin _ _ I k (or_introl Hx)) as Hk.
      destruct (nth_error (workers c) k) as [w|] eqn:Hw; [|apply nth_error_None in Hw; lia].
      destruct (HW k w Hw) as [_ Et].
      exact (Hstuck _ _ (s_thread_join_return c i k w Hi Hw (Hm _ _ Hw) Et) Logic.I).
    + pose proof (i_tjoin _ _ I k (or_intror Hx)) as Hk.
      destruct (nth_error (workers c) k) as [w|] eqn:Hw; [|apply nth_error_None in Hw; lia].
      destruct (HW k w Hw) as [_ Et]. exact (i_tjoinb _ _ I k w Hx Hw Et).
  - apply Forall_forall. intros w Hw. apply In_nth_error in Hw. destruct Hw as [k Hk].
    destruct (HW k w Hk); assumption.
Qed.

Lemma stuck_all_executed l c t : inv l c -> (forall e c', step c e c' -> ~ continues e) ->
  occ (is_execute t) l = occ (is_call t) l /\ occ (is_return t) l = occ (is_call t) l.
Proof.
  intros I H. destruct (stuck_done _ _ I H) as [HC HW].
  rewrite Forall_forall in HC, HW.
  pose proof (i_calls _ _ I t) as H1. pose proof (i_exec _ _ I t) as H2.
  assert (S1 : sum (is_pending t) (clients c) = 0).
  { apply sum_zero. intros i x Hx. apply nth_error_In in Hx. rewrite (HC _ Hx). reflexivity. }
  assert (S2 : sum (is_inline t) (clients c) = 0).
  { apply sum_zero. intros i x Hx. apply nth_error_In in Hx. rewrite (HC _ Hx). reflexivity. }
  assert (S3 : sum (to_execute t) (workers c) = 0).
  { apply sum_zero. intros i x Hx. apply nth_error_In in Hx. unfold to_execute. rewrite (HW _ Hx). reflexivity. }
  lia.
Qed.

(** work left *)
Definition client_work (c : client) : nat :=
  match c with
  | Free => 0 | Loading _ | LoadBlocked _ => 6 | Handing _ _ => 5 | Inline _ => 1
  | Joining | JoinBlocked | ThreadJoining _ | ThreadJoinBlocked _ => 1
  end.
Definition worker_work (w : worker) : nat :=
  match task w, pc w with
  | None, _ => 0
  | Some _, (Asleep | Awake) => 4
  | Some _, Executing => 3
  | Some _, Executed => 2
  | Some _, Recycled => 1
  end.
Definition client_up (c : client) : nat :=
  match c with Loading _ | Joining | ThreadJoining _ => 1 | _ => 0 end.
Definition worker_up (w : worker) : nat := match pc w with Awake => 1 | _ => 0 end.

Definition work (c : config) : nat := sum client_work (clients c) + sum worker_work (workers c).
Definition up (c : config) : nat := sum client_up (clients c) + sum worker_up (workers c).

Lemma step_lengths c e c' : step c e c' ->
  length (clients c') = length (clients c) /\ length (workers c') = length (workers c).
Proof.
  destruct 1; simpl; unfold wake_thread, wake_pool; rewrite ?map_length, ?upd_length; auto.
Qed.

Lemma step_measure l c e c' : inv l c -> step c e c' -> continues e ->
  work c' < work c \/ (work c' = work c /\ up c' < up c).
Proof.
  intros I Hs. destruct Hs as
    [c i t Hx|c i Hx|c i k Hx Hk|c i t Hx Hn|c i t Hx|c i t Hx Hn Hi|c i t k r Hx Hn Hi
    |c i k t w Hx Hw Hm|c i Hx Hl|c i Hx Hl|c i k w Hx Hw Hm Ht|c i k w t Hx Hw Hm Ht
    |c k w Hw Hp Ht|c k w t Hw Hp Ht|c k w t Hw Hp Ht|c k w Hw Hp|c k w Hw Hp
    |c k w Hw Hp|c i t Hx|c i Hx|c i k Hx]; intros He; try (destruct He; fail); unfold work, up;
    cbn [workers clients].
  all: try (match goal with Hx : nth_error (clients _) ?i = Some _ |- context[upd (clients _) ?i ?y] =>
      pose proof (sum_upd client_work y _ _ _ Hx); pose proof (sum_upd client_up y _ _ _ Hx) end).
  all: try (match goal with Hw : nth_error (workers _) ?k = Some _ |- context[upd (workers _) ?k ?y] =>
      pose proof (sum_upd worker_work y _ _ _ Hw); pose proof (sum_upd worker_up y _ _ _ Hw) end).
  all: rewrite ?(sum_wake_thread client_work) by reflexivity;
       rewrite ?(sum_wake_pool client_work) by (intros; reflexivity).
  all: cbn [client_work client_up] in *.
  all: try lia.
  - (* hand *)
    assert (Htask : task w = None).
    { pose proof (i_token _ _ I k) as Hk'. unfold at_worker in Hk'. rewrite Hw in Hk'.
      pose proof (sum_nth (is_handing k) _ _ _ Hx) as Hh. simpl in Hh. rewrite Nat.eqb_refl in Hh. simpl in Hh.
      assert (Hk : k < length (workers c)) by (apply nth_error_Some; congruence).
      apply Nat.ltb_lt in Hk. rewrite Hk in Hk'. simpl in Hk'.
      assert (Ha : assigned w = 0) by lia. unfold assigned in Ha. unfold holds_mutex in Hm.
      destruct (task w); [|reflexivity]. destruct (pc w); simpl in *; try discriminate; lia. }
    left. assert (worker_work w = 0) by (unfold worker_work; rewrite Htask; reflexivity).
    assert (worker_work {| task := Some t; pc := wake_worker (pc w) |} = 4).
    { unfold worker_work, wake_worker, holds_mutex in *. simpl. destruct (pc w); try discriminate; reflexivity. }
    lia.
  - right. unfold worker_work, worker_up in *. cbn [task pc] in *. rewrite Ht, Hp in *. lia.
  - left. unfold worker_work, worker_up in *. cbn [task pc] in *. rewrite Ht, Hp in *. lia.
  - left. unfold worker_work, worker_up in *. cbn [task pc] in *. rewrite Ht, Hp in *. lia.
  - left. assert (exists t, task w = Some t) as [t Ht].
    { pose proof (i_worker _ _ I w (nth_error_In _ _ Hw)) as H1. unfold worker_ok in H1. rewrite Hp in H1.
      destruct (task w); [eauto|destruct H1]. }
    unfold worker_work, worker_up in *. cbn [task pc] in *. rewrite Ht, Hp in *. lia.
  - left. assert (exists t, task w = Some t) as [t Ht].
    { pose proof (i_worker _ _ I w (nth_error_In _ _ Hw)) as H1. unfold worker_ok in H1. rewrite Hp in H1.
      destruct (task w); [eauto|destruct H1]. }
    unfold worker_work, worker_up in *. cbn [task pc] in *. rewrite Ht, Hp in *. lia.
Qed.

Lemma up_bound c : up c <= length (clients c) + length (workers c).
Proof.
  unfold up.
  assert (H : forall {A} (f : A -> nat) l, (forall x, f x <= 1) -> sum f l <= length l).
  { intros A f l Hf. induction l as [|x l IH]; simpl; [lia|]. specialize (Hf x). lia. }
  pose proof (H _ client_up (clients c) ltac:(intros []; simpl; lia)).
  pose proof (H _ worker_up (workers c) ltac:(intros [? []]; simpl; unfold worker_up; simpl; lia)). lia.
Qed.

Lemma run_bounded c l c' : run c l c' -> forall h, inv h c -> Forall continues l ->
  length l + work c' * S (length (clients c) + length (workers c)) + up c'
  <= work c * S (length (clients c) + length (workers c)) + up c.
Proof.
  induction 1 as [c|c e c1 l c2 Hs Hr IH]; intros h I Hf; [simpl; lia|].
  pose proof (Forall_inv Hf) as H1. apply Forall_inv_tail in Hf.
  pose proof (step_measure _ _ _ _ I Hs H1) as HM.
  destruct (step_lengths _ _ _ Hs) as [L1 L2].
  specialize (IH (h ++ [e]) (step_inv _ _ _ _ Hs I) Hf). rewrite L1, L2 in IH.
  pose proof (up_bound c1) as HB. rewrite L1, L2 in HB. cbn [length].
  destruct HM as [HM|[HM1 HM2]]; [|rewrite HM1 in IH; lia].
  set (B := length (clients c) + length (workers c)) in *.
  assert (work c1 * S B + S B <= work c * S B) by nia. lia.
Qed.


(** *** Only an empty pool runs tasks in the caller *)
Lemma step_no_inline c e c' : step c e c' ->
  (workers c <> [] -> forall t, ~ In (Inline t) (clients c)) ->
  (workers c' <> [] -> forall t, ~ In (Inline t) (clients c')).
Proof.
  intros Hs IH Hw t Hin.
  assert (Hwk : workers c <> []).
  { intros E. apply Hw. destruct Hs; simpl; try exact E; rewrite E; try reflexivity; simpl; auto. }
  specialize (IH Hwk). clear Hw.
  destruct Hs; simpl in Hin;
    unfold wake_pool, wake_thread in Hin;
    try (apply in_map_iff in Hin; destruct Hin as (x & Ex & Hin));
    try (apply In_upd in Hin; destruct Hin as [Hin|Hin]);
    try discriminate Hin; try (exact (IH _ Hin)); try contradiction.
  all: try (subst x; discriminate Ex).
  all: try (destruct x; try discriminate Ex;
    try (destruct (_ =? _); discriminate Ex); injection Ex as ->; exact (IH _ Hin)).
Qed.

Lemma no_inline n m l c : run (initial n m) l c -> workers c <> [] ->
  forall t, sum (is_inline t) (clients c) = 0.
Proof.
  intros H.
  assert (G : forall c0 l0 c1, run c0 l0 c1 ->
    (workers c0 <> [] -> forall t, ~ In (Inline t) (clients c0)) ->
    (workers c1 <> [] -> forall t, ~ In (Inline t) (clients c1))).
  { clear. intros c0 l0 c1 H. induction H as [|c e c1 l c2 Hs Hr IH]; [auto|].
    intros H0. apply IH. eapply step_no_inline; eauto. }
  intros Hw t. assert (Hn := G _ _ _ H).
  assert (Hn' : forall t, ~ In (Inline t) (clients c)).
  { apply Hn; [|exact Hw]. intros _ t' Hin. simpl in Hin. apply repeat_spec in Hin. discriminate. }
  apply sum_zero. intros i x Hx. destruct x; simpl; try reflexivity.
  exfalso. apply (Hn' t0). eapply nth_error_In; eauto.
Qed.
