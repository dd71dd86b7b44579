(** Proofs about the life of a Thread. *)
From Coq Require Import List Bool Lia.
From Verif Require Import ThreadLifeModel.
Import ListNotations.

(** The destructor is called while the worker is between testing the wait
    condition and blocking. *)
Definition lost_wakeup_run : list act :=
  [Worker; Worker; Worker; DestroyBegin; DestroyGo; Worker].
Definition stuck_life : life := mkLife Asleep JoiningCore false None [] [].

Lemma lost_wakeup : run start lost_wakeup_run stuck_life.
Proof.
  unfold lost_wakeup_run.
  eapply run_cons; [apply w_enter; reflexivity|].
  eapply run_cons; [apply w_outer; reflexivity|].
  eapply run_cons; [apply w_inner; reflexivity|].
  eapply run_cons; [apply d_flag; reflexivity|].
  eapply run_cons; [apply d_notify; reflexivity|].
  eapply run_cons; [apply w_block; reflexivity|].
  apply run_nil.
Qed.

Lemma stuck_life_stuck a s : step stuck_life a s -> a = Spurious.
Proof. intros H. inversion H; subst; try reflexivity; try discriminate. Qed.

Lemma dropped_task : exists l s, run start l s /\ dt s = Destroyed /\ handed s = [0] /\ executed s = [].
Proof.
  exists [Run 0; DestroyBegin; Worker; Worker; DestroyGo; DestroyGo].
  eexists. split.
  - eapply run_cons; [apply (c_run _ 0); reflexivity|].
    eapply run_cons; [apply d_flag; reflexivity|].
    eapply run_cons; [apply w_enter; reflexivity|].
    eapply run_cons; [apply w_outer; reflexivity|].
    eapply run_cons; [apply d_notify; reflexivity|].
    eapply run_cons; [apply d_join; reflexivity|].
    apply run_nil.
  - split; [reflexivity|]. split; reflexivity.
Qed.

Definition proceeds (a : act) : Prop := a = Worker \/ a = DestroyGo.

Definition dinv (s : life) : Prop :=
  is_running s = false /\ pc s <> Committed /\ (pc s = Calling -> task s <> None) /\
  (dt s = Notifying \/ (dt s = JoiningCore /\ pc s <> Asleep) \/ (dt s = Destroyed /\ pc s = Exited)).

Lemma calling_task l s : run start l s ->
  (pc s = Calling -> task s <> None) /\ (pc s = Leaving -> is_running s = true -> task s <> None) /\
  (dt s = Alive <-> is_running s = true).
Proof.
  assert (G : forall s0 l s, run s0 l s ->
    ((pc s0 = Calling -> task s0 <> None) /\ (pc s0 = Leaving -> is_running s0 = true -> task s0 <> None) /\
     (dt s0 = Alive <-> is_running s0 = true)) ->
    (pc s = Calling -> task s <> None) /\ (pc s = Leaving -> is_running s = true -> task s <> None) /\
    (dt s = Alive <-> is_running s = true)).
  { clear. induction 1 as [s|s a s1 l s2 Hs Hr IH]; intros H; [exact H|]. apply IH. clear IH Hr.
    destruct H as (H1 & H2 & H3).
    destruct Hs; simpl in *; unfold no_task in *.
    - repeat split; try discriminate; apply H3.
    - destruct (is_running s); repeat split; try discriminate; apply H3.
    - destruct (is_running s), (task s); simpl; repeat split; intros; try discriminate; apply H3; auto.
    - repeat split; try discriminate; apply H3.
    - repeat split; try discriminate; apply H3.
    - destruct (is_running s) eqn:E; repeat split; intros; try discriminate; auto; apply H3; auto.
    - repeat split; try discriminate; apply H3.
    - repeat split; intros; try discriminate; apply H3; auto.
    - repeat split; intros; try discriminate; auto.
    - repeat split; intros; try discriminate; try (destruct (pc s); try discriminate; auto; fail).
      exfalso. assert (dt s = Alive) by (apply H3; assumption). congruence.
    - repeat split; intros; try discriminate; auto; try congruence.
      exfalso. assert (dt s = Alive) by (apply H3; assumption). congruence.
    - repeat split; try discriminate; apply H3. }
  intros H. apply (G _ _ _ H). unfold start. simpl. repeat split; discriminate.
Qed.

Lemma dinv_step s a s' : step s a s' -> dinv s -> dinv s'.
Proof.
  intros Hs (H1 & H2 & H3 & H4). unfold dinv.
  destruct Hs; simpl in *; try congruence.
  - split; [assumption|]. split; [discriminate|]. split; [discriminate|]. intuition congruence.
  - rewrite H1 in *. split; [reflexivity|]. split; [discriminate|]. split; [discriminate|]. intuition congruence.
  - rewrite H1 in *. simpl. split; [reflexivity|]. split; [discriminate|]. split; [discriminate|]. intuition congruence.
  - split; [assumption|]. split; [discriminate|]. split; [discriminate|]. intuition congruence.
  - rewrite H1. split; [reflexivity|]. split; [discriminate|]. split; [discriminate|]. intuition congruence.
  - split; [assumption|]. split; [discriminate|]. split; [discriminate|]. intuition congruence.
  - destruct H4 as [H4|[[H4 _]|[H4 _]]]; congruence.
  - destruct H4 as [H4|[[H4 _]|[H4 _]]]; congruence.
  - split; [assumption|]. split; [destruct (pc s); simpl; congruence|].
    split; [destruct (pc s); simpl; try discriminate; auto|].
    right. left. split; [reflexivity|]. destruct (pc s); simpl; congruence.
  - split; [assumption|]. split; [congruence|]. split; [intros E; congruence|]. right. right. auto.
  - split; [assumption|]. split; [discriminate|]. split; [discriminate|]. intuition congruence.
Qed.

Lemma dinv_run s l s' : run s l s' -> dinv s -> dinv s'.
Proof. induction 1; eauto using dinv_step. Qed.

Lemma dinv_stuck s : dinv s -> (forall a s', step s a s' -> ~ proceeds a) -> dt s = Destroyed.
Proof.
  intros (H1 & H2 & H3 & H4) Hst.
  destruct H4 as [H4|[[H4 H5]|[H4 _]]]; [| |exact H4]; exfalso.
  - exact (Hst _ _ (d_notify s H4) (or_intror eq_refl)).
  - destruct (pc s) eqn:E; try congruence.
    + exact (Hst _ _ (w_enter s E) (or_introl eq_refl)).
    + exact (Hst _ _ (w_outer s E) (or_introl eq_refl)).
    + exact (Hst _ _ (w_inner s E) (or_introl eq_refl)).
    + exact (Hst _ _ (w_relock s E) (or_introl eq_refl)).
    + exact (Hst _ _ (w_leave s E) (or_introl eq_refl)).
    + destruct (task s) eqn:Et; [|exact (H3 eq_refl eq_refl)].
      exact (Hst _ _ (w_call s n E Et) (or_introl eq_refl)).
    + exact (Hst _ _ (d_join s H4 E) (or_intror eq_refl)).
Qed.

(** each pending step brings the end nearer *)
Definition wsteps (p : wpc) : nat :=
  match p with Exited => 0 | Outer | Leaving => 1 | Calling => 2 | Entering => 2 | Inner => 2 | Woken => 3
             | Asleep => 4 | Committed => 5 end.
Definition dsteps (d : dpc) : nat := match d with Alive => 3 | Notifying => 2 | JoiningCore => 1 | Destroyed => 0 end.

Lemma dinv_measure s a s' : dinv s -> step s a s' -> proceeds a ->
  wsteps (pc s') + dsteps (dt s') < wsteps (pc s) + dsteps (dt s).
Proof.
  intros (H1 & H2 & H3 & H4) Hs Ha.
  destruct Hs; simpl in *; try (destruct Ha; discriminate);
    try (rewrite H1 in * ); simpl; try (rewrite H); try (rewrite H0); simpl; try lia.
  destruct (pc s); simpl; lia.
Qed.

Lemma destroy_ends l0 s s1 l s2 : run start l0 s -> pc s <> Committed ->
  step s DestroyBegin s1 -> run s1 l s2 ->
  (Forall proceeds l -> length l <= 7) /\
  ((forall a s', step s2 a s' -> ~ proceeds a) -> dt s2 = Destroyed).
Proof.
  intros H0 Hp Hs Hr. destruct (calling_task _ _ H0) as (C1 & _ & C3).
  assert (D : dinv s1).
  { inversion Hs; subst. unfold dinv. simpl. auto. }
  split.
  - assert (G : forall s l s', run s l s' -> dinv s -> Forall proceeds l ->
      length l <= wsteps (pc s) + dsteps (dt s)).
    { clear. induction 1 as [s|s a s1 l s2 Hs Hr IH]; intros D Hf; [simpl; lia|].
      pose proof (Forall_inv Hf) as H1. apply Forall_inv_tail in Hf.
      pose proof (dinv_measure _ _ _ D Hs H1). specialize (IH (dinv_step _ _ _ Hs D) Hf). simpl. lia. }
    intros Hf. specialize (G _ _ _ Hr D Hf). inversion Hs; subst. simpl in G.
    destruct (pc s); simpl in *; try lia; congruence.
  - apply dinv_stuck. eapply dinv_run; eauto.
Qed.
