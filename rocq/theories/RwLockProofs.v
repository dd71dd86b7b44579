(** Proofs about the readers/writer lock. *)
From Coq Require Import List Bool Arith Lia.
From Verif Require Import RwLockModel.
Import ListNotations.

Definition count (p : place) (l : list place) : nat := length (filter (place_eqb p) l).
Definition b2n (b : bool) : nat := if b then 1 else 0.

Lemma place_eqb_eq a b : place_eqb a b = true <-> a = b.
Proof. destruct a, b; simpl; split; congruence. Qed.

Lemma count_cons p x l : count p (x :: l) = b2n (place_eqb p x) + count p l.
Proof. unfold count. simpl. destruct (place_eqb p x); reflexivity. Qed.

Lemma count_set p r : forall l i q, nth_error l i = Some q ->
  count p (set_place l i r) + b2n (place_eqb p q) = count p l + b2n (place_eqb p r).
Proof.
  induction l as [|x l IH]; intros i q H; destruct i as [|i]; try discriminate H.
  - injection H as ->. simpl. rewrite !count_cons. lia.
  - simpl in H |- *. specialize (IH i q H). rewrite !count_cons. lia.
Qed.

Lemma set_place_nth l i r : forall j,
  nth j (set_place l i r) Away = if (j =? i) && (i <? length l) then r else nth j l Away.
Proof.
  revert i. induction l as [|x l IH]; intros i j.
  - destruct i; simpl; destruct j; simpl; rewrite ?andb_false_r; reflexivity.
  - destruct i as [|i], j as [|j]; simpl; auto.
    rewrite IH. reflexivity.
Qed.

Lemma set_place_length l i r : length (set_place l i r) = length l.
Proof. revert i. induction l as [|x l IH]; intros [|i]; simpl; auto. Qed.

Lemma count_pos p l : 0 < count p l <-> In p l.
Proof.
  unfold count. split.
  - intros H. destruct (filter (place_eqb p) l) as [|y r] eqn:E; [simpl in H; lia|].
    assert (Hin : In y (filter (place_eqb p) l)) by (rewrite E; left; reflexivity).
    apply filter_In in Hin. destruct Hin as [Hin Heq]. apply place_eqb_eq in Heq. subst. exact Hin.
  - intros H. assert (Hin : In p (filter (place_eqb p) l)).
    { apply filter_In. split; [exact H|]. apply place_eqb_eq. reflexivity. }
    destruct (filter (place_eqb p) l); [destruct Hin|simpl; lia].
Qed.

Lemma count_nth p l i : nth_error l i = Some p -> 0 < count p l.
Proof. intros H. apply count_pos. eapply nth_error_In; eauto. Qed.

Lemma count_two p : forall l i j, nth_error l i = Some p -> nth_error l j = Some p -> i <> j ->
  2 <= count p l.
Proof.
  induction l as [|x l IH]; intros i j Hi Hj Hne; destruct i as [|i], j as [|j]; try discriminate; try lia.
  - simpl in Hi, Hj. injection Hi as ->. rewrite count_cons.
    assert (place_eqb p p = true) as -> by (apply place_eqb_eq; reflexivity).
    pose proof (count_nth _ _ _ Hj). simpl. lia.
  - simpl in Hi, Hj. injection Hj as ->. rewrite count_cons.
    assert (place_eqb p p = true) as -> by (apply place_eqb_eq; reflexivity).
    pose proof (count_nth _ _ _ Hi). simpl. lia.
  - simpl in Hi, Hj. rewrite count_cons. specialize (IH i j Hi Hj). lia.
Qed.

Lemma count_notify_readers p l :
  count p (notify_readers l) =
  match p with
  | ReadBlocked => 0
  | ReadWoken => count ReadWoken l + count ReadBlocked l
  | _ => count p l
  end.
Proof.
  induction l as [|x l IH].
  - destruct p; reflexivity.
  - simpl. rewrite count_cons, IH, !count_cons. destruct p, x; simpl; lia.
Qed.

(** the counts after [notify_one] *)
Lemma notify_writer_counts l l' : notify_writer l l' ->
  (forall p, p <> WriteBlocked -> p <> WriteWoken -> count p l' = count p l) /\
  count WriteBlocked l' + count WriteWoken l' = count WriteBlocked l + count WriteWoken l /\
  count WriteWoken l <= count WriteWoken l' /\
  count WriteBlocked l' = pred (count WriteBlocked l) /\
  (0 < count WriteBlocked l -> 0 < count WriteWoken l').
Proof.
  intros H. destruct H as [l Hno | l j Hj].
  - assert (count WriteBlocked l = 0).
    { destruct (count WriteBlocked l) eqn:E; [reflexivity|]. exfalso. apply Hno, count_pos. lia. }
    repeat split; intros; try reflexivity; lia.
  - pose proof (count_set WriteBlocked WriteWoken l j _ Hj) as H1.
    pose proof (count_set WriteWoken WriteWoken l j _ Hj) as H2.
    simpl in H1, H2. repeat split; try lia.
    intros p Hp Hq. pose proof (count_set p WriteWoken l j _ Hj) as H3.
    assert (place_eqb p WriteBlocked = false) as E1 by (destruct p; try reflexivity; congruence).
    assert (place_eqb p WriteWoken = false) as E2 by (destruct p; try reflexivity; congruence).
    rewrite E1, E2 in H3. simpl in H3. lia.
Qed.

Lemma notify_writer_length l l' : notify_writer l l' -> length l' = length l.
Proof. intros H. destruct H; [reflexivity|apply set_place_length]. Qed.

Record inv (c : config) : Prop := mkInv {
  i_reads : reads c = count Reading (places c);
  i_writes : writes c = count WriteBlocked (places c) + count WriteWoken (places c)
                        + count Writing (places c);
  i_writing : b2n (writing c) = count Writing (places c);
  i_excl : 0 < count Writing (places c) -> count Reading (places c) = 0;
  i_readers : 0 < count ReadBlocked (places c) -> 0 < writes c;
  i_token : reads c = 0 -> count Writing (places c) = 0 -> 0 < writes c ->
            0 < count WriteWoken (places c)
}.

Lemma inv_initial n : inv (initial n).
Proof.
  assert (H : forall p, p <> Away -> count p (repeat Away n) = 0).
  { intros p Hp. induction n as [|n IH]; [reflexivity|]. simpl. rewrite count_cons, IH.
    destruct p; simpl; try reflexivity. congruence. }
  constructor; cbn [initial reads writes writing places]; rewrite ?H by discriminate;
    try reflexivity; try (intros; exfalso; lia).
Qed.

Ltac counts Hp r :=
  match type of Hp with nth_error ?l ?i = Some ?q =>
    pose proof (count_set Reading r l i q Hp);
    pose proof (count_set Writing r l i q Hp);
    pose proof (count_set WriteBlocked r l i q Hp);
    pose proof (count_set WriteWoken r l i q Hp);
    pose proof (count_set ReadBlocked r l i q Hp);
    pose proof (count_set ReadWoken r l i q Hp)
  end.

Lemma read_attempt_inv c i q : nth_error (places c) i = Some q -> q = Away \/ q = ReadWoken ->
  inv c -> inv (read_attempt c i).
Proof.
  intros Hp Hq [I1 I2 I3 I4 I5 I6]. unfold read_attempt.
  destruct (writes c =? 0) eqn:E.
  - apply Nat.eqb_eq in E. counts Hp Reading.
    destruct Hq; subst q; simpl in *; constructor; simpl; try lia.
  - apply Nat.eqb_neq in E. counts Hp ReadBlocked.
    destruct Hq; subst q; simpl in *; constructor; simpl; try lia.
Qed.

Lemma write_attempt_inv c i q : nth_error (places c) i = Some q -> q = Away \/ q = WriteWoken ->
  inv c ->
  inv (write_attempt (mkConfig (reads c) (match q with Away => S (writes c) | _ => writes c end)
                               (writing c) (places c)) i).
Proof.
  intros Hp Hq [I1 I2 I3 I4 I5 I6]. unfold write_attempt.
  cbn [reads writes writing places].
  destruct (Nat.eqb_spec (reads c) 0) as [E|E]; destruct (writing c) eqn:E2; cbn [andb negb]; simpl in I3.
  all: counts Hp Writing; counts Hp WriteBlocked.
  all: destruct Hq; subst q; simpl in *; constructor; simpl; lia.
Qed.

Lemma step_inv c i e c' : step c i e c' -> inv c -> inv c'.
Proof.
  intros Hs. destruct Hs as [c i Hp|c i Hp|c i Hp|c i Hp|c i l Hp Hl|c i l Hp Hl|c i Hp|c i Hp]; intros I.
  - eapply read_attempt_inv; eauto.
  - exact (write_attempt_inv c i Away Hp (or_introl eq_refl) I).
  - eapply read_attempt_inv; eauto.
  - pose proof (write_attempt_inv c i WriteWoken Hp (or_intror eq_refl) I) as H.
    destruct c; exact H.
  - destruct I as [I1 I2 I3 I4 I5 I6]. counts Hp Away. pose proof (count_nth _ _ _ Hp).
    simpl in *.
    destruct ((pred (reads c) =? 0) && (0 <? writes c)) eqn:E.
    + apply andb_true_iff in E. destruct E as [E1 E2].
      apply Nat.eqb_eq in E1. apply Nat.ltb_lt in E2.
      apply notify_writer_counts in Hl. destruct Hl as (N1 & N2 & N3 & N4 & N5).
      pose proof (N1 Reading ltac:(discriminate) ltac:(discriminate)).
      pose proof (N1 Writing ltac:(discriminate) ltac:(discriminate)).
      pose proof (N1 ReadBlocked ltac:(discriminate) ltac:(discriminate)).
      constructor; simpl; try lia.
    + apply andb_false_iff in E. subst l.
      assert (pred (reads c) <> 0 \/ writes c = 0).
      { destruct E as [E|E]; [left; apply Nat.eqb_neq in E; exact E | right; apply Nat.ltb_ge in E; lia]. }
      constructor; simpl; try lia.
  - destruct I as [I1 I2 I3 I4 I5 I6]. counts Hp Away. pose proof (count_nth _ _ _ Hp).
    simpl in *. assert (count Writing (places c) = 1) by (destruct (writing c); simpl in *; lia).
    destruct (pred (writes c) =? 0) eqn:E.
    + apply Nat.eqb_eq in E. subst l.
      constructor; simpl; rewrite ?count_notify_readers; try lia.
    + apply Nat.eqb_neq in E. apply notify_writer_counts in Hl. destruct Hl as (N1 & N2 & N3 & N4 & N5).
      pose proof (N1 Reading ltac:(discriminate) ltac:(discriminate)).
      pose proof (N1 Writing ltac:(discriminate) ltac:(discriminate)).
      pose proof (N1 ReadBlocked ltac:(discriminate) ltac:(discriminate)).
      constructor; simpl; try lia.
  - destruct I as [I1 I2 I3 I4 I5 I6]. counts Hp ReadWoken. simpl in *. constructor; simpl; try lia.
  - destruct I as [I1 I2 I3 I4 I5 I6]. counts Hp WriteWoken. simpl in *. constructor; simpl; try lia.
Qed.

Lemma run_inv c l c' : run c l c' -> inv c -> inv c'.
Proof. induction 1; eauto using step_inv. Qed.

Lemma reachable_inv n c : reachable n c -> inv c.
Proof. intros [l H]. eapply run_inv; eauto using inv_initial. Qed.

Lemma place_of_nth c i p : place_of c i = p -> p <> Away -> nth_error (places c) i = Some p.
Proof.
  unfold place_of. intros H Hp. destruct (nth_error (places c) i) eqn:E.
  - f_equal. apply nth_error_nth with (d := Away) in E. congruence.
  - apply nth_error_None in E. rewrite nth_overflow in H by exact E. congruence.
Qed.

Lemma exclusion n c i j : reachable n c -> place_of c i = Writing ->
  place_of c j = Writing \/ place_of c j = Reading -> i = j.
Proof.
  intros Hr Hi Hj. apply reachable_inv in Hr. destruct Hr as [I1 I2 I3 I4 I5 I6].
  apply place_of_nth in Hi; [|discriminate].
  destruct Hj as [Hj|Hj]; (apply place_of_nth in Hj; [|discriminate]).
  - destruct (Nat.eq_dec i j) as [|Hne]; [assumption|].
    pose proof (count_two _ _ _ _ Hi Hj Hne). destruct (writing c); simpl in *; lia.
  - pose proof (count_nth _ _ _ Hi). pose proof (count_nth _ _ _ Hj). lia.
Qed.

Lemma counts_exact n c : reachable n c ->
  reads c = count Reading (places c) /\
  writes c = count WriteBlocked (places c) + count WriteWoken (places c) + count Writing (places c).
Proof. intros H. apply reachable_inv in H. destruct H; auto. Qed.

Lemma writers_first n c j e c' : reachable n c ->
  (exists i, place_of c i = WriteBlocked \/ place_of c i = WriteWoken \/ place_of c i = Writing) ->
  step c j e c' -> place_of c' j = Reading -> False.
Proof.
  intros Hr [i Hi] Hs. apply reachable_inv in Hr.
  assert (Hw : 0 < writes c).
  { destruct Hr. destruct Hi as [Hi|[Hi|Hi]]; (apply place_of_nth in Hi; [|discriminate]);
      apply count_nth in Hi; lia. }
  assert (Hlen : forall q, nth_error (places c) j = Some q -> (j <? length (places c)) = true).
  { intros q Hq. apply Nat.ltb_lt. apply nth_error_Some. congruence. }
  assert (Hnr : forall q, nth_error (places c) j = Some q -> q <> Reading -> forall r, r <> Reading ->
    nth j (set_place (places c) j r) Away <> Reading).
  { intros q Hq Hne r Hr'. rewrite set_place_nth, Nat.eqb_refl, (Hlen _ Hq). exact Hr'. }
  assert (Hnw : forall l l', notify_writer l l' -> nth j l Away <> Reading -> nth j l' Away <> Reading).
  { intros l l' Hl. destruct Hl as [|l j' Hj']; [auto|]. rewrite set_place_nth.
    destruct ((j =? j') && (j' <? length l)); [discriminate|auto]. }
  destruct Hs as [c i' Hp|c i' Hp|c i' Hp|c i' Hp|c i' l Hp Hl|c i' l Hp Hl|c i' Hp|c i' Hp]; unfold place_of in *.
  - unfold read_attempt. destruct (writes c =? 0) eqn:E; [apply Nat.eqb_eq in E; lia|].
    simpl. eapply Hnr; eauto; discriminate.
  - unfold write_attempt. simpl. destruct (_ && _); simpl; eapply Hnr; eauto; discriminate.
  - unfold read_attempt. destruct (writes c =? 0) eqn:E; [apply Nat.eqb_eq in E; lia|].
    simpl. eapply Hnr; eauto; discriminate.
  - unfold write_attempt. destruct (_ && _); simpl; eapply Hnr; eauto; discriminate.
  - simpl. assert (H0 : nth i' (set_place (places c) i' Away) Away <> Reading).
    { rewrite set_place_nth, Nat.eqb_refl, (Hlen _ Hp). discriminate. }
    destruct (_ && _); [exact (Hnw _ _ Hl H0)|subst l; exact H0].
  - simpl. assert (H0 : nth i' (set_place (places c) i' Away) Away <> Reading).
    { rewrite set_place_nth, Nat.eqb_refl, (Hlen _ Hp). discriminate. }
    destruct (pred (writes c) =? 0).
    + subst l. unfold notify_readers.
      change Away with ((fun p => match p with ReadBlocked => ReadWoken | _ => p end) Away).
      rewrite map_nth. rewrite set_place_nth, Nat.eqb_refl, (Hlen _ Hp). discriminate.
    + exact (Hnw _ _ Hl H0).
  - simpl. eapply Hnr; eauto; discriminate.
  - simpl. eapply Hnr; eauto; discriminate.
Qed.

(** *** Progress *)

(** the events that are neither a new call nor a spurious wake-up *)
Definition pending_event (e : event) : bool :=
  match e with Retry | ReleaseRead | ReleaseWrite => true | _ => false end.

Lemma place_dec (a b : place) : {a = b} + {a <> b}.
Proof. decide equality. Defined.

Lemma notify_writer_exists l : exists l', notify_writer l l'.
Proof.
  destruct (in_dec place_dec WriteBlocked l) as [H|H].
  - apply In_nth_error in H. destruct H as [j H]. eexists. eapply notify_some; eauto.
  - eexists. eapply notify_none; eauto.
Qed.

Lemma stuck_all_away n c : reachable n c ->
  (forall i e c', step c i e c' -> pending_event e = false) ->
  forall i, place_of c i = Away.
Proof.
  intros Hr Hstuck. apply reachable_inv in Hr. destruct Hr as [I1 I2 I3 I4 I5 I6].
  assert (Z : forall p, (p = Reading \/ p = Writing \/ p = ReadWoken \/ p = WriteWoken) -> count p (places c) = 0).
  { intros p Hp. destruct (count p (places c)) as [|k] eqn:E; [reflexivity|]. exfalso.
    assert (In p (places c)) as Hin by (apply count_pos; lia).
    apply In_nth_error in Hin. destruct Hin as [i Hi].
    destruct Hp as [Hp|[Hp|[Hp|Hp]]]; subst p.
    - assert (exists l, if (pred (reads c) =? 0) && (0 <? writes c)
        then notify_writer (set_place (places c) i Away) l else l = set_place (places c) i Away) as [l Hl].
      { destruct (_ && _); [apply notify_writer_exists|eauto]. }
      specialize (Hstuck _ _ _ (s_release_read c i l Hi Hl)). discriminate.
    - assert (exists l, if pred (writes c) =? 0
        then l = notify_readers (set_place (places c) i Away)
        else notify_writer (set_place (places c) i Away) l) as [l Hl].
      { destruct (_ =? _); [eauto|apply notify_writer_exists]. }
      specialize (Hstuck _ _ _ (s_release_write c i l Hi Hl)). discriminate.
    - specialize (Hstuck _ _ _ (s_retry_read c i Hi)). discriminate.
    - specialize (Hstuck _ _ _ (s_retry_write c i Hi)). discriminate. }
  pose proof (Z Reading ltac:(auto)). pose proof (Z Writing ltac:(auto)).
  pose proof (Z ReadWoken ltac:(auto)). pose proof (Z WriteWoken ltac:(auto)).
  assert (writes c = 0) by (destruct (writes c); [reflexivity|exfalso; lia]).
  assert (count ReadBlocked (places c) = 0) by lia.
  assert (count WriteBlocked (places c) = 0) by lia.
  intros i. destruct (place_of c i) eqn:E; [reflexivity|..]; exfalso;
    (apply place_of_nth in E; [|discriminate]); apply count_nth in E; lia.
Qed.

Definition busy (c : config) : nat := length (places c) - count Away (places c).
Definition woken (c : config) : nat := count ReadWoken (places c) + count WriteWoken (places c).

Lemma count_total l :
  count Away l + count ReadBlocked l + count ReadWoken l + count Reading l
  + count WriteBlocked l + count WriteWoken l + count Writing l = length l.
Proof. induction l as [|x l IH]; [reflexivity|]. rewrite !count_cons. simpl. destruct x; simpl; lia. Qed.

Lemma step_measure c i e c' : step c i e c' -> pending_event e = true ->
  length (places c') = length (places c) /\
  (busy c' < busy c \/ busy c' = busy c /\ woken c' < woken c).
Proof.
  intros Hs. destruct Hs as [c i Hp|c i Hp|c i Hp|c i Hp|c i l Hp Hl|c i l Hp Hl|c i Hp|c i Hp]; intros He;
    try discriminate He; unfold busy, woken;
    match type of Hp with nth_error ?l ?i = Some ?q => pose proof (count_nth _ _ _ Hp) end;
    pose proof (count_total (places c)).
  - unfold read_attempt. destruct (writes c =? 0); simpl; rewrite set_place_length; split; auto; right.
    + counts Hp Reading. pose proof (count_set Away Reading _ _ _ Hp). simpl in *. lia.
    + counts Hp ReadBlocked. pose proof (count_set Away ReadBlocked _ _ _ Hp). simpl in *. lia.
  - unfold write_attempt. destruct (_ && _); simpl; rewrite set_place_length; split; auto; right.
    + counts Hp Writing. pose proof (count_set Away Writing _ _ _ Hp). simpl in *. lia.
    + counts Hp WriteBlocked. pose proof (count_set Away WriteBlocked _ _ _ Hp). simpl in *. lia.
  - simpl. pose proof (count_set Away Away _ _ _ Hp).
    destruct (_ && _).
    + pose proof (notify_writer_length _ _ Hl) as HL. rewrite set_place_length in HL.
      apply notify_writer_counts in Hl. destruct Hl as (N1 & _).
      rewrite (N1 Away) by discriminate. simpl in *. split; [exact HL|left; lia].
    + subst l. rewrite set_place_length. simpl in *. split; [reflexivity|left; lia].
  - simpl. pose proof (count_set Away Away _ _ _ Hp).
    destruct (_ =? _).
    + subst l. rewrite count_notify_readers. unfold notify_readers. rewrite map_length, set_place_length.
      simpl in *. split; [reflexivity|left; lia].
    + pose proof (notify_writer_length _ _ Hl) as HL. rewrite set_place_length in HL.
      apply notify_writer_counts in Hl. destruct Hl as (N1 & _).
      rewrite (N1 Away) by discriminate. simpl in *. split; [exact HL|left; lia].
Qed.

Lemma run_bounded c l c' : run c l c' -> Forall (fun ie => pending_event (snd ie) = true) l ->
  length (places c') = length (places c) /\
  length l + (busy c' * S (length (places c)) + woken c') <= busy c * S (length (places c)) + woken c.
Proof.
  intros H. induction H as [c|c i e c1 l c2 Hs Hr IH]; intros Hf.
  - simpl. split; lia.
  - pose proof (Forall_inv Hf) as H1. apply Forall_inv_tail in Hf. simpl in H1.
    destruct (step_measure _ _ _ _ Hs H1) as [HL HM]. destruct (IH Hf) as [HL2 HB].
    rewrite HL in *. split; [congruence|]. simpl.
    assert (woken c1 <= length (places c)).
    { unfold woken. pose proof (count_total (places c1)). rewrite HL in *. lia. }
    destruct HM as [HM|[HM1 HM2]]; [|nia].
    assert (busy c1 * S (length (places c)) + S (length (places c)) <= busy c * S (length (places c))) by nia.
    lia.
Qed.

Lemma reachable_length n c : reachable n c -> length (places c) = n.
Proof.
  intros [l H]. assert (G : forall c l c', run c l c' -> length (places c') = length (places c)).
  { clear. induction 1 as [|c i e c1 l c2 Hs Hr IH]; [reflexivity|]. rewrite IH.
    clear - Hs. destruct Hs; unfold read_attempt, write_attempt; simpl;
      repeat match goal with |- context[if ?b then _ else _] => destruct b; simpl end;
      rewrite ?set_place_length; try reflexivity.
    - destruct (_ && _).
      + erewrite notify_writer_length by eauto. apply set_place_length.
      + subst. apply set_place_length.
    - destruct (_ =? _).
      + subst. unfold notify_readers. rewrite map_length. apply set_place_length.
      + erewrite notify_writer_length by eauto. apply set_place_length. }
  rewrite (G _ _ _ H). simpl. apply repeat_length.
Qed.

Lemma run_bound n c l c' : reachable n c -> run c l c' ->
  Forall (fun ie => pending_event (snd ie) = true) l -> length l <= n * S n + n.
Proof.
  intros Hr Hrun Hf. pose proof (reachable_length _ _ Hr) as HL.
  destruct (run_bounded _ _ _ Hrun Hf) as [_ HB]. rewrite HL in HB.
  assert (busy c <= n) by (unfold busy; lia).
  assert (woken c <= n) by (unfold woken; pose proof (count_total (places c)); lia). nia.
Qed.

(** a thread that has left the lock has released it *)
Lemma step_leaves c j e c' i : step c j e c' -> place_of c i <> Away -> place_of c' i = Away ->
  j = i /\ (e = ReleaseRead \/ e = ReleaseWrite).
Proof.
  intros Hs Hi Hi'.
  assert (Hset : forall r k, r <> Away -> nth i (set_place (places c) k r) Away = Away -> False).
  { intros r k Hr H. rewrite set_place_nth in H. destruct (_ && _); [congruence|]. apply Hi. exact H. }
  assert (Haway : forall k, nth i (set_place (places c) k Away) Away = Away -> k = i).
  { intros k H. rewrite set_place_nth in H. destruct (i =? k) eqn:E; [apply Nat.eqb_eq in E; auto|].
    simpl in H. exfalso. apply Hi. exact H. }
  assert (Hnw : forall l l', notify_writer l l' -> nth i l' Away = Away -> nth i l Away = Away).
  { intros l l' Hl. destruct Hl as [|l k Hk]; [auto|]. rewrite set_place_nth.
    destruct (_ && _); [discriminate|auto]. }
  unfold place_of in *.
  destruct Hs as [c k Hp|c k Hp|c k Hp|c k Hp|c k l Hp Hl|c k l Hp Hl|c k Hp|c k Hp].
  - exfalso. unfold read_attempt in Hi'. destruct (_ =? _); simpl in Hi'; eapply Hset; try exact Hi'; discriminate.
  - exfalso. unfold write_attempt in Hi'. destruct (_ && _); simpl in Hi'; eapply Hset; try exact Hi'; discriminate.
  - exfalso. unfold read_attempt in Hi'. destruct (_ =? _); simpl in Hi'; eapply Hset; try exact Hi'; discriminate.
  - exfalso. unfold write_attempt in Hi'. destruct (_ && _); simpl in Hi'; eapply Hset; try exact Hi'; discriminate.
  - split; [|auto]. apply Haway. simpl in Hi'. destruct (_ && _); [exact (Hnw _ _ Hl Hi')|subst l; exact Hi'].
  - split; [|auto]. apply Haway. simpl in Hi'. destruct (_ =? _).
    + subst l. unfold notify_readers in Hi'.
      change Away with ((fun p => match p with ReadBlocked => ReadWoken | _ => p end) Away) in Hi' at 2.
      rewrite map_nth in Hi'. destruct (nth i _ Away) eqn:E in Hi'; try discriminate Hi'. exact E.
    + exact (Hnw _ _ Hl Hi').
  - exfalso. simpl in Hi'. eapply Hset; try exact Hi'; discriminate.
  - exfalso. simpl in Hi'. eapply Hset; try exact Hi'; discriminate.
Qed.

Lemma run_leaves c l c' i : run c l c' -> place_of c i <> Away -> place_of c' i = Away ->
  In (i, ReleaseRead) l \/ In (i, ReleaseWrite) l.
Proof.
  intros H. induction H as [c|c j e c1 l c2 Hs Hr IH]; intros H1 H2; [congruence|].
  destruct (place_of c1 i) eqn:E.
  1: { destruct (step_leaves _ _ _ _ i Hs H1 E) as [-> [->| ->]]; [left|right]; left; reflexivity. }
  all: (destruct IH as [IH|IH]; [congruence|exact H2|left; right; exact IH|right; right; exact IH]).
Qed.
