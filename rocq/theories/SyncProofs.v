(** Proofs about synchronised blocks. *)
From Coq Require Import List Bool Arith Lia.
From Verif Require Import SyncModel SyncSpec.
Import ListNotations.

Section SyncProofs.
Context {V C : Type}.
Variable convert : V -> nat -> nat -> V.
Variable content : V -> C.
Hypothesis convert_ok : forall v a b, content (convert v a b) = content v.

Notation block := (block V).

Definition good (b : block) (c : C) (p : nat) : Prop := exists v, deref b p = Some v /\ content v = c.

Record rel (b : block) (s : ideal C) : Prop := mkRel {
  r_keys : map h_key (handles b) = keys s;
  r_valid : length (valid s) = length (keys s);
  r_values : forall k p, In (k, p) (values b) -> good b (content_now s) p;
  r_handles : forall i h, nth_error (handles b) i = Some h -> nth i (valid s) false = true ->
              good b (content_now s) (h_cell h)
}.

Lemma find_In m k p : find m k = Some p -> In (k, p) m.
Proof.
  induction m as [|[k' p'] m IH]; simpl; [discriminate|].
  destruct (Nat.eqb_spec k k') as [->|]; intros H; [injection H as ->; auto|auto].
Qed.

Lemma good_len b c p : good b c p -> p < length (heap b).
Proof.
  intros (v & H & _). unfold deref in H. apply nth_error_Some. destruct (nth_error (heap b) p); congruence.
Qed.

Lemma deref_ext (b b' : block) p x : heap b' = heap b ++ x -> p < length (heap b) -> deref b' p = deref b p.
Proof. intros H Hp. unfold deref. rewrite H, nth_error_app1 by exact Hp. reflexivity. Qed.

Lemma good_ext (b b' : block) c p x : heap b' = heap b ++ x -> good b c p -> good b' c p.
Proof.
  intros H G. pose proof (good_len _ _ _ G) as L. destruct G as (v & H1 & H2). exists v. split; [|exact H2].
  rewrite (deref_ext b b' p x H L). exact H1.
Qed.

(** looking a key up keeps the relation and gives a good cell *)
Lemma lookup_spec b s i h key : rel b s -> nth_error (handles b) i = Some h -> nth i (valid s) false = true ->
  exists p b1, lookup_or_copy convert b h key = Some (p, b1) /\ rel b1 s /\ handles b1 = handles b /\
    good b1 (content_now s) p.
Proof.
  intros R Hh Hv. pose proof (r_handles _ _ R i h Hh Hv) as Gh. unfold lookup_or_copy.
  destruct (Nat.eqb_spec key (h_key h)) as [->|Hne].
  - exists (h_cell h), b. auto.
  - destruct (find (values b) key) as [p|] eqn:E.
    + exists p, b. split; [reflexivity|]. split; [exact R|]. split; [reflexivity|].
      apply find_In in E. exact (r_values _ _ R _ _ E).
    + destruct Gh as (v & H1 & H2). rewrite H1.
      eexists; eexists. split; [reflexivity|].
      set (b1 := mkBlock (heap b ++ [Some (convert v (h_key h) key)]) _ _ _).
      assert (X : heap b1 = heap b ++ [Some (convert v (h_key h) key)]) by reflexivity.
      assert (Gp : good b1 (content_now s) (length (heap b))).
      { exists (convert v (h_key h) key). split; [|rewrite convert_ok; exact H2].
        unfold deref. rewrite X, nth_error_app2, Nat.sub_diag by lia. reflexivity. }
      split; [|split; [reflexivity|exact Gp]].
      constructor.
      * exact (r_keys _ _ R).
      * exact (r_valid _ _ R).
      * intros k p Hin. simpl in Hin. apply in_app_or in Hin. destruct Hin as [Hin|[Hin|[]]].
        -- eapply good_ext; [exact X|]. exact (r_values _ _ R _ _ Hin).
        -- injection Hin as <- <-. exact Gp.
      * intros j h' Hj Hjv. eapply good_ext; [exact X|]. exact (r_handles _ _ R _ _ Hj Hjv).
Qed.

Lemma set_cell_length (l : list (option V)) i x : length (set_cell l i x) = length l.
Proof. revert i. induction l as [|y l IH]; intros [|i]; simpl; auto. Qed.

Lemma set_cell_nth (l : list (option V)) : forall i x y, nth_error l i = Some y ->
  nth_error (set_cell l i x) i = Some x.
Proof. induction l as [|z l IH]; intros [|i] x y H; try discriminate; simpl in *; eauto. Qed.

Lemma erase_all_length (b : block) : length (erase_all b) = length (heap b).
Proof.
  unfold erase_all. generalize (heap b). induction (values b) as [|kp m IH]; intros l; simpl; [reflexivity|].
  rewrite IH. apply set_cell_length.
Qed.

Lemma nth_handles b s i : rel b s -> nth i (valid s) false = true ->
  exists h, nth_error (handles b) i = Some h /\ h_key h = nth i (keys s) 0.
Proof.
  intros R H. assert (L : i < length (valid s)).
  { destruct (Nat.lt_ge_cases i (length (valid s))) as [L|L]; [exact L|].
    rewrite nth_overflow in H by exact L. discriminate. }
  rewrite (r_valid _ _ R), <- (r_keys _ _ R), map_length in L.
  destruct (nth_error (handles b) i) as [h|] eqn:E; [|apply nth_error_None in E; lia].
  exists h. split; [reflexivity|]. rewrite <- (r_keys _ _ R).
  erewrite nth_error_nth; [reflexivity|]. rewrite nth_error_map, E. reflexivity.
Qed.

Lemma combine_seq_nth {A} (l : list A) : forall s i x, nth_error l i = Some x ->
  nth_error (combine (seq s (length l)) l) i = Some (s + i, x).
Proof.
  induction l as [|y l IH]; intros s [|i] x H; try discriminate; simpl in *.
  - injection H as ->. rewrite Nat.add_0_r. reflexivity.
  - rewrite (IH (S s) i x H). f_equal. f_equal. lia.
Qed.

Lemma map_snd_combine {A} (l : list A) s : map snd (combine (seq s (length l)) l) = l.
Proof. revert s. induction l as [|x l IH]; intros s; simpl; [reflexivity|]. rewrite IH. reflexivity. Qed.

Lemma use_spec b s u ans s' : rel b s -> ideal_step content s u = Some (ans, s') ->
  exists as_ b', steps convert b (ops_of u) = Some (as_, b') /\ map (seen content) as_ = ans /\ rel b' s'.
Proof.
  intros R H. unfold ideal_step in H.
  destruct (negb (nth (handle_of u) (valid s) false)) eqn:Ev; [discriminate|].
  apply negb_false_iff in Ev.
  destruct (nth_handles b s _ R Ev) as (h & Hh & Hk).
  destruct u as [i k|i|i k|i own v]; cbn [handle_of ops_of] in *.
  - injection H as <- <-. simpl. rewrite Hh.
    destruct (lookup_spec b s i h k R Hh Ev) as (p & b1 & E & R1 & _ & (v & G1 & G2)). rewrite E, G1.
    eexists; eexists. split; [reflexivity|]. split; [simpl; congruence|exact R1].
  - injection H as <- <-. simpl. rewrite Hh. destruct (r_handles _ _ R i h Hh Ev) as (v & G1 & G2). rewrite G1.
    eexists; eexists. split; [reflexivity|]. split; [simpl; congruence|exact R].
  - injection H as <- <-. simpl. rewrite Hh.
    destruct (lookup_spec b s i h k R Hh Ev) as (p & b1 & E & R1 & Hhs & G). rewrite E.
    eexists; eexists. split; [reflexivity|]. split; [reflexivity|].
    constructor; cbn [add_handle handles values heap keys valid content_now].
    + rewrite map_app, (r_keys _ _ R1). reflexivity.
    + rewrite !app_length, (r_valid _ _ R1). reflexivity.
    + exact (r_values _ _ R1).
    + intros j h' Hj Hjv.
      assert (Lk : length (handles b1) = length (valid s)).
      { rewrite (r_valid _ _ R1), <- (r_keys _ _ R1), map_length. reflexivity. }
      destruct (Nat.lt_ge_cases j (length (handles b1))) as [L|L].
      * rewrite nth_error_app1 in Hj by exact L. rewrite app_nth1 in Hjv by lia.
        exact (r_handles _ _ R1 j h' Hj Hjv).
      * rewrite nth_error_app2 in Hj by exact L. destruct (j - length (handles b1)) as [|m]; simpl in Hj.
        -- injection Hj as <-. exact G.
        -- destruct m; discriminate.
  - destruct (Nat.eqb_spec own (nth i (keys s) 0)) as [Ho|]; [|discriminate].
    injection H as <- <-. cbn [steps step]. rewrite Hh.
    unfold lookup_or_copy. assert ((own =? h_key h) = true) as Eo by (apply Nat.eqb_eq; congruence).
    rewrite Eo. destruct (r_handles _ _ R i h Hh Ev) as (v0 & G1 & G2). rewrite G1.
    cbn [handles]. rewrite Hh. set (b1 := mkBlock (set_cell (heap b) (h_cell h) (Some v)) _ _ _).
    assert (D : deref b1 (h_cell h) = Some v).
    { unfold deref in *. simpl. destruct (nth_error (heap b) (h_cell h)) as [y|] eqn:E; [|discriminate].
      rewrite (set_cell_nth _ _ _ _ E). reflexivity. }
    rewrite D. eexists; eexists. split; [reflexivity|]. split; [reflexivity|].
    set (p := length (heap b1)).
    assert (Gp : forall hs cs, good (mkBlock (erase_all b1 ++ [Some v]) [(h_key h, p)] hs cs) (content v) p).
    { intros hs cs. exists v. split; [|reflexivity]. unfold deref. cbn [heap].
      rewrite nth_error_app2 by (rewrite erase_all_length; unfold p; lia).
      rewrite erase_all_length. unfold p. rewrite Nat.sub_diag. reflexivity. }
    constructor; cbn [handles values heap keys valid content_now].
    + rewrite map_map. rewrite <- (r_keys _ _ R).
      transitivity (map h_key (map snd (combine (seq 0 (length (handles b1))) (handles b1)))).
      * rewrite map_map. apply map_ext_in. intros [j h'] Hin. cbn [fst snd].
        destruct (Nat.eqb_spec j i) as [->|]; [|reflexivity]. simpl.
        apply In_nth_error in Hin. destruct Hin as [m Hm].
        assert (Lm : exists x, nth_error (handles b1) m = Some x).
        { destruct (nth_error (handles b1) m) eqn:E; [eauto|]. apply nth_error_None in E.
          assert (nth_error (combine (seq 0 (length (handles b1))) (handles b1)) m <> None) as Hne by congruence.
          apply nth_error_Some in Hne. rewrite combine_length, seq_length in Hne. lia. }
        destruct Lm as [x Hx]. rewrite (combine_seq_nth _ 0 m x Hx) in Hm. simpl in Hm.
        injection Hm as E1 E2. subst m x. change (handles b1) with (handles b) in Hx. congruence.
      * rewrite map_snd_combine. reflexivity.
    + rewrite map_length, seq_length. reflexivity.
    + intros k p' [Hin|[]]. injection Hin as <- <-. apply Gp.
    + intros j h' Hj Hjv.
      assert (Hji : j = i).
      { destruct (Nat.lt_ge_cases j (length (keys s))) as [L|L].
        - assert (E : nth j (map (fun i0 => i0 =? i) (seq 0 (length (keys s)))) false = (j =? i)).
          { rewrite (nth_indep _ false (0 =? i)) by (rewrite map_length, seq_length; exact L).
            change (0 =? i) with ((fun i0 => i0 =? i) 0). rewrite map_nth, seq_nth by exact L. reflexivity. }
          rewrite E in Hjv. apply Nat.eqb_eq in Hjv. exact Hjv.
        - rewrite nth_overflow in Hjv by (rewrite map_length, seq_length; exact L). discriminate. }
      subst j. rewrite nth_error_map in Hj.
      change (handles b1) with (handles b) in Hj. rewrite (combine_seq_nth _ 0 i h Hh) in Hj. simpl in Hj.
      rewrite Nat.eqb_refl in Hj. injection Hj as <-. cbn [h_cell]. apply Gp.
Qed.

Lemma steps_app b l1 l2 as1 b1 : steps convert b l1 = Some (as1, b1) ->
  steps convert b (l1 ++ l2) =
  match steps convert b1 l2 with None => None | Some (as2, b2) => Some (as1 ++ as2, b2) end.
Proof.
  revert b as1. induction l1 as [|o l1 IH]; intros b as1 H; simpl in *.
  - injection H as <- <-. destruct (steps convert b l2) as [[? ?]|]; reflexivity.
  - destruct (step convert b o) as [[a b0]|]; [|discriminate].
    destruct (steps convert b0 l1) as [[as0 b2]|] eqn:E; [|discriminate].
    injection H as <- <-. rewrite (IH b0 as0 E).
    destruct (steps convert b2 l2) as [[? ?]|]; reflexivity.
Qed.

Lemma uses_spec l : forall b s ans s', rel b s -> ideal_steps content s l = Some (ans, s') ->
  exists as_ b', steps convert b (concat (map ops_of l)) = Some (as_, b') /\
    map (seen content) as_ = ans /\ rel b' s'.
Proof.
  induction l as [|u l IH]; intros b s ans s' R H; simpl in *.
  - injection H as <- <-. exists [], b. auto.
  - destruct (ideal_step content s u) as [[a1 s1]|] eqn:E; [|discriminate].
    destruct (ideal_steps content s1 l) as [[a2 s2]|] eqn:E2; [|discriminate].
    injection H as <- <-.
    destruct (use_spec b s u a1 s1 R E) as (as1 & b1 & H1 & H2 & R1).
    destruct (IH b1 s1 a2 s2 R1 E2) as (as2 & b2 & H3 & H4 & R2).
    exists (as1 ++ as2), b2. rewrite (steps_app _ _ _ _ _ H1), H3. split; [reflexivity|].
    split; [rewrite map_app; congruence|exact R2].
Qed.

Lemma rel_make k v : rel (make k v) (mkIdeal [k] [true] (content v)).
Proof.
  assert (G : good (make k v) (content v) 0) by (exists v; auto).
  constructor; simpl; auto.
  - intros k' p [H|[]]. injection H as <- <-. exact G.
  - intros [|i] h H _; simpl in H; [injection H as <-; exact G|destruct i; discriminate].
Qed.

(** *** Number of copies *)
Definition no_broadcast (o : op V) : Prop := match o with OBroadcast _ => False | _ => True end.

Definition copies_ok (k0 : nat) (b : block) : Prop :=
  NoDup (copies b) /\ ~ In k0 (copies b) /\ find (values b) k0 <> None /\
  (forall k, In k (copies b) -> find (values b) k <> None).

Lemma find_app m k k' p : find (m ++ [(k', p)]) k =
  match find m k with Some q => Some q | None => if k =? k' then Some p else None end.
Proof. induction m as [|[a q] m IH]; simpl; [reflexivity|]. destruct (k =? a); auto. Qed.

Lemma lookup_copies k0 b h key p b1 : copies_ok k0 b -> lookup_or_copy convert b h key = Some (p, b1) ->
  copies_ok k0 b1.
Proof.
  intros (N & N0 & F0 & F) H. unfold lookup_or_copy in H.
  destruct (key =? h_key h); [injection H as <- <-; split; auto|].
  destruct (find (values b) key) eqn:E; [injection H as <- <-; split; auto|].
  destruct (deref b (h_cell h)); [|discriminate]. injection H as <- <-.
  unfold copies_ok. simpl. split; [|split; [|split]].
  - apply (NoDup_Add (a := key) (l := copies b)); [|split; [exact N|]].
    + rewrite <- (app_nil_r (copies b)) at 1. apply Add_app.
    + intros Hin. apply (F key Hin). exact E.
  - rewrite in_app_iff. intros [Hin|[Hin|[]]]; [auto|]. subst key. congruence.
  - rewrite find_app. destruct (find (values b) k0); congruence.
  - intros k Hin. rewrite find_app. apply in_app_or in Hin. destruct Hin as [Hin|[Hin|[]]].
    + specialize (F k Hin). destruct (find (values b) k); congruence.
    + subst k. rewrite E, Nat.eqb_refl. discriminate.
Qed.

Lemma step_copies k0 b o a b' : copies_ok k0 b -> no_broadcast o -> step convert b o = Some (a, b') ->
  copies_ok k0 b'.
Proof.
  intros K Ho H. destruct o as [i key|i|i key|i key v|i]; simpl in *; [..|destruct Ho].
  all: destruct (nth_error (handles b) i) as [h|]; [|discriminate].
  - destruct (lookup_or_copy convert b h key) as [[p b1]|] eqn:E; [|discriminate].
    destruct (deref b1 p); [|discriminate]. injection H as <- <-. eapply lookup_copies; eauto.
  - destruct (deref b (h_cell h)); [|discriminate]. injection H as <- <-. exact K.
  - destruct (lookup_or_copy convert b h key) as [[p b1]|] eqn:E; [|discriminate].
    injection H as <- <-. exact (lookup_copies _ _ _ _ _ _ K E).
  - destruct (lookup_or_copy convert b h key) as [[p b1]|] eqn:E; [|discriminate].
    destruct (deref b1 p); [|discriminate]. injection H as <- <-.
    exact (lookup_copies _ _ _ _ _ _ K E).
Qed.

Lemma steps_copies k0 l : forall b as_ b', copies_ok k0 b -> Forall no_broadcast l ->
  steps convert b l = Some (as_, b') -> copies_ok k0 b'.
Proof.
  induction l as [|o l IH]; intros b as_ b' K Hf H; simpl in *.
  - injection H as <- <-. exact K.
  - pose proof (Forall_inv Hf) as Ho. apply Forall_inv_tail in Hf.
    destruct (step convert b o) as [[a b0]|] eqn:E; [|discriminate].
    destruct (steps convert b0 l) as [[as0 b2]|] eqn:E2; [|discriminate]. injection H as <- <-.
    exact (IH b0 as0 b2 (step_copies k0 b o a b0 K Ho E) Hf E2).
Qed.

Lemma make_copies k v : copies_ok k (make k v).
Proof. unfold copies_ok, make. simpl. rewrite Nat.eqb_refl. repeat split; auto; try discriminate; try constructor; intros ? []. Qed.
End SyncProofs.
