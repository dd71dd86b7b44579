(** Every copy is on the device it is asked for. *)
From Coq Require Import List Bool Arith Lia.
From Verif Require Import SyncModel.
Import ListNotations.

Section Place.
Context {V : Type}.
Variable convert : V -> nat -> nat -> V.
Variable place : V -> nat.
Hypothesis convert_place : forall v a b, place (convert v a b) = b.

Notation block := (@block V).

Definition placed (keys : list nat) (b : block) : Prop :=
  length keys = length (heap b) /\
  (forall k p, In (k, p) (values b) -> nth_error keys p = Some k) /\
  (forall h, In h (handles b) -> nth_error keys (h_cell h) = Some (h_key h)) /\
  (forall p v, nth_error (heap b) p = Some (Some v) -> nth_error keys p = Some (place v)).

Lemma set_cell_length (l : list (option V)) : forall i x, length (set_cell l i x) = length l.
Proof. induction l as [|y l IH]; intros [|i] x; simpl; auto. Qed.

Lemma set_cell_nth (l : list (option V)) : forall i x j, nth_error (set_cell l i x) j =
  if (i =? j) && (j <? length l) then Some x else nth_error l j.
Proof.
  induction l as [|y l IH]; intros [|i] x [|j]; simpl; try reflexivity.
  - now rewrite andb_false_r.
  - apply IH.
Qed.

Lemma erase_all_length (vs : list (nat * nat)) : forall hp : list (option V),
  length (fold_left (fun hp kp => set_cell hp (snd kp) None) vs hp) = length hp.
Proof. induction vs as [|a vs IH]; intros hp; simpl; [reflexivity|]. now rewrite IH, set_cell_length. Qed.

Lemma erase_all_nth (vs : list (nat * nat)) p v : forall hp : list (option V),
  nth_error (fold_left (fun hp kp => set_cell hp (snd kp) None) vs hp) p = Some (Some v) ->
  nth_error hp p = Some (Some v).
Proof.
  induction vs as [|a vs IH]; intros hp H; simpl in H; [exact H|]. apply IH in H.
  rewrite set_cell_nth in H. destruct ((snd a =? p) && (p <? length hp)); [discriminate|exact H].
Qed.

Lemma deref_some (b : block) p v : deref b p = Some v -> nth_error (heap b) p = Some (Some v).
Proof. unfold deref. destruct (nth_error (heap b) p) as [[w|]|]; congruence. Qed.

Lemma find_in m : forall k p, find m k = Some p -> In (k, p) m.
Proof.
  induction m as [|[k' q] m IH]; intros k p H; simpl in H; [discriminate|].
  destruct (Nat.eqb_spec k k'); [left; congruence|right; auto].
Qed.

Lemma nth_error_snoc {A} (l : list A) (x : A) i : nth_error (l ++ [x]) i =
  if i <? length l then nth_error l i else if i =? length l then Some x else None.
Proof.
  destruct (Nat.ltb_spec i (length l)); [now apply nth_error_app1|].
  rewrite nth_error_app2 by lia. destruct (Nat.eqb_spec i (length l)) as [->|N]; [now rewrite Nat.sub_diag|].
  destruct (i - length l) as [|n] eqn:E; [lia|]. simpl. destruct n; reflexivity.
Qed.

Lemma snoc_keep {A} (l : list A) (x y : A) i : nth_error l i = Some y -> nth_error (l ++ [x]) i = Some y.
Proof. intros H. rewrite nth_error_app1; [exact H|]. apply nth_error_Some. congruence. Qed.

Lemma lookup_placed keys b h key p b1 : placed keys b -> In h (handles b) ->
  lookup_or_copy convert b h key = Some (p, b1) ->
  exists keys1, placed keys1 b1 /\ nth_error keys1 p = Some key /\ handles b1 = handles b.
Proof.
  intros P Hh H. pose proof P as (L & PV & PH & PC). unfold lookup_or_copy in H.
  destruct (Nat.eqb_spec key (h_key h)) as [E|E].
  { assert (p = h_cell h /\ b1 = b) as [-> ->] by (split; congruence). exists keys. subst key. auto. }
  destruct (find (values b) key) as [q|] eqn:F.
  { assert (p = q /\ b1 = b) as [-> ->] by (split; congruence). exists keys. auto using find_in. }
  destruct (deref b (h_cell h)) as [v|] eqn:D; [|discriminate].
  assert (E1 : p = length (heap b)) by congruence. subst p.
  assert (E2 : b1 = mkBlock (heap b ++ [Some (convert v (h_key h) key)])
                            (values b ++ [(key, length (heap b))]) (handles b) (copies b ++ [key])) by congruence.
  subst b1. exists (keys ++ [key]). split; [|split; [|reflexivity]].
  - split; [cbn [heap]; rewrite !app_length; simpl; lia|].
    split; [|split]; cbn [values handles heap].
    + intros k q Hin. apply in_app_or in Hin. destruct Hin as [Hin|[Hin|[]]].
      * apply snoc_keep, PV, Hin.
      * assert (k = key /\ q = length (heap b)) as [-> ->] by (split; congruence).
        rewrite nth_error_app2 by lia. now rewrite L, Nat.sub_diag.
    + intros h' Hin. apply snoc_keep, PH, Hin.
    + intros q w Hq. rewrite nth_error_snoc in Hq. rewrite nth_error_snoc, L.
      destruct (q <? length (heap b)); [apply PC, Hq|].
      destruct (q =? length (heap b)); [|discriminate].
      assert (w = convert v (h_key h) key) by congruence. subst w. now rewrite convert_place.
  - rewrite nth_error_app2 by lia. now rewrite L, Nat.sub_diag.
Qed.

Definition writes_in_place (o : op V) : Prop :=
  match o with OWrite _ key v => place v = key | _ => True end.

Definition answer_placed (o : op V) (a : answer V) : Prop :=
  match o, a with OSync _ key, AValue v => place v = key | _, _ => True end.

Lemma step_placed keys b o a b' : placed keys b -> writes_in_place o -> step convert b o = Some (a, b') ->
  answer_placed o a /\ exists keys', placed keys' b'.
Proof.
  intros P W H. pose proof P as (L & PV & PH & PC).
  destruct o as [i key|i|i key|i key v|i]; cbn [step] in H;
    (destruct (nth_error (handles b) i) as [h|] eqn:Hh; [|discriminate]);
    pose proof (nth_error_In _ _ Hh) as Hin.
  - destruct (lookup_or_copy convert b h key) as [[p b1]|] eqn:E; [|discriminate].
    destruct (lookup_placed _ _ _ _ _ _ P Hin E) as (k1 & P1 & N1 & _).
    destruct (deref b1 p) as [v|] eqn:D; [|discriminate].
    assert (a = AValue v /\ b' = b1) as [-> ->] by (split; congruence).
    split; [|eauto]. simpl. destruct P1 as (_ & _ & _ & C1). specialize (C1 _ _ (deref_some _ _ _ D)). congruence.
  - destruct (deref b (h_cell h)); [|discriminate]. assert (b' = b) by congruence. subst. split; [exact I|eauto].
  - destruct (lookup_or_copy convert b h key) as [[p b1]|] eqn:E; [|discriminate].
    destruct (lookup_placed _ _ _ _ _ _ P Hin E) as (k1 & (L1 & V1 & H1 & C1) & N1 & _).
    assert (b' = add_handle b1 (mkHandle key p)) by congruence. subst.
    split; [exact I|]. exists k1. split; [exact L1|]. split; [exact V1|]. split; [|exact C1].
    cbn [add_handle handles]. intros h' Hin'. apply in_app_or in Hin'.
    destruct Hin' as [?|[?|[]]]; [auto|subst h'; exact N1].
  - destruct (lookup_or_copy convert b h key) as [[p b1]|] eqn:E; [|discriminate].
    destruct (lookup_placed _ _ _ _ _ _ P Hin E) as (k1 & (L1 & V1 & H1 & C1) & N1 & _).
    destruct (deref b1 p) as [v0|] eqn:D; [|discriminate].
    assert (b' = mkBlock (set_cell (heap b1) p (Some v)) (values b1) (handles b1) (copies b1)) by congruence.
    subst b'. split; [exact I|]. exists k1. split; [cbn [heap]; now rewrite set_cell_length|].
    split; [exact V1|]. split; [exact H1|]. cbn [heap]. intros q w Hq. rewrite set_cell_nth in Hq.
    destruct (Nat.eqb_spec p q) as [<-|N]; simpl in Hq; [|apply C1, Hq].
    destruct (p <? length (heap b1)); [|apply C1, Hq].
    assert (w = v) by congruence. subst w. simpl in W. congruence.
  - destruct (deref b (h_cell h)) as [v|] eqn:D; [|discriminate].
    assert (E : b' = mkBlock (erase_all b ++ [Some v]) [(h_key h, length (heap b))]
              (map (fun jh => if fst jh =? i then mkHandle (h_key h) (length (heap b)) else snd jh)
                 (combine (seq 0 (length (handles b))) (handles b))) (copies b)) by congruence.
    subst b'. split; [exact I|]. exists (keys ++ [h_key h]).
    assert (Nw : nth_error (keys ++ [h_key h]) (length (heap b)) = Some (h_key h)).
    { rewrite nth_error_app2 by lia. now rewrite L, Nat.sub_diag. }
    split; [cbn [heap]; unfold erase_all; rewrite !app_length, erase_all_length; simpl; lia|].
    split; [|split]; cbn [values handles heap].
    + intros k q [Hq|[]]. assert (k = h_key h /\ q = length (heap b)) as [-> ->] by (split; congruence). exact Nw.
    + intros h' Hin'. apply in_map_iff in Hin'. destruct Hin' as ([j h0] & E & Hc).
      apply in_combine_r in Hc. cbn [fst snd] in E. destruct (j =? i); subst h'; [exact Nw|].
      apply snoc_keep, PH, Hc.
    + intros q w Hq. rewrite nth_error_snoc in Hq. unfold erase_all in Hq. rewrite erase_all_length in Hq.
      rewrite nth_error_snoc, L. destruct (q <? length (heap b)); [apply PC, (erase_all_nth _ _ _ _ Hq)|].
      destruct (q =? length (heap b)); [|discriminate]. assert (w = v) by congruence. subst w.
      pose proof (PC _ _ (deref_some _ _ _ D)) as E1. rewrite (PH _ Hin) in E1. exact E1.
Qed.

Lemma steps_placed l : forall keys b replies b', placed keys b -> Forall writes_in_place l ->
  steps convert b l = Some (replies, b') -> Forall2 answer_placed l replies /\ exists keys', placed keys' b'.
Proof.
  induction l as [|o l IH]; intros keys b replies b' P F H; cbn [steps] in H.
  - assert (replies = [] /\ b' = b) as [-> ->] by (split; congruence). split; [constructor|eauto].
  - destruct (step convert b o) as [[a b1]|] eqn:E; [|discriminate].
    destruct (steps convert b1 l) as [[rs b2]|] eqn:E2; [|discriminate].
    assert (replies = a :: rs /\ b' = b2) as [-> ->] by (split; congruence).
    destruct (step_placed _ _ _ _ _ P (Forall_inv F) E) as (A & k1 & P1).
    destruct (IH _ _ _ _ P1 (Forall_inv_tail F) E2) as (A2 & P2). split; [now constructor|exact P2].
Qed.

Lemma make_placed k v : place v = k -> placed [k] (make k v).
Proof.
  intros H. split; [reflexivity|]. split; [|split]; cbn [make values handles heap].
  - intros k' p [E|[]]. assert (k' = k /\ p = 0) as [-> ->] by (split; congruence). reflexivity.
  - intros h [<-|[]]. reflexivity.
  - intros p w Hp. destruct p as [|p]; [simpl in *; congruence|destruct p; discriminate].
Qed.
End Place.
