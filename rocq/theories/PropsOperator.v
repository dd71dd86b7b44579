(** Properties of the parameters of operators. *)
From Coq Require Import Ascii String List Bool Permutation Lia.
From Verif Require Import ShapeModel OperatorModel OperatorSpec.
Import ListNotations.

Section Props.
Context {V : Type} (is_empty : V -> bool).
Implicit Types (o : operator V) (p q : string).

(** ** the maps *)
Lemma find_assign p v (m : list (string * V)) q : find q (assign p v m) = if String.eqb p q then Some v else find q m.
Proof.
  induction m as [|[r w] m IH]; cbn; [reflexivity|]. destruct (String.eqb_spec r p) as [->|N]; cbn.
  - destruct (String.eqb_spec p q); reflexivity.
  - rewrite IH. destruct (String.eqb_spec p q) as [->|]; [|reflexivity]. destruct (String.eqb_spec r q); [contradiction|reflexivity].
Qed.
Lemma find_erase p (m : list (string * V)) q : find q (erase p m) = if String.eqb p q then None else find q m.
Proof.
  unfold erase. induction m as [|[r w] m IH]; cbn; [now destruct (String.eqb p q)|]. destruct (String.eqb_spec r p) as [->|N]; cbn.
  - rewrite IH. destruct (String.eqb_spec p q); reflexivity.
  - rewrite IH. destruct (String.eqb_spec p q) as [->|]; [|reflexivity]. destruct (String.eqb_spec r q); [contradiction|reflexivity].
Qed.
Lemma find_retained (m : list (string * V)) q : find q (filter (fun e => retention (fst e)) m) = if retention q then find q m else None.
Proof.
  induction m as [|[r w] m IH]; cbn; [now destruct (retention q)|]. destruct (retention r) eqn:E; cbn.
  - rewrite IH. destruct (String.eqb_spec r q) as [->|]; [now rewrite E|reflexivity].
  - rewrite IH. destruct (String.eqb_spec r q) as [->|]; [now rewrite E|reflexivity].
Qed.
Lemma mem_In p l : mem p l = true <-> In p l.
Proof.
  unfold mem. rewrite existsb_exists. split; [intros (x & H & E); apply String.eqb_eq in E; now subst|]. intros H. exists p. now rewrite String.eqb_refl.
Qed.
Lemma mem_add p q l : mem p (add q l) = (String.eqb p q || mem p l)%bool.
Proof.
  unfold add. destruct (mem q l) eqn:E; [|reflexivity]. destruct (String.eqb_spec p q) as [->|]; [now rewrite E|reflexivity].
Qed.
Lemma find_erase_all (l : list string) : forall (m : list (string * V)) q, find q (fold_left (fun m p => erase p m) l m) = if mem q l then None else find q m.
Proof.
  induction l as [|p l IH]; intros m q; [reflexivity|]. cbn [fold_left mem existsb]. rewrite IH, find_erase. fold (mem q l).
  rewrite String.eqb_sym. destruct (String.eqb q p); cbn [orb]; [now destruct (mem q l)|reflexivity].
Qed.
Lemma retention_reserved p : retention p = true <-> reserved p.
Proof.
  unfold reserved. destruct p as [|c r]; cbn; [split; [discriminate|intros (? & [=])]|].
  rewrite Ascii.eqb_eq. split; [intros ->; eauto|]. intros (r' & [= -> _]). reflexivity.
Qed.

(** ** C110: the parameters of an operator are what was done last to each. *)
Definition agrees (h : list action) o : Prop :=
  (forall p v, value h p v <-> find p (params o) = v) /\ (forall p, declared_as OPTIONAL h p <-> mem p (optional o) = true) /\
  (forall p, declared_as REQUIRED h p <-> mem p (required o) = true) /\ strict o = is_strict h.
Lemma perform_agrees h o a o' : agrees h o -> perform o a = SOk o' -> agrees (a :: h) o'.
Proof.
  intros (H1 & H2 & H3 & H4) E.
  assert (B : forall p q, p = q \/ p <> q) by (intros p q; destruct (String.eqb_spec p q); auto).
  assert (T : forall p (w : option V) v q, (p = q /\ v = w \/ p <> q /\ value h q v) <-> (if String.eqb p q then w else find q (params o)) = v).
  { intros p w v q. rewrite H1. destruct (String.eqb_spec p q); split; intuition congruence. }
  destruct a as [p v|p| | |p at_ [d|]|m]; cbn [perform] in E.
  - unfold set_ in E. destruct (_ && _ && _); [discriminate|]. injection E as <-. split; [|split; [|split]]; auto.
    intros q w. cbn [params value]. rewrite find_assign. apply T.
  - unfold clear in E. destruct (find p (params o)); [|discriminate]. injection E as <-. split; [|split; [|split]]; auto.
    intros q w. cbn [params value]. rewrite find_erase. apply T.
  - injection E as <-. split; [|split; [|split]]; auto. intros q w. cbn [clear_params params value].
    rewrite find_retained, H1, <- !retention_reserved. destruct (retention q); split; intuition congruence.
  - injection E as <-. split; [|split; [|split]].
    + intros q w. cbn [clear_fields params value]. rewrite find_erase_all, H1, !H3. destruct (mem q (required o)); split; intuition congruence.
    + intros q. cbn. intuition discriminate.
    + intros q. cbn. intuition discriminate.
    + exact H4.
  - injection E as <-. unfold field_default. destruct at_; cbn [field params optional required strict]; (split; [|split; [|split]]); auto.
    + intros q w. cbn [value params]. rewrite find_assign. apply T.
    + intros q. cbn [declared_as optional required]. rewrite mem_add, orb_true_iff, H2, String.eqb_eq. intuition congruence.
    + intros q. cbn [declared_as optional required]. rewrite H3. intuition congruence.
    + intros q w. cbn [value params]. rewrite find_assign, find_erase. rewrite T. destruct (String.eqb p q); reflexivity.
    + intros q. cbn [declared_as optional required]. rewrite H2. intuition congruence.
    + intros q. cbn [declared_as optional required]. rewrite mem_add, orb_true_iff, H3, String.eqb_eq. intuition congruence.
  - injection E as <-. destruct at_; cbn [field params optional required strict]; (split; [|split; [|split]]); auto.
    + intros q. cbn [declared_as optional required]. rewrite mem_add, orb_true_iff, H2, String.eqb_eq. intuition congruence.
    + intros q. cbn [declared_as optional required]. rewrite H3. intuition congruence.
    + intros q w. cbn [value params]. rewrite find_erase. apply T.
    + intros q. cbn [declared_as optional required]. rewrite H2. intuition congruence.
    + intros q. cbn [declared_as optional required]. rewrite mem_add, orb_true_iff, H3, String.eqb_eq. intuition congruence.
  - injection E as <-. split; [|split; [|split]]; auto.
Qed.
Lemma fresh_agrees : agrees [] fresh_operator.
Proof. split; [|split; [|split]]; [intros p v; cbn; intuition congruence|intros p; cbn; intuition discriminate|intros p; cbn; intuition discriminate|reflexivity]. Qed.
Lemma after_agrees h o : after h = SOk o -> agrees h o.
Proof.
  revert o. induction h as [|a h IH]; intros o E; cbn [after] in E; [injection E as <-; apply fresh_agrees|].
  destruct (after h) as [o'| |]; try discriminate. eapply perform_agrees; eauto.
Qed.

Theorem C110_history h o : after h = SOk o ->
  (forall p v, get o p = SOk v <-> value h p (Some v)) /\ (forall p, get o p = SErr <-> value h p None) /\
  (forall p, has o p = true <-> ~ value h p None).
Proof.
  intros E. destruct (after_agrees h o E) as (H1 & _). unfold get, has. split; [|split].
  - intros p v. rewrite H1. destruct (find p (params o)); split; congruence.
  - intros p. rewrite H1. destruct (find p (params o)); split; congruence.
  - intros p. rewrite H1. destruct (find p (params o)); split; congruence.
Qed.

(** An action is refused exactly when it sets an undeclared name in strict
    mode, or clears a name without a value. *)
Theorem C110_refused h o a : after h = SOk o ->
  match a with
  | Set_param p _ => perform o a = SErr <-> is_strict h = true /\ ~ reserved p /\ ~ declared h p
  | Clear p => perform o a = SErr <-> value h p None
  | _ => exists o', perform o a = SOk o'
  end.
Proof.
  intros E. destruct (after_agrees h o E) as (H1 & H2 & H3 & H4).
  destruct a as [p v|p| | |p at_ [d|]|m]; cbn [perform]; eauto.
  - unfold set_, is_in_fields, declared. rewrite H2, H3, <- H4, <- retention_reserved.
    destruct (retention p), (mem p (optional o)), (mem p (required o)), (strict o); cbn; split; intuition congruence.
  - unfold clear. rewrite H1. destruct (find p (params o)); split; congruence.
Qed.

(** init accepts exactly when, in strict mode, every required field has a value
    that is not empty. *)
Theorem C110_init h o : after h = SOk o ->
  (init is_empty o = SOk o /\ (is_strict h = false \/ forall p, declared_as REQUIRED h p -> exists v, value h p (Some v) /\ is_empty v = false)) \/
  (init is_empty o = SErr /\ is_strict h = true /\ exists p, In p (unsatisfied_fields is_empty o) /\ declared_as REQUIRED h p /\ forall v, value h p (Some v) -> is_empty v = true).
Proof.
  intros E. destruct (after_agrees h o E) as (H1 & H2 & H3 & H4). unfold init, check_params, unsatisfied_fields. rewrite H4.
  destruct (is_strict h); cbn [negb orb]; [|auto].
  destruct (forallb _ (required o)) eqn:F.
  - left. split; [reflexivity|]. right. intros p Hp. apply H3, mem_In in Hp. rewrite forallb_forall in F. specialize (F p Hp).
    destruct (find p (params o)) as [v|] eqn:Ef; [|discriminate]. exists v. rewrite H1. split; [exact Ef|]. now destruct (is_empty v).
  - right. split; [reflexivity|]. split; [reflexivity|].
    assert (G : exists p, In p (required o) /\ match find p (params o) with None => true | Some v => is_empty v end = true).
    { clear - F. induction (required o) as [|p l IH]; [discriminate|]. cbn in F.
      destruct (find p (params o)) as [v|] eqn:Ef.
      - destruct (is_empty v) eqn:Ev; [exists p; split; [now left|now rewrite Ef]|]. cbn in F. destruct (IH F) as (q & Hq & Eq). exists q. split; [now right|exact Eq].
      - exists p. split; [now left|now rewrite Ef]. }
    destruct G as (p & Hp & Ep). exists p. split; [apply filter_In; auto|]. split; [apply H3, mem_In; exact Hp|].
    intros v Hv. apply H1 in Hv. now rewrite Hv in Ep.
Qed.

(** ** C111: an operator made from a node has the parameters of the node, and
    the defaults for the others. *)
Lemma set_all_spec : forall ps o,
  (forall p v, In (p, v) ps -> retention p = true \/ is_in_fields o p = true \/ strict o = false) ->
  exists o', set_all o ps = SOk o' /\ optional o' = optional o /\ required o' = required o /\ strict o' = strict o /\
    forall p, find p (params o') = match find p (rev ps) with Some v => Some v | None => find p (params o) end.
Proof.
  induction ps as [|[p v] ps IH]; intros o H; [exists o; cbn; auto 6|]. cbn [set_all]. unfold set_ at 1.
  assert (E : negb (retention p) && negb (is_in_fields o p) && strict o = false).
  { destruct (H p v (or_introl eq_refl)) as [->|[->| ->]]; [reflexivity|destruct (retention p); reflexivity|now rewrite andb_false_r]. }
  rewrite E. destruct (IH (Op (assign p v (params o)) (optional o) (required o) (strict o))) as (o' & -> & O & Rq & St & F).
  - intros q w Hq. exact (H q w (or_intror Hq)).
  - exists o'. split; [reflexivity|]. split; [exact O|]. split; [exact Rq|]. split; [exact St|].
    intros q. rewrite F. cbn [params rev]. rewrite find_assign.
    assert (A : forall (a b : list (string * V)), find q (a ++ b) = match find q a with Some x => Some x | None => find q b end).
    { clear. induction a as [|[r w] a IHa]; intros b; [reflexivity|]. cbn. destruct (String.eqb r q); auto. }
    rewrite A. cbn. destruct (find q (rev ps)); [reflexivity|]. destruct (String.eqb p q); reflexivity.
Qed.
Lemma set_all_err : forall ps o p v, In (p, v) ps -> retention p = false -> is_in_fields o p = false -> strict o = true -> set_all o ps = SErr.
Proof.
  induction ps as [|[q w] ps IH]; intros o p v Hin R F S; [destruct Hin|]. cbn [set_all]. unfold set_ at 1.
  destruct Hin as [[= -> ->]|Hin]; [now rewrite R, F, S|].
  destruct (_ && _ && _); [reflexivity|]. apply (IH _ p v Hin R); [exact F|exact S].
Qed.
Lemma find_In p v (m : list (string * V)) : NoDup (map fst m) -> (In (p, v) m <-> find p m = Some v).
Proof.
  induction m as [|[q w] m IH]; intros N; [cbn; split; [tauto|discriminate]|]. cbn [map fst] in N. inversion N as [|? ? N1 N2]; subst. cbn.
  destruct (String.eqb_spec q p) as [->|Nq].
  - split; [|intros [= ->]; auto]. intros [[= ->]|H]; [reflexivity|]. elim N1. apply in_map_iff. exists (p, v). auto.
  - rewrite <- IH by exact N2. split; [intros [[= -> ->]|H]; [congruence|exact H]|auto].
Qed.
Lemma find_rev p (m : list (string * V)) : NoDup (map fst m) -> find p (rev m) = find p m.
Proof.
  intros N. assert (N' : NoDup (map fst (rev m))) by (rewrite map_rev; apply (Permutation_NoDup (Permutation_rev _)); exact N).
  destruct (find p m) as [v|] eqn:E.
  - apply find_In; [exact N'|]. apply -> in_rev. now apply find_In.
  - destruct (find p (rev m)) as [v|] eqn:E'; [|reflexivity]. apply find_In in E'; [|exact N']. apply <- in_rev in E'. apply find_In in E'; [|exact N]. congruence.
Qed.

(** [o] is what the constructor leaves, [ps] the parameters of the node in any
    order. *)
Theorem C111_create o ps : NoDup (map fst ps) -> strict o = true ->
  match create is_empty o ps with
  | SOk o' =>
      (forall p v, get o' p = SOk v <-> In (p, v) ps \/ (~ In p (map fst ps) /\ get o p = SOk v)) /\
      (forall p, In p (map fst ps) -> reserved p \/ In p (optional o) \/ In p (required o)) /\
      (forall p, In p (required o) -> exists v, get o' p = SOk v /\ is_empty v = false)
  | SErr =>
      (exists p, In p (map fst ps) /\ ~ reserved p /\ ~ In p (optional o) /\ ~ In p (required o)) \/
      (exists p, In p (required o) /\ (forall v, In (p, v) ps -> is_empty v = true) /\ (~ In p (map fst ps) -> forall v, get o p = SOk v -> is_empty v = true))
  | SUndef => False
  end.
Proof.
  intros N S. unfold create.
  set (bad := fun e : string * V => negb (retention (fst e)) && negb (is_in_fields o (fst e))).
  destruct (existsb bad ps) eqn:B.
  { apply existsb_exists in B. destruct B as ([p v] & Hin & B). unfold bad in B. cbn [fst] in B. apply andb_true_iff in B. destruct B as [B1 B2].
    apply negb_true_iff in B1, B2. rewrite (set_all_err ps o p v Hin B1 B2 S). left. exists p.
    split; [apply in_map_iff; exists (p, v); auto|]. split; [rewrite <- retention_reserved; congruence|].
    unfold is_in_fields in B2. apply orb_false_iff in B2. destruct B2 as [O Rq].
    split; intros H; apply mem_In in H; congruence. }
  assert (A : forall p v, In (p, v) ps -> retention p = true \/ is_in_fields o p = true).
  { intros p v Hin. destruct (retention p) eqn:E1; [auto|]. destruct (is_in_fields o p) eqn:E2; [auto|].
    assert (existsb bad ps = true) by (apply existsb_exists; exists (p, v); split; [exact Hin|]; unfold bad; cbn; now rewrite E1, E2). congruence. }
  destruct (set_all_spec ps o) as (o' & -> & O & Rq & St & F).
  { intros p v Hin. destruct (A p v Hin); auto. }
  assert (F' : forall p, find p (params o') = match find p ps with Some v => Some v | None => find p (params o) end).
  { intros p. rewrite F, find_rev by exact N. reflexivity. }
  assert (G : forall p v, get o' p = SOk v <-> In (p, v) ps \/ (~ In p (map fst ps) /\ get o p = SOk v)).
  { intros p v. unfold get. rewrite F'. destruct (find p ps) as [w|] eqn:E.
    - apply find_In in E; [|exact N]. split.
      + intros [= ->]. auto.
      + intros [H|[H _]]; [apply find_In in H; [|exact N]; apply find_In in E; [|exact N]; congruence|].
        elim H. apply in_map_iff. exists (p, w). auto.
    - split; [intros H; right; split; [|exact H]|].
      + intros Hin. apply in_map_iff in Hin. destruct Hin as ([p' w] & Q & Hin). cbn in Q. subst p'. apply find_In in Hin; [|exact N]. congruence.
      + intros [H|[_ H]]; [apply find_In in H; [|exact N]; congruence|exact H]. }
  unfold init, check_params. rewrite St, S, Rq. cbn [negb orb].
  destruct (forallb _ (required o)) eqn:C.
  - split; [exact G|]. split.
    + intros p Hp. apply in_map_iff in Hp. destruct Hp as ([p' v] & Q & Hin). cbn in Q. subst p'. destruct (A p v Hin) as [H|H]; [left; now apply retention_reserved|].
      unfold is_in_fields in H. apply orb_true_iff in H. rewrite !mem_In in H. tauto.
    + intros p Hp. rewrite forallb_forall in C. specialize (C p Hp). unfold get. destruct (find p (params o')) as [v|]; [|discriminate].
      exists v. split; [reflexivity|]. now destruct (is_empty v).
  - right.
    assert (X : exists p, In p (required o) /\ match find p (params o') with None => true | Some v => is_empty v end = true).
    { clear - C. induction (required o) as [|p l IH]; [discriminate|]. cbn in C.
      destruct (find p (params o')) as [v|] eqn:Ef.
      - destruct (is_empty v) eqn:Ev; [exists p; split; [now left|now rewrite Ef]|]. cbn in C. destruct (IH C) as (q & Hq & Eq). exists q. split; [now right|exact Eq].
      - exists p. split; [now left|now rewrite Ef]. }
    destruct X as (p & Hp & Ep). exists p. split; [exact Hp|].
    assert (Y : forall v, get o' p = SOk v -> is_empty v = true).
    { intros v Hv. unfold get in Hv. destruct (find p (params o')); [|discriminate]. now injection Hv as <-. }
    split; intros; apply Y, G; auto.
Qed.

(** The order in which the hash map yields the parameters does not matter. *)
Theorem C111_order o ps ps' : NoDup (map fst ps) -> Permutation ps ps' -> strict o = true ->
  match create is_empty o ps, create is_empty o ps' with
  | SOk a, SOk b => forall p, get a p = get b p
  | SErr, SErr => True
  | _, _ => False
  end.
Proof.
  intros N P S. assert (N' : NoDup (map fst ps')) by (apply (Permutation_NoDup (Permutation_map fst P)); exact N).
  pose proof (C111_create o ps N S) as H. pose proof (C111_create o ps' N' S) as H'.
  assert (I : forall p v, In (p, v) ps <-> In (p, v) ps') by (intros; split; apply Permutation_in; [exact P|now apply Permutation_sym]).
  assert (K : forall p, In p (map fst ps) <-> In p (map fst ps')) by (intros; split; apply Permutation_in; [now apply Permutation_map|apply Permutation_map; now apply Permutation_sym]).
  assert (Dis : forall ps1 ps2 a, (forall p v, In (p, v) ps1 <-> In (p, v) ps2) -> (forall p, In p (map fst ps1) <-> In p (map fst ps2)) ->
    ((forall p v, get a p = SOk v <-> In (p, v) ps1 \/ (~ In p (map fst ps1) /\ get o p = SOk v)) /\
      (forall p, In p (map fst ps1) -> reserved p \/ In p (optional o) \/ In p (required o)) /\
      (forall p, In p (required o) -> exists v, get a p = SOk v /\ is_empty v = false)) ->
    ((exists p, In p (map fst ps2) /\ ~ reserved p /\ ~ In p (optional o) /\ ~ In p (required o)) \/
      (exists p, In p (required o) /\ (forall v, In (p, v) ps2 -> is_empty v = true) /\ (~ In p (map fst ps2) -> forall v, get o p = SOk v -> is_empty v = true))) -> False).
  { intros ps1 ps2 a I' K' (G & D & Rq) [(p & Hp & R1 & R2 & R3)|(p & Hp & E1 & E2)].
    - apply K' in Hp. destruct (D p Hp) as [?|[?|?]]; contradiction.
    - destruct (Rq p Hp) as (v & Hv & Ev). apply G in Hv. destruct Hv as [Hv|[Hv1 Hv2]].
      + apply I' in Hv. rewrite (E1 v Hv) in Ev. discriminate.
      + assert (~ In p (map fst ps2)) by (rewrite <- K'; exact Hv1). rewrite (E2 H0 v Hv2) in Ev. discriminate. }
  destruct (create is_empty o ps) as [a| |], (create is_empty o ps') as [b| |]; try contradiction; auto.
  - intros p. destruct H as (G & _), H' as (G' & _).
    assert (Q : forall v, get a p = SOk v <-> get b p = SOk v) by (intros v; rewrite G, G', I, K; reflexivity).
    unfold get in *. destruct (find p (params a)) as [v|], (find p (params b)) as [w|]; auto.
    + symmetry. apply Q. reflexivity.
    + specialize (Q v). destruct Q as [Q _]. discriminate (Q eq_refl).
    + specialize (Q w). destruct Q as [_ Q]. discriminate (Q eq_refl).
  - exact (Dis ps ps' a I K H H').
  - exact (Dis ps' ps b (fun p v => iff_sym (I p v)) (fun p => iff_sym (K p)) H' H).
Qed.

(** What a constructor leaves is what its declarations say, the last one of a
    name deciding. *)
Definition said (d : string * attr * option V) : action := match d with (q, a, w) => Field q a w end.
Lemma constructed_after (ds : list (string * attr * option V)) : after (rev (map said ds)) = SOk (constructed ds).
Proof.
  unfold constructed. induction ds as [|d ds IH] using rev_ind; [reflexivity|].
  rewrite map_app, rev_app_distr, fold_left_app. cbn [map rev app after fold_left]. rewrite IH. destruct d as [[q a] [w|]]; reflexivity.
Qed.
Theorem C111_defaults (ds : list (string * attr * option V)) p v : get (constructed ds) p = SOk v <-> default_of ds p (Some v).
Proof.
  destruct (C110_history _ _ (constructed_after ds)) as (H & _ & _). rewrite H. unfold default_of.
  replace (map said ds) with (map (fun d : string * attr * option V => match d with (q, a, w) => Field q a w end) ds); [reflexivity|].
  apply map_ext. intros [[q a] w]. reflexivity.
Qed.

Lemma keys_assign p v (m : list (string * V)) : NoDup (map fst m) -> NoDup (map fst (assign p v m)) /\ forall q, In q (map fst (assign p v m)) <-> q = p \/ In q (map fst m).
Proof.
  induction m as [|[r w] m IH]; intros N.
  { cbn. split; [constructor; [intros []|constructor]|]. intros q. split; intros [H|[]]; auto. }
  cbn [map fst] in N. inversion N as [|? ? N1 N2]; subst. cbn [assign]. destruct (String.eqb_spec r p) as [->|Nr]; cbn [map fst].
  - split; [constructor; assumption|]. intros q. cbn. split; [intros [H|H]; auto|]. intros [->|[H|H]]; auto.
  - destruct (IH N2) as [A B]. split.
    + constructor; [|exact A]. rewrite B. intros [H|H]; contradiction.
    + intros q. cbn. rewrite B. split; [intros [H|[H|H]]; auto|intros [H|[H|H]]; auto].
Qed.
Lemma keys_erase p (m : list (string * V)) : NoDup (map fst m) -> NoDup (map fst (erase p m)) /\ forall q, In q (map fst (erase p m)) -> In q (map fst m).
Proof.
  unfold erase. induction m as [|[r w] m IH]; intros N; [split; [constructor|auto]|].
  cbn [map fst] in N. inversion N as [|? ? N1 N2]; subst. destruct (IH N2) as [A B]. cbn [filter fst].
  destruct (String.eqb r p); cbn [negb map fst].
  - split; [exact A|]. intros q H. right. auto.
  - split; [constructor; [intros H; apply N1; auto|exact A]|]. intros q [H|H]; [now left|right; auto].
Qed.
Definition tidy o : Prop := NoDup (map fst (params o)) /\ forall p, In p (map fst (params o)) -> retention p = true \/ is_in_fields o p = true.
Lemma tidy_declare o d : tidy o -> tidy (declare o d).
Proof.
  assert (F : forall o p a, tidy o -> tidy (field o p a) /\ is_in_fields (field o p a) p = true).
  { clear o d. intros o p a (N & K). destruct a; cbn [field].
    - split; [split; [exact N|]|].
      + intros q Hq. destruct (K q Hq) as [H|H]; [now left|]. right. unfold is_in_fields in *. cbn [optional required]. rewrite mem_add.
        apply orb_true_iff in H. destruct H as [-> | ->]; [now rewrite orb_true_r|now rewrite !orb_true_r].
      + unfold is_in_fields. cbn [optional]. rewrite mem_add, String.eqb_refl. reflexivity.
    - destruct (keys_erase p (params o) N) as [A B]. split; [split; [exact A|]|].
      + intros q Hq. destruct (K q (B q Hq)) as [H|H]; [now left|]. right. unfold is_in_fields in *. cbn [optional required]. rewrite mem_add.
        apply orb_true_iff in H. destruct H as [-> | ->]; [reflexivity|now rewrite !orb_true_r].
      + unfold is_in_fields. cbn [required]. rewrite mem_add, String.eqb_refl. apply orb_true_r. }
  intros T. destruct d as [[p a] [w|]]; cbn [declare]; [|now apply F].
  destruct (F o p a T) as ((N & K) & I). unfold field_default. destruct (keys_assign p w _ N) as [A B].
  split; [exact A|]. cbn [params]. intros q Hq. apply B in Hq. destruct Hq as [->|Hq]; [right; exact I|]. exact (K q Hq).
Qed.
Lemma tidy_constructed ds : tidy (constructed ds).
Proof.
  unfold constructed. induction ds as [|d ds IH] using rev_ind; [split; [constructor|intros p []]|].
  rewrite fold_left_app. cbn [fold_left]. now apply tidy_declare.
Qed.
Lemma strict_constructed (ds : list (string * attr * option V)) : strict (constructed ds) = true.
Proof.
  destruct (after_agrees _ _ (constructed_after ds)) as (_ & _ & _ & ->). rewrite <- map_rev.
  induction (rev ds) as [|[[q a] w] l IH]; [reflexivity|exact IH].
Qed.
Lemma tidy_set_all : forall ps o o', tidy o -> set_all o ps = SOk o' -> strict o = true -> tidy o' /\ optional o' = optional o /\ required o' = required o /\ strict o' = true.
Proof.
  induction ps as [|[p v] ps IH]; intros o o' T E S; [injection E as <-; auto|]. cbn [set_all] in E. unfold set_ in E at 1.
  destruct (negb (retention p) && negb (is_in_fields o p) && strict o) eqn:G; [discriminate|].
  apply IH in E; [exact E| |exact S]. destruct T as (N & K). destruct (keys_assign p v _ N) as [A B].
  split; [exact A|]. cbn [params]. intros q Hq. apply B in Hq. destruct Hq as [->|Hq]; [|exact (K q Hq)].
  rewrite S, andb_true_r in G. destruct (retention p); [now left|]. right. cbn [negb andb] in G. apply negb_false_iff in G. exact G.
Qed.

(** A copy of an operator made from a node has the same parameters. *)
Theorem C111_clone ds ps o : NoDup (map fst ps) -> create is_empty (constructed ds) ps = SOk o ->
  exists c, clone is_empty (constructed ds) o = SOk c /\ forall p, get c p = get o p.
Proof.
  intros N E. pose proof (C111_create (constructed ds) ps N (strict_constructed ds)) as H. rewrite E in H. destruct H as (G & D & Rq).
  unfold create in E. destruct (set_all (constructed ds) ps) as [o1| |] eqn:Es; try discriminate.
  unfold init in E. destruct (check_params is_empty o1) eqn:Ec; [|discriminate]. injection E as ->.
  destruct (tidy_set_all ps _ o (tidy_constructed ds) Es (strict_constructed ds)) as ((No & Ko) & O & R & S).
  unfold clone. pose proof (C111_create (constructed ds) (params o) No (strict_constructed ds)) as H.
  assert (X : forall p v, In (p, v) (params o) <-> get o p = SOk v).
  { intros p v. rewrite (find_In p v _ No). unfold get. destruct (find p (params o)); split; congruence. }
  destruct (create is_empty (constructed ds) (params o)) as [c| |]; [|exfalso|contradiction].
  - exists c. split; [reflexivity|]. destruct H as (G' & _). intros p.
    assert (Q : forall v, get c p = SOk v <-> get o p = SOk v).
    { intros v. rewrite G', X. split; [intros [H|[Ni H]]; [exact H|]|auto]. apply G. right. split; [|exact H].
      intros Hp. apply Ni. apply in_map_iff in Hp. destruct Hp as ([p' w] & Q & Hp). cbn in Q. subst p'. apply in_map_iff. exists (p, w). split; [reflexivity|].
      apply X, G. auto. }
    unfold get in *. destruct (find p (params c)) as [v|], (find p (params o)) as [w|]; auto.
    + symmetry. apply Q. reflexivity.
    + destruct (Q v) as [Q' _]. discriminate (Q' eq_refl).
    + destruct (Q w) as [_ Q']. discriminate (Q' eq_refl).
  - destruct H as [(p & Hp & R1 & R2 & R3)|(p & Hp & E1 & E2)].
    + destruct (Ko p Hp) as [H|H]; [apply R1, retention_reserved; exact H|]. unfold is_in_fields in H. rewrite O, R in H. apply orb_true_iff in H. rewrite !mem_In in H.
      destruct H; contradiction.
    + destruct (Rq p Hp) as (v & Hv & Ev). apply X in Hv. rewrite (E1 v Hv) in Ev. discriminate.
Qed.
End Props.
Print Assumptions C110_history.
Print Assumptions C110_refused.
Print Assumptions C110_init.
Print Assumptions C111_create.
Print Assumptions C111_order.
Print Assumptions C111_defaults.
Print Assumptions C111_clone.

(** ** Concrete cases: parameters are lists, the empty one an empty tensor. *)
Definition no_elements (v : list nat) : bool := match v with [] => true | _ => false end.
Local Open Scope string_scope.
(** a pooling-like operator: a required [ksize], a defaulted [format] *)
Definition pooling : list (string * attr * option (list nat)) := [("ksize", REQUIRED, None); ("format", OPTIONAL, Some [1]); ("type", OPTIONAL, None)].

Example C110_example :
  exists o : operator (list nat), after [Clear "format"; Set_param "ksize" [3; 3]; Field "format" OPTIONAL (Some [1]); Field "ksize" REQUIRED None] = SOk o /\
  get o "ksize" = SOk [3; 3] /\ get o "format" = SErr /\ perform o (Set_param "stride" [1]) = SErr /\ init no_elements o = SOk o.
Proof. eexists. repeat split; vm_compute; reflexivity. Qed.
(** declaring a field as required again drops its value *)
Example C110_again :
  exists o : operator (list nat), after [Field "ksize" REQUIRED None; Set_param "ksize" [3; 3]; Field "ksize" REQUIRED None] = SOk o /\ get o "ksize" = SErr /\ init no_elements o = SErr.
Proof. eexists. repeat split; vm_compute; reflexivity. Qed.

Example C111_example :
  match create no_elements (constructed pooling) [("ksize", [2; 2]); ("#name", [7])] with
  | SOk o => get o "ksize" = SOk [2; 2] /\ get o "format" = SOk [1] /\ get o "#name" = SOk [7] /\ has o "type" = false /\
      match clone no_elements (constructed pooling) o with SOk c => get c "format" = SOk [1] /\ get c "ksize" = SOk [2; 2] | _ => False end
  | _ => False
  end.
Proof. vm_compute. repeat split. Qed.
Example C111_missing : create no_elements (constructed pooling) [("format", [0])] = SErr.
Proof. reflexivity. Qed.

(** A default that was cleared comes back in a copy: a copy of an operator need
    not have the parameters of the operator. *)
Theorem C111_cleared_default_refuted :
  exists (ds : list (string * attr * option (list nat))) o c, after (Clear "format" :: rev (map said ds)) = SOk o /\ get o "format" = SErr /\
    clone no_elements (constructed ds) o = SOk c /\ get c "format" = SOk [1].
Proof. exists [("format", OPTIONAL, Some [1])]. eexists _, _. repeat split; vm_compute; reflexivity. Qed.
Print Assumptions C111_cleared_default_refuted.

(** clear_params also removes the defaults, clear_fields keeps the values of
    optional fields, which can then no longer be set. *)
Theorem C110_clear_params_loses_defaults :
  exists h (o : operator (list nat)), after h = SOk o /\ get o "format" = SOk [1] /\ declared h "format" /\ get (clear_params o) "format" = SErr.
Proof. exists [Field "format" OPTIONAL (Some [1])]. eexists. split; [reflexivity|]. split; [reflexivity|]. split; [left; cbn; auto|reflexivity]. Qed.
Theorem C110_clear_fields_keeps_values :
  exists h (o : operator (list nat)), after (Clear_fields :: h) = SOk o /\ get o "format" = SOk [1] /\ ~ declared (Clear_fields :: h) "format" /\ perform o (Set_param "format" [2]) = SErr.
Proof. exists [Field "format" OPTIONAL (Some [1])]. eexists. split; [reflexivity|]. split; [reflexivity|]. split; [intros [[]|[]]|reflexivity]. Qed.
Print Assumptions C110_clear_params_loses_defaults.
Print Assumptions C110_clear_fields_keeps_values.
