(** C138: inputs and outputs of nodes agree; C139: replacing a node. *)
From Coq Require Import List Arith Bool Lia.
From Verif Require Import LinkModel.
Import ListNotations.

Definition opt_dec (x y : option nat) : {x = y} + {x <> y}.
Proof. decide equality. apply Nat.eq_dec. Defined.

(** how often [b] is an input of [a], and how often [a] an output of [b] *)
Definition uses (h : heap) (a b : nat) : nat := count_occ opt_dec (ins h a) (Some b).
Definition known (h : heap) (a b : nat) : nat := count_occ Nat.eq_dec (outs h b) a.
(** the two agree for all nodes that exist *)
Definition consistent (h : heap) : Prop :=
  forall a b, live h a = true -> live h b = true -> uses h a b = known h a b.

Definition clean (h : heap) : Prop :=
  (forall n, size h <= n -> live h n = false /\ ins h n = [] /\ outs h n = []) /\
  (forall n b, In (Some b) (ins h n) -> b < size h) /\ (forall n a, In a (outs h n) -> a < size h).

Lemma upd_same {A} (f : nat -> A) n a : upd f n a n = a.
Proof. unfold upd. now rewrite Nat.eqb_refl. Qed.
Lemma upd_other {A} (f : nat -> A) n m a : m <> n -> upd f n a m = f m.
Proof. intro H. unfold upd. now rewrite (proj2 (Nat.eqb_neq _ _) H). Qed.

Lemma erase_spec h n : forall l l', erase_output h n l = Some l' ->
  l' = filter (fun t => negb (Nat.eqb t n)) l /\ forall t, In t l -> live h t = true.
Proof.
  induction l as [|t r IH]; intros l' H; cbn in H.
  - injection H as <-. split; [reflexivity|]. intros t [].
  - destruct (live h t) eqn:E; [|discriminate]. cbn in H.
    destruct (erase_output h n r) as [r'|] eqn:E2; [|discriminate]. injection H as <-.
    destruct (IH r' eq_refl) as [-> Hl]. split.
    + cbn. destruct (Nat.eqb t n); reflexivity.
    + intros u [<-|Hu]; [exact E|]. apply Hl, Hu.
Qed.
Lemma erase_live h n l : (forall t, In t l -> live h t = true) -> exists l', erase_output h n l = Some l'.
Proof.
  induction l as [|t r IH]; intro H; [now exists []|]. cbn. rewrite (H t) by now left. cbn.
  destruct IH as [l' ->]; [intros u Hu; apply H; now right|]. eexists. reflexivity.
Qed.
Lemma count_filter n : forall l x, count_occ Nat.eq_dec (filter (fun t => negb (Nat.eqb t n)) l) x = if Nat.eqb x n then 0 else count_occ Nat.eq_dec l x.
Proof.
  induction l as [|t r IH]; intro x; cbn [filter count_occ]; [now destruct (Nat.eqb x n)|].
  destruct (Nat.eqb_spec t n) as [->|Hn]; cbn [negb].
  - rewrite IH. destruct (Nat.eqb_spec x n) as [->|Hx]; [reflexivity|].
    destruct (Nat.eq_dec n x); [congruence|reflexivity].
  - cbn [count_occ]. rewrite IH. destruct (Nat.eq_dec t x) as [->|Hx]; [|reflexivity].
    rewrite (proj2 (Nat.eqb_neq _ _) Hn). reflexivity.
Qed.

(** ** Unlinking *)
Lemma unlink_spec n : forall bs h h', unlink h n bs = Some h' ->
  size h' = size h /\ live h' = live h /\ ins h' = ins h /\
  forall b, outs h' b = outs h b \/ outs h' b = filter (fun t => negb (Nat.eqb t n)) (outs h b).
Proof.
  induction bs as [|[b|] r IH]; intros h h' H; cbn in H.
  - injection H as <-. split; [reflexivity|]. split; [reflexivity|]. split; [reflexivity|]. now left.
  - destruct (live h b) eqn:E; [|now apply IH].
    destruct (erase_output h n (outs h b)) as [l|] eqn:E2; [|discriminate].
    destruct (IH _ _ H) as (Hs & Hl & Hi & Ho). destruct (erase_spec _ _ _ _ E2) as [-> _].
    split; [exact Hs|]. split; [exact Hl|]. split; [exact Hi|].
    intro c. specialize (Ho c). cbn [outs with_outs] in Ho.
    destruct (Nat.eq_dec c b) as [Hcb|Hcb]; [|rewrite upd_other in Ho by exact Hcb; exact Ho].
    rewrite Hcb in *. rewrite upd_same in Ho. right. destruct Ho as [Ho|Ho]; rewrite Ho; [reflexivity|].
    clear. induction (outs h b) as [|t l IH]; [reflexivity|]. cbn. destruct (Nat.eqb t n) eqn:E; cbn; [exact IH|]. rewrite E. cbn. now rewrite IH.
  - now apply IH.
Qed.
Lemma unlink_gone n : forall bs h h' b, unlink h n bs = Some h' -> In (Some b) bs -> live h b = true ->
  count_occ Nat.eq_dec (outs h' b) n = 0.
Proof.
  induction bs as [|c r IH]; intros h h' b H Hin Hb; [destruct Hin|]. cbn in H.
  destruct c as [c|].
  - destruct Hin as [E|Hin].
    + injection E as ->. rewrite Hb in H.
      destruct (erase_output h n (outs h b)) as [l|] eqn:E2; [|discriminate].
      destruct (erase_spec _ _ _ _ E2) as [-> _].
      destruct (unlink_spec _ _ _ _ H) as (_ & _ & _ & Ho). specialize (Ho b). cbn [outs with_outs] in Ho. rewrite upd_same in Ho.
      destruct Ho as [Ho|Ho]; rewrite Ho, !count_filter, ?Nat.eqb_refl; reflexivity.
    + destruct (live h c) eqn:E; [|eapply IH; eassumption].
      destruct (erase_output h n (outs h c)) as [l|] eqn:E2; [|discriminate].
      eapply IH; [exact H|exact Hin|exact Hb].
  - destruct Hin as [E|Hin]; [discriminate|]. eapply IH; eassumption.
Qed.
Lemma unlink_live n : forall bs h, (forall b t, In t (outs h b) -> live h t = true) -> exists h', unlink h n bs = Some h'.
Proof.
  induction bs as [|[b|] r IH]; intros h Hl; [now exists h| |].
  - cbn. destruct (live h b); [|now apply IH].
    destruct (erase_live h n (outs h b)) as [l E]; [intros t Ht; eapply Hl, Ht|]. rewrite E.
    destruct (erase_spec _ _ _ _ E) as [-> _]. apply IH. intros c t Ht. cbn [outs with_outs live] in *. unfold upd in Ht.
    destruct (Nat.eqb c b); [apply filter_In in Ht; apply (Hl b t), Ht|apply (Hl c t), Ht].
  - cbn. now apply IH.
Qed.

(** ** Linking *)
Lemma count_none l b : count_occ opt_dec (repeat None l) (Some b) = 0.
Proof. induction l as [|l IH]; [reflexivity|]. cbn. exact IH. Qed.

Lemma link_inputs_spec n : forall inputs h d, live h n = true -> consistent h -> clean h ->
  ins h n = d ++ repeat None (length inputs) ->
  match link_inputs h n d inputs with
  | Fine h' => consistent h' /\ clean h' /\ live h' = live h /\ ins h' n = d ++ map Some inputs /\ (forall m, m <> n -> ins h' m = ins h m) /\
               (forall b, outs h' b = outs h b ++ repeat n (count_occ Nat.eq_dec inputs b)) /\ (forall b, In b inputs -> live h b = true)
  | Throws h' => consistent h' /\ clean h' /\ live h' = live h /\ (forall m, m <> n -> ins h' m = ins h m) /\ exists b, In b inputs /\ live h b = false
  | _ => False
  end.
Proof.
  induction inputs as [|b r IH]; intros h d Hn Hc Hcl Hi; cbn [link_inputs].
  - split; [exact Hc|]. split; [exact Hcl|]. split; [reflexivity|]. split; [exact Hi|]. split; [reflexivity|]. split; [intro b; cbn; now rewrite app_nil_r|]. intros b [].
  - destruct (live h b) eqn:Hb.
    2:{ split; [exact Hc|]. split; [exact Hcl|]. split; [reflexivity|]. split; [reflexivity|]. exists b. split; [now left|exact Hb]. }
    set (h1 := with_outs h b (outs h b ++ [n])).
    set (h2 := with_ins h1 n (d ++ Some b :: repeat None (length r))).
    assert (Hsz : size h2 = size h) by reflexivity.
    assert (Hlive : live h2 = live h) by reflexivity.
    assert (Hc2 : consistent h2).
    { intros a c Ha Hcc. rewrite Hlive in Ha, Hcc. specialize (Hc a c Ha Hcc). unfold uses, known in *. cbn [ins outs h2 h1 with_ins with_outs].
      destruct (Nat.eq_dec a n) as [->|Hane].
      - rewrite upd_same. rewrite Hi in Hc. cbn [length repeat] in Hc.
        rewrite count_occ_app in Hc. cbn [count_occ] in Hc. destruct (opt_dec None (Some c)); [discriminate|]. rewrite count_none, Nat.add_0_r in Hc.
        rewrite count_occ_app. cbn [count_occ]. rewrite count_none, Hc.
        destruct (Nat.eq_dec c b) as [->|Hcb].
        + rewrite upd_same, count_occ_app. cbn [count_occ]. destruct (opt_dec (Some b) (Some b)); [|congruence]. destruct (Nat.eq_dec n n); [|congruence]. lia.
        + rewrite upd_other by exact Hcb. destruct (opt_dec (Some b) (Some c)); [congruence|]. lia.
      - rewrite upd_other by exact Hane.
        destruct (Nat.eq_dec c b) as [->|Hcb]; [|rewrite upd_other by exact Hcb; exact Hc].
        rewrite upd_same, count_occ_app. cbn [count_occ]. destruct (Nat.eq_dec n a); [congruence|]. lia. }
    assert (Hlt : forall x, live h x = true -> x < size h).
    { intros x Hx. destruct (Nat.lt_ge_cases x (size h)) as [|Hge]; [assumption|]. destruct Hcl as [H0 _]. destruct (H0 x Hge) as [H1 _]. congruence. }
    assert (Hcl2 : clean h2).
    { destruct Hcl as (C1 & C2 & C3). unfold clean. rewrite Hsz, Hlive. split; [|split].
      - intros x Hx. destruct (C1 x Hx) as (A1 & A2 & A3). split; [exact A1|].
        assert (x <> n) by (intros ->; congruence). assert (x <> b) by (intros ->; congruence).
        cbn [ins outs h2 h1 with_ins with_outs]. rewrite !upd_other by assumption. now split.
      - intros x c H. cbn [ins h2 h1 with_ins with_outs] in H. unfold upd in H. destruct (Nat.eqb_spec x n) as [->|]; [|eapply C2, H].
        apply in_app_or in H. destruct H as [H|[H|H]].
        + apply (C2 n c). rewrite Hi. apply in_or_app. now left.
        + injection H as <-. apply Hlt, Hb.
        + apply repeat_spec in H. discriminate.
      - intros x c H. cbn [outs h2 h1 with_ins with_outs] in H. unfold upd in H. destruct (Nat.eqb_spec x b) as [->|]; [|eapply C3, H].
        apply in_app_or in H. destruct H as [H|[<-|[]]]; [eapply C3, H|]. apply Hlt, Hn. }
    specialize (IH h2 (d ++ [Some b]) Hn Hc2 Hcl2).
    assert (Hi2 : ins h2 n = (d ++ [Some b]) ++ repeat None (length r)).
    { cbn [ins h2 h1 with_ins]. rewrite upd_same, <- app_assoc. reflexivity. }
    specialize (IH Hi2).
    assert (Hother : forall m, m <> n -> ins h2 m = ins h m).
    { intros m Hm. cbn [ins h2 h1 with_ins with_outs]. now rewrite upd_other. }
    destruct (link_inputs h2 n (d ++ [Some b]) r) as [h'|h'| |]; [| |exact IH|exact IH].
    + destruct IH as (I1 & I2 & I3 & I4 & I5 & I6 & I7). split; [exact I1|]. split; [exact I2|]. split; [now rewrite I3|].
      split; [rewrite I4, <- app_assoc; reflexivity|]. split; [intros m Hm; rewrite I5, Hother by exact Hm; reflexivity|]. split.
      * intro c. rewrite I6. cbn [outs h2 h1 with_ins with_outs count_occ]. destruct (Nat.eq_dec b c) as [<-|Hbc].
        -- rewrite upd_same, <- app_assoc. reflexivity.
        -- rewrite upd_other by congruence. reflexivity.
      * intros c [<-|Hc']; [exact Hb|]. rewrite <- Hlive. apply I7, Hc'.
    + destruct IH as (I1 & I2 & I3 & I4 & (c & I5 & I6)). split; [exact I1|]. split; [exact I2|]. split; [now rewrite I3|].
      split; [intros m Hm; rewrite I4, Hother by exact Hm; reflexivity|]. exists c. split; [now right|]. rewrite <- Hlive. exact I6.
Qed.

Definition good (h : heap) (r : result) : Prop :=
  match r with Fine h' | Throws h' => consistent h' /\ clean h' | _ => True end.

(** after unlinking, [n] has no inputs *)
Lemma unlinked n h h1 k : consistent h -> clean h -> live h n = true -> unlink h n (ins h n) = Some h1 ->
  consistent (with_ins h1 n (repeat None k)) /\ clean (with_ins h1 n (repeat None k)).
Proof.
  intros Hc Hcl Hn Hu. destruct (unlink_spec _ _ _ _ Hu) as (Us & Ul & Ui & Uo). split.
  - intros a b Ha Hb. cbn [live with_ins] in Ha, Hb. rewrite Ul in Ha, Hb. unfold uses, known. cbn [ins outs with_ins].
    destruct (Nat.eq_dec a n) as [->|Han].
    + rewrite upd_same, count_none. symmetry.
      destruct (in_dec opt_dec (Some b) (ins h n)) as [Hin|Hin].
      * eapply unlink_gone; eassumption.
      * assert (E : count_occ Nat.eq_dec (outs h b) n = 0).
        { specialize (Hc n b Hn Hb). unfold uses, known in Hc. rewrite <- Hc. now apply count_occ_not_In. }
        destruct (Uo b) as [Eo|Eo]; rewrite Eo; [exact E|]. rewrite count_filter, Nat.eqb_refl. reflexivity.
    + rewrite upd_other by exact Han. rewrite Ui. specialize (Hc a b Ha Hb). unfold uses, known in Hc. rewrite Hc.
      destruct (Uo b) as [Eo|Eo]; rewrite Eo; [reflexivity|]. rewrite count_filter, (proj2 (Nat.eqb_neq _ _) Han). reflexivity.
  - destruct Hcl as (C1 & C2 & C3). unfold clean. cbn [size live ins outs with_ins]. rewrite Us, Ul, Ui. split; [|split].
    + intros x Hx. destruct (C1 x Hx) as (A1 & A2 & A3). split; [exact A1|].
      assert (x <> n) by (intros ->; congruence). rewrite upd_other by assumption. split; [exact A2|].
      destruct (Uo x) as [Eo|Eo]; rewrite Eo, A3; reflexivity.
    + intros x b H. unfold upd in H. destruct (Nat.eqb x n); [apply repeat_spec in H; discriminate|eapply C2, H].
    + intros x a H. apply (C3 x a). destruct (Uo x) as [Eo|Eo]; rewrite Eo in H; [exact H|]. apply filter_In in H. apply H.
Qed.

Lemma link_good h n inputs : consistent h -> clean h -> good h (link h n inputs).
Proof.
  intros Hc Hcl. unfold link. destruct (live h n) eqn:Hn; cbn [negb]; [|now split].
  destruct (unlink h n (ins h n)) as [h1|] eqn:Hu; [|exact I].
  destruct (unlink_spec _ _ _ _ Hu) as (Us & Ul & _).
  destruct (unlinked n h h1 (length inputs) Hc Hcl Hn Hu) as [Hc2 Hcl2].
  pose proof (link_inputs_spec n inputs (with_ins h1 n (repeat None (length inputs))) []) as H.
  cbn [live with_ins] in H. rewrite Ul in H. specialize (H Hn Hc2 Hcl2). cbn [ins with_ins] in H. rewrite upd_same in H. specialize (H eq_refl).
  destruct (link_inputs _ n [] inputs); cbn [good]; [| |contradiction|contradiction].
  - destruct H as (H1 & H2 & _). now split.
  - destruct H as (H1 & H2 & _). now split.
Qed.

(** ** Replacing *)
Definition subst (old new : nat) (x : option nat) : option nat := match x with Some b => Some (if Nat.eqb b old then new else b) | None => None end.

Lemma first_subst old new l : map (subst old new) (replace_first old new l) = map (subst old new) l.
Proof.
  induction l as [|[b|] r IH]; [reflexivity| |].
  - cbn [replace_first]. destruct (Nat.eqb_spec b old) as [->|H]; cbn [map subst]; [|now rewrite IH].
    rewrite Nat.eqb_refl. destruct (Nat.eqb new old); reflexivity.
  - cbn. now rewrite IH.
Qed.
Lemma first_count old new l c : old <> new -> In (Some old) l ->
  count_occ opt_dec (replace_first old new l) (Some c) + (if Nat.eqb c old then 1 else 0) = count_occ opt_dec l (Some c) + (if Nat.eqb c new then 1 else 0).
Proof.
  intros Hne. induction l as [|[b|] r IH]; intro Hin; [destruct Hin| |].
  - cbn [replace_first]. destruct (Nat.eqb_spec b old) as [->|Hb].
    + cbn [count_occ]. destruct (opt_dec (Some new) (Some c)) as [E|E], (opt_dec (Some old) (Some c)) as [E2|E2];
      destruct (Nat.eqb_spec c old), (Nat.eqb_spec c new); try congruence; lia.
    + cbn [count_occ]. destruct Hin as [E|Hin]; [congruence|]. specialize (IH Hin). destruct (opt_dec (Some b) (Some c)); lia.
  - destruct Hin as [E|Hin]; [discriminate|]. cbn [replace_first count_occ]. specialize (IH Hin). destruct (opt_dec None (Some c)); [discriminate|exact IH].
Qed.
Lemma first_In old new x l : In x (replace_first old new l) -> In x l \/ x = Some new.
Proof.
  induction l as [|[b|] r IH]; [now left| |].
  - cbn [replace_first]. destruct (Nat.eqb b old); intros [<-|H]; [now right|left; now right|left; now left|].
    destruct (IH H); [left; now right|now right].
  - intros [<-|H]; [left; now left|]. destruct (IH H); [left; now right|now right].
Qed.

Lemma replace_spec old new : old <> new -> forall todo h h',
  live h old = true -> live h new = true ->
  (forall a b, live h a = true -> live h b = true -> b <> old -> uses h a b = known h a b) ->
  (forall a, live h a = true -> uses h a old = count_occ Nat.eq_dec todo a) ->
  clean h ->
  replace_outputs h old new todo = Some h' ->
  live h' = live h /\
  (forall a b, live h a = true -> live h b = true -> b <> old -> uses h' a b = known h' a b) /\
  (forall a, live h a = true -> uses h' a old = 0) /\ clean h' /\
  (forall a, map (subst old new) (ins h' a) = map (subst old new) (ins h a)) /\
  (forall a, ~ In a todo -> ins h' a = ins h a) /\
  outs h' new = outs h new ++ todo /\ (forall b, b <> new -> outs h' b = outs h b).
Proof.
  intro Hne. induction todo as [|o r IH]; intros h h' Hold Hnew H1 H2 Hcl H; cbn [replace_outputs] in H.
  - injection H as <-. split; [reflexivity|]. split; [exact H1|]. split; [exact H2|]. split; [exact Hcl|].
    split; [reflexivity|]. split; [reflexivity|]. split; [now rewrite app_nil_r|reflexivity].
  - destruct (live h o) eqn:Ho; [|discriminate]. cbn [negb] in H.
    set (h1 := with_ins h o (replace_first old new (ins h o))) in H.
    set (h2 := with_outs h1 new (outs h1 new ++ [o])) in H.
    assert (Hin : In (Some old) (ins h o)).
    { apply (count_occ_In opt_dec). specialize (H2 o Ho). unfold uses in H2. rewrite H2. cbn. destruct (Nat.eq_dec o o); [lia|congruence]. }
    assert (Hl2 : live h2 = live h) by reflexivity.
    assert (U : forall a c, uses h2 a c + (if Nat.eqb a o && Nat.eqb c old then 1 else 0) = uses h a c + (if Nat.eqb a o && Nat.eqb c new then 1 else 0)).
    { intros a c. unfold uses. cbn [ins h2 h1 with_outs with_ins]. destruct (Nat.eqb_spec a o) as [->|Ha]; cbn [andb].
      - rewrite upd_same. apply first_count; assumption.
      - rewrite upd_other by exact Ha. lia. }
    assert (K : forall a c, known h2 a c = known h a c + (if Nat.eqb a o && Nat.eqb c new then 1 else 0)).
    { intros a c. unfold known. cbn [outs h2 h1 with_outs with_ins]. destruct (Nat.eqb_spec c new) as [->|Hc].
      - rewrite upd_same, count_occ_app. cbn [count_occ]. destruct (Nat.eq_dec o a) as [->|Hoa].
        + rewrite Nat.eqb_refl. reflexivity.
        + rewrite (proj2 (Nat.eqb_neq a o)) by congruence. reflexivity.
      - rewrite upd_other by exact Hc. rewrite andb_false_r. lia. }
    apply IH in H; clear IH.
    + destruct H as (R1 & R2 & R3 & R4 & R5 & R6 & R7 & R8). split; [exact R1|]. split; [exact R2|]. split; [exact R3|]. split; [exact R4|].
      split; [|split; [|split]].
      * intro a. rewrite R5. cbn [ins h2 h1 with_outs with_ins]. unfold upd. destruct (Nat.eqb_spec a o) as [->|]; [apply first_subst|reflexivity].
      * intros a Ha. rewrite R6 by (intro H; apply Ha; now right). cbn [ins h2 h1 with_outs with_ins]. apply upd_other. intros ->. apply Ha. now left.
      * rewrite R7. cbn [outs h2 h1 with_outs with_ins]. rewrite upd_same, <- app_assoc. reflexivity.
      * intros b Hb. rewrite R8 by exact Hb. cbn [outs h2 h1 with_outs with_ins]. apply upd_other. exact Hb.
    + exact Hold.
    + exact Hnew.
    + intros a b Ha Hb Hbo. specialize (H1 a b Ha Hb Hbo). specialize (U a b). rewrite (proj2 (Nat.eqb_neq b old) Hbo), andb_false_r in U. rewrite K. lia.
    + intros a Ha. specialize (H2 a Ha). specialize (U a old). rewrite Nat.eqb_refl, (proj2 (Nat.eqb_neq old new) Hne), andb_false_r, andb_true_r in U.
      cbn [count_occ] in H2. destruct (Nat.eq_dec o a) as [->|Hoa].
      * rewrite Nat.eqb_refl in U. lia.
      * rewrite (proj2 (Nat.eqb_neq a o)) in U by congruence. lia.
    + assert (Hlt : forall x, live h x = true -> x < size h).
      { intros x Hx. destruct (Nat.lt_ge_cases x (size h)) as [|Hge]; [assumption|]. destruct Hcl as [H0 _]. destruct (H0 x Hge) as [E _]. congruence. }
      destruct Hcl as (C1 & C2 & C3). split; [|split].
      * intros x Hx. destruct (C1 x Hx) as (A1 & A2 & A3). split; [exact A1|].
        assert (x <> o) by (intros ->; congruence). assert (x <> new) by (intros ->; congruence).
        cbn [ins outs h2 h1 with_outs with_ins]. rewrite !upd_other by assumption. now split.
      * intros x b Hx. cbn [ins h2 h1 with_outs with_ins] in Hx. unfold upd in Hx. destruct (Nat.eqb_spec x o) as [->|]; [|eapply C2, Hx].
        destruct (first_In _ _ _ _ Hx) as [Hx'|E]; [eapply C2, Hx'|]. injection E as ->. apply Hlt, Hnew.
      * intros x b Hx. cbn [outs h2 h1 with_outs with_ins] in Hx. unfold upd in Hx. destruct (Nat.eqb_spec x new) as [->|]; [|eapply C3, Hx].
        apply in_app_or in Hx. destruct Hx as [Hx|[<-|[]]]; [eapply C3, Hx|]. apply Hlt, Ho.
Qed.

Lemma replace_good h old new : consistent h -> clean h -> good h (replace_output h old new).
Proof.
  intros Hc Hcl. unfold replace_output.
  destruct (live h old) eqn:Ho; cbn [negb]; [|now split]. destruct (live h new) eqn:Hw; cbn [negb]; [|now split].
  destruct (outs h old) as [|x l] eqn:Eo; [now split|].
  destruct (Nat.eqb_spec old new) as [|Hne]; [exact I|].
  destruct (replace_outputs h old new (x :: l)) as [h1|] eqn:E; [|exact I].
  apply (replace_spec old new Hne) in E; [|exact Ho|exact Hw| | |exact Hcl].
  - destruct E as (R1 & R2 & R3 & R4 & _ & _ & _ & _). split.
    + intros a b Ha Hb. cbn [live with_outs] in Ha, Hb. rewrite R1 in Ha, Hb. unfold known. cbn [outs with_outs].
      destruct (Nat.eq_dec b old) as [->|Hb'].
      * rewrite upd_same. cbn. apply (R3 a Ha).
      * rewrite upd_other by exact Hb'. apply (R2 a b Ha Hb Hb').
    + destruct R4 as (C1 & C2 & C3). split; [|split].
      * intros y Hy. destruct (C1 y Hy) as (A1 & A2 & A3). split; [exact A1|]. split; [exact A2|]. cbn [outs with_outs]. unfold upd. destruct (Nat.eqb y old); [reflexivity|exact A3].
      * exact C2.
      * intros y a Ha. cbn [outs with_outs] in Ha. unfold upd in Ha. destruct (Nat.eqb y old); [destruct Ha|eapply C3, Ha].
  - intros a b Ha Hb _. apply Hc; assumption.
  - intros a Ha. rewrite <- Eo. apply Hc; assumption.
Qed.

Lemma act_good h a : consistent h -> clean h -> good h (act h a).
Proof.
  intros Hc Hcl. destruct a as [|n inputs|old new|owned]; cbn [act].
  - cbn [good]. pose proof Hcl as (C1 & C2 & C3). destruct (C1 (size h) (le_n _)) as (A1 & A2 & A3).
    assert (Hfree : forall x, count_occ opt_dec (ins h x) (Some (size h)) = 0 /\ count_occ Nat.eq_dec (outs h x) (size h) = 0).
    { intro x. split; apply count_occ_not_In; intro H; [apply C2 in H|apply C3 in H]; lia. }
    split.
    + intros a b Ha Hb. unfold make in *. cbn [live] in Ha, Hb. unfold uses, known. cbn [ins outs]. unfold upd in Ha, Hb.
      destruct (Nat.eqb_spec a (size h)) as [->|Ha'].
      * rewrite A2. cbn. now rewrite (proj2 (Hfree b)).
      * destruct (Nat.eqb_spec b (size h)) as [->|Hb'].
        -- rewrite A3. cbn. now rewrite (proj1 (Hfree a)).
        -- apply Hc; assumption.
    + unfold clean, make. cbn [size live ins outs]. split; [|split].
      * intros x Hx. destruct (C1 x ltac:(lia)) as (B1 & B2 & B3). split; [|now split]. rewrite upd_other by lia. exact B1.
      * intros x b H. apply C2 in H. lia.
      * intros x b H. apply C3 in H. lia.
  - now apply link_good.
  - now apply replace_good.
  - cbn [good]. split.
    + intros a b Ha Hb. cbn [live destroy] in Ha, Hb. apply andb_true_iff in Ha, Hb. apply Hc; [apply Ha|apply Hb].
    + destruct Hcl as (C1 & C2 & C3). split; [|split; [exact C2|exact C3]].
      intros x Hx. destruct (C1 x Hx) as (B1 & B2 & B3). split; [|now split]. cbn. rewrite B1. reflexivity.
Qed.

Lemma play_good l : forall h, consistent h -> clean h -> good h (play h l).
Proof.
  induction l as [|a r IH]; intros h Hc Hcl; [now split|]. cbn [play].
  pose proof (act_good h a Hc Hcl) as H. destruct (act h a) as [h'|h'| |]; try exact I; destruct H as [H1 H2].
  - apply IH; assumption.
  - apply IH; assumption.
Qed.

(** *** C138 *)

(** After any history of making nodes, linking, replacing and destroying graphs,
    whatever exceptions were caught on the way: among the nodes that exist, [a]
    has [b] as an input as often as [b] has [a] as an output. *)
Theorem C138_consistent_partial : forall history h,
  play nothing history = Fine h -> consistent h.
Proof.
  intros history h H. pose proof (play_good history nothing) as G. rewrite H in G. apply G.
  - intros a b Ha. discriminate.
  - split; [|split]; cbn; [now split|intros ? ? []|intros ? ? []].
Qed.
Print Assumptions C138_consistent_partial.

Lemma reachable history h : play nothing history = Fine h -> consistent h /\ clean h.
Proof.
  intro H. pose proof (play_good history nothing) as G. rewrite H in G. apply G.
  - intros a b Ha. discriminate.
  - split; [|split]; cbn; [now split|intros ? ? []|intros ? ? []].
Qed.

(** Linking gives a node exactly the inputs asked for and leaves the inputs of
    others alone; it is refused if the node or an input no longer exists. *)
Theorem C138_link : forall history h n inputs, play nothing history = Fine h ->
  match link h n inputs with
  | Fine h' => ins h' n = map Some inputs /\ (forall m, m <> n -> ins h' m = ins h m) /\
               (forall b, In b inputs -> live h b = true) /\ live h n = true
  | Throws h' => live h n = false \/ exists b, In b inputs /\ live h b = false
  | Undef => False
  | Diverges => exists a b, In a (outs h b) /\ live h a = false
  end.
Proof.
  intros history h n inputs Hp. destruct (reachable _ _ Hp) as [Hc Hcl]. unfold link.
  destruct (live h n) eqn:Hn; cbn [negb]; [|now left].
  destruct (unlink h n (ins h n)) as [h1|] eqn:Hu.
  - destruct (unlink_spec _ _ _ _ Hu) as (Us & Ul & Ui & Uo).
    destruct (unlinked n h h1 (length inputs) Hc Hcl Hn Hu) as [Hc2 Hcl2].
    pose proof (link_inputs_spec n inputs (with_ins h1 n (repeat None (length inputs))) []) as H.
    cbn [live with_ins] in H. rewrite Ul in H. specialize (H Hn Hc2 Hcl2). cbn [ins with_ins] in H. rewrite upd_same in H. specialize (H eq_refl).
    destruct (link_inputs _ n [] inputs) as [h'|h'| |]; [| |contradiction|contradiction].
    + destruct H as (_ & _ & _ & H4 & H5 & _ & H7). split; [exact H4|]. split; [|split; [exact H7|reflexivity]].
      intros m Hm. rewrite H5, upd_other by exact Hm. now rewrite Ui.
    + destruct H as (_ & _ & _ & _ & H5). now right.
  - (* some output is dead *)
    assert (Hd : ~ (forall b t, In t (outs h b) -> live h t = true)).
    { intro Hall. destruct (unlink_live n (ins h n) h Hall) as [h' E]. congruence. }
    (* find it constructively *)
    assert (Hfind : forall bs hh, unlink hh n bs = None -> (forall b t, In t (outs hh b) -> In t (outs h b)) -> live hh = live h ->
              exists a b, In a (outs h b) /\ live h a = false).
    { induction bs as [|[b|] r IH]; intros hh E Hsub Hlv; cbn in E; [discriminate| |].
      - destruct (live hh b); [|eapply IH; eassumption].
        destruct (erase_output hh n (outs hh b)) as [l|] eqn:E2.
        + eapply IH; [exact E| |exact Hlv]. destruct (erase_spec _ _ _ _ E2) as [-> _].
          intros c t Ht. cbn [outs with_outs] in Ht. unfold upd in Ht. destruct (Nat.eqb_spec c b) as [->|]; [apply filter_In in Ht; apply Hsub, Ht|now apply Hsub].
        + assert (Hx : exists t, In t (outs hh b) /\ live hh t = false).
          { clear -E2. induction (outs hh b) as [|t l IH]; [discriminate|]. cbn in E2. destruct (live hh t) eqn:El; cbn in E2.
            - destruct (erase_output hh n l) eqn:E3; [discriminate|]. destruct (IH eq_refl) as (u & Hu & Hl). exists u. split; [now right|exact Hl].
            - exists t. split; [now left|exact El]. }
          destruct Hx as (t & Ht & Hl). exists t, b. split; [apply Hsub, Ht|now rewrite <- Hlv].
      - eapply IH; eassumption. }
    eapply Hfind; [exact Hu|now intros|reflexivity].
Qed.
Print Assumptions C138_link.

(** As long as no graph is destroyed and no node is replaced by itself, no call
    goes wrong. *)
Theorem C138_defined : forall history,
  (forall a, In a history -> match a with Destroy _ => False | Replace old new => old <> new | _ => True end) ->
  exists h, play nothing history = Fine h.
Proof.
  intros history Hall.
  assert (Hgen : forall l h, consistent h -> clean h -> (forall n, n < size h -> live h n = true) ->
     (forall a, In a l -> match a with Destroy _ => False | Replace old new => old <> new | _ => True end) -> exists h', play h l = Fine h').
  { clear. induction l as [|a r IH]; intros h Hc Hcl Hlv Hall; [now exists h|]. cbn [play].
    pose proof (Hall a (or_introl eq_refl)) as Ha. assert (Hr : forall b, In b r -> match b with Destroy _ => False | Replace old new => old <> new | _ => True end) by (intros b Hb; apply Hall; now right).
    pose proof (act_good h a Hc Hcl) as Hg.
    assert (Hout : forall b t, In t (outs h b) -> live h t = true) by (intros b t Ht; apply Hlv; eapply Hcl, Ht).
    destruct a as [|n inputs|old new|owned]; cbn [act] in *; [| | |contradiction].
    - apply IH; try apply Hg; [|exact Hr]. intros n Hn. cbn [live make size] in *. unfold upd. destruct (Nat.eqb_spec n (size h)); [reflexivity|]. apply Hlv. lia.
    - unfold link in *. destruct (live h n) eqn:Hn; cbn [negb] in *; [|apply IH; assumption].
      destruct (unlink_live n (ins h n) h Hout) as [h1 Hu]. rewrite Hu in *.
      destruct (unlink_spec _ _ _ _ Hu) as (Us & Ul & Ui & Uo).
      destruct (unlinked n h h1 (length inputs) Hc Hcl Hn Hu) as [Hc2 Hcl2].
      pose proof (link_inputs_spec n inputs (with_ins h1 n (repeat None (length inputs))) []) as H.
      cbn [live with_ins] in H. rewrite Ul in H. specialize (H Hn Hc2 Hcl2). cbn [ins with_ins] in H. rewrite upd_same in H. specialize (H eq_refl).
      assert (Hsz : forall inp hh d, match link_inputs hh n d inp with Fine h' | Throws h' => size h' = size hh | _ => True end).
      { induction inp as [|b l IHl]; intros hh d; cbn [link_inputs]; [reflexivity|]. destruct (live hh b); [|reflexivity]. cbv zeta.
        specialize (IHl (with_ins (with_outs hh b (outs hh b ++ [n])) n (d ++ Some b :: repeat None (length l))) (d ++ [Some b])).
        destruct (link_inputs _ n _ l); exact IHl. }
      specialize (Hsz inputs (with_ins h1 n (repeat None (length inputs))) []).
      destruct (link_inputs (with_ins h1 n (repeat None (length inputs))) n [] inputs) as [h'|h'| |]; [| |contradiction|contradiction].
      + destruct H as (_ & _ & H3 & _). apply IH; try apply Hg; [|exact Hr]. intros m Hm. rewrite H3. apply Hlv. rewrite Hsz in Hm. cbn [size with_ins] in Hm. lia.
      + destruct H as (_ & _ & H3 & _). apply IH; try apply Hg; [|exact Hr]. intros m Hm. rewrite H3. apply Hlv. rewrite Hsz in Hm. cbn [size with_ins] in Hm. lia.
    - unfold replace_output in *. destruct (live h old) eqn:Ho; cbn [negb] in *; [|apply IH; assumption].
      destruct (live h new) eqn:Hw; cbn [negb] in *; [|apply IH; assumption].
      destruct (outs h old) as [|x l] eqn:Eo; [apply IH; assumption|].
      rewrite (proj2 (Nat.eqb_neq _ _) Ha) in *.
      assert (Hdo : forall todo hh, live hh = live h -> (forall t, In t todo -> live h t = true) -> exists h', replace_outputs hh old new todo = Some h' /\ size h' = size hh).
      { induction todo as [|o t IHt]; intros hh Hl Ht; [now exists hh|]. cbn [replace_outputs]. rewrite Hl, (Ht o) by now left. cbn [negb]. cbv zeta.
        destruct (IHt (with_outs (with_ins hh o (replace_first old new (ins hh o))) new (outs (with_ins hh o (replace_first old new (ins hh o))) new ++ [o]))) as (h' & E1 & E2);
          [exact Hl|intros u Hu; apply Ht; now right|]. exists h'. split; [exact E1|exact E2]. }
      destruct (Hdo (x :: l) h eq_refl) as (h1 & E & Es); [intros t Ht; apply (Hout old); now rewrite Eo|]. rewrite E in *.
      apply IH; try apply Hg; [|exact Hr].
      apply (replace_spec old new Ha) in E; [|exact Ho|exact Hw| | |exact Hcl].
      + destruct E as (R1 & _). intros n Hn. cbn [live size with_outs] in *. rewrite R1. apply Hlv. lia.
      + intros a b H1 H2 _. apply Hc; assumption.
      + intros a H1. rewrite <- Eo. apply Hc; assumption. }
  apply Hgen; [intros a b H; discriminate| |cbn; lia|exact Hall].
  split; [|split]; cbn; [now split|intros ? ? []|intros ? ? []].
Qed.
Print Assumptions C138_defined.

(** False of the code as it stands once a graph with links to another is
    destroyed: linking never returns. *)
Theorem C138_diverges_refuted : exists history h n inputs,
  play nothing history = Fine h /\ live h n = true /\ (forall b, In b inputs -> live h b = true) /\ link h n inputs = Diverges.
Proof.
  (* 0, 1 in one graph, 2 in another; 2 and 1 use 0; the second graph goes *)
  exists [Make; Make; Make; Link 2 [0]; Link 1 [0]; Destroy [2]]. eexists. exists 1, [0].
  split; [reflexivity|]. split; [reflexivity|]. split; [|reflexivity]. intros b [<-|[]]. reflexivity.
Qed.
Print Assumptions C138_diverges_refuted.

(** *** C139 *)

(** Replacing [old] by [new] makes every node that used [old] use [new] in the
    same places, and changes no other input; [old] has no outputs afterwards and
    [new] has those of both. *)
Theorem C139_replaced_partial : forall history h old new h', play nothing history = Fine h ->
  old <> new -> live h old = true -> live h new = true -> replace_output h old new = Fine h' ->
  (forall a, live h a = true -> ins h' a = map (subst old new) (ins h a)) /\
  outs h' old = [] /\ outs h' new = outs h new ++ outs h old /\ (forall b, b <> old -> b <> new -> outs h' b = outs h b).
Proof.
  intros history h old new h' Hp Hne Ho Hw H. destruct (reachable _ _ Hp) as [Hc Hcl].
  assert (Hid : forall l, count_occ opt_dec l (Some old) = 0 -> map (subst old new) l = l).
  { induction l as [|[b|] r IH]; intro E; [reflexivity| |].
    - cbn [count_occ] in E. destruct (opt_dec (Some b) (Some old)) as [E2|E2]; [discriminate|]. cbn [map subst].
      destruct (Nat.eqb_spec b old); [congruence|]. now rewrite IH.
    - cbn [count_occ] in E. destruct (opt_dec None (Some old)); [discriminate|]. cbn. now rewrite IH. }
  unfold replace_output in H. rewrite Ho, Hw in H. cbn [negb] in H.
  destruct (outs h old) as [|x l] eqn:Eo.
  - injection H as <-. split; [|split; [exact Eo|split; [now rewrite app_nil_r|reflexivity]]].
    intros a Ha. symmetry. apply Hid. specialize (Hc a old Ha Ho). unfold uses, known in Hc. now rewrite Hc, Eo.
  - rewrite (proj2 (Nat.eqb_neq _ _) Hne) in H.
    destruct (replace_outputs h old new (x :: l)) as [h1|] eqn:E; [|discriminate]. injection H as <-.
    apply (replace_spec old new Hne) in E; [|exact Ho|exact Hw| | |exact Hcl].
    + destruct E as (R1 & R2 & R3 & R4 & R5 & R6 & R7 & R8). cbn [ins outs with_outs]. split; [|split; [apply upd_same|split]].
      * intros a Ha. rewrite <- R5. symmetry. apply Hid, (R3 a Ha).
      * rewrite upd_other by congruence. exact R7.
      * intros b Hb1 Hb2. rewrite upd_other by exact Hb1. apply R8, Hb2.
    + intros a b H1 H2 _. apply Hc; assumption.
    + intros a H1. rewrite <- Eo. apply Hc; assumption.
Qed.
Print Assumptions C139_replaced_partial.

(** False of the code as it stands for a node replaced by itself: undefined. *)
Theorem C139_self_refuted : exists history h, play nothing history = Fine h /\ live h 0 = true /\ replace_output h 0 0 = Undef.
Proof. exists [Make; Make; Link 1 [0]]. eexists. split; [reflexivity|]. split; reflexivity. Qed.
Print Assumptions C139_self_refuted.

Example C139_example : exists h h', play nothing [Make; Make; Make; Link 1 [0; 0]; Link 2 [1; 0]; Make] = Fine h /\
  replace_output h 0 3 = Fine h' /\ ins h' 1 = [Some 3; Some 3] /\ ins h' 2 = [Some 1; Some 3] /\ outs h' 3 = [1; 1; 2] /\ outs h' 0 = [].
Proof. eexists. eexists. split; [reflexivity|]. split; [reflexivity|]. repeat split. Qed.
