(** The translator: the main induction and the whole pass. *)
From Coq Require Import List ZArith Bool Lia Arith.
From Verif Require Import StackModel GraphSpec GraphModel CompilerSpec TransModel TransSpec
  GraphProofs ConstFoldProofs TransProofs.
Import ListNotations.

Section TransProofs2.
Context {V Opr : Type}.
Variable packV : list V -> V.
Variable fieldV : V -> Z -> option V.
Variable oprun : Opr -> list V -> opres V.
Notation graph := (graph V Opr).
Notation gstate := (gstate V Opr).
Notation tstate := (tstate V Opr).
Notation rule := (rule V Opr).
Notation den := (den packV fieldV oprun).
Notation dens := (dens packV fieldV oprun).
Notation sound := (sound packV fieldV oprun).
Notation tinv := (tinv packV fieldV oprun).
Notation res := (res packV fieldV oprun).
Notation rec_ok := (rec_ok packV fieldV oprun).
Notation rules_post := (rules_post packV fieldV oprun).

Lemma tinv_ext st s1 : tinv st -> extends (tg st) s1 -> closed s1 -> acyclic (gg s1) ->
  plain_params (gg s1) -> tinv (mkT s1 (ready st)).
Proof.
  intros I E C A P. constructor; cbn [tg]; auto.
  - intros k c L. eapply res_mono_gen with (st := st); auto.
    + apply (i_closed _ _ _ _ I).
    + intros k' c' L'. now destruct (r_lt _ _ _ _ _ _ (i_ready _ _ _ _ I _ _ L')).
    + apply (i_ready _ _ _ _ I); auto.
  - apply (i_inj _ _ _ _ I).
Qed.

Lemma plain_ext (s s' : gstate) : plain_params (gg s) -> extends s s' ->
  (forall m, gn s <= m < gn s' -> kind (gg s') m = KParam -> ins (gg s') m = []) ->
  closed s' -> plain_params (gg s').
Proof.
  intros P [EL EE] N C m Hk. destruct (Nat.lt_ge_cases m (gn s)) as [Hlt|Hge].
  - destruct (EE m Hlt) as [E1 E2]. rewrite E2. apply P. congruence.
  - destruct (Nat.lt_ge_cases m (gn s')) as [Hl|Hg]; [apply N; auto|].
    destruct (ins (gg s') m) as [|i l] eqn:E; auto. exfalso.
    destruct (C m i) as [? _]; [rewrite E; now left|lia].
Qed.

Lemma gnew_extends (s : gstate) k is : extends s (gnew s k is).
Proof.
  split; cbn [gnew gn gg kind ins]; [lia|]. intros n Hn. destruct (Nat.eqb_spec n (gn s)); [lia|auto].
Qed.

Lemma gnew_closed (s : gstate) k is : closed s -> (forall i, In i is -> i < gn s) -> closed (gnew s k is).
Proof.
  intros C B n i. cbn [gnew gg ins gn]. destruct (Nat.eqb_spec n (gn s)) as [->|].
  - intros Hi. apply B in Hi. lia.
  - intros Hi. apply C in Hi. lia.
Qed.

Lemma gnew_acyclic (s : gstate) k is : closed s -> acyclic (gg s) -> (forall i, In i is -> i < gn s) ->
  acyclic (gg (gnew s k is)).
Proof.
  intros C [rank HR] B.
  exists (fun n => if Nat.eqb n (gn s) then S (lsum (map rank is)) else rank n).
  intros n m. cbn [gnew gg ins]. destruct (Nat.eqb_spec n (gn s)) as [->|Hn]; intros Hm.
  - pose proof (B m Hm). destruct (Nat.eqb_spec m (gn s)); [lia|].
    pose proof (in_lsum rank is m Hm). lia.
  - pose proof (C _ _ Hm). destruct (Nat.eqb_spec m (gn s)); [lia|]. auto.
Qed.

Lemma Forall2_In_r {A B} (R : A -> B -> Prop) l l' b : Forall2 R l l' -> In b l' -> exists a, In a l /\ R a b.
Proof.
  induction 1 as [|x y l l' H _ IH]; intros Hb; [destruct Hb|].
  destruct Hb as [->|Hb]; [exists x; split; [now left|auto]|].
  destruct (IH Hb) as (a & ? & ?). exists a. split; [now right|auto].
Qed.

(** A node other than the rewritten one is a parameter below it only if the
    rewritten node depends on it. *)
Lemma rp_reach s n t s' : closed s -> n < gn s -> rules_post s n t s' -> kind (gg s) n <> KParam ->
  forall m, reach (gg s') t m -> gn s <= m \/ reach (gg s) n m.
Proof.
  intros C Hn [E C' A L _ T _ _] Kn m R.
  assert (G : forall a b, reach (gg s') a b -> gn s <= a \/ reach (gg s) n a -> gn s <= b \/ reach (gg s) n b).
  { clear - C Hn E L. induction 1 as [|a k b Hk _ IH]; auto. intros Ha. apply IH.
    destruct Ha as [Ha|Ha]; [eauto|].
    assert (a < gn s).
    { clear - C Hn Ha. induction Ha as [|a k b Hk _ IH]; auto. apply IH. now apply C in Hk. }
    destruct E as [_ E]. destruct (E a H) as [_ E2]. rewrite E2 in Hk. right. eapply reach_in; eauto. }
  apply (G t m R). destruct T as [->|T]; [right; constructor|left; lia].
Qed.

Section Rules.
Variable rules : list rule.
Hypothesis HS : Forall sound rules.

Lemma translate_node_spec : forall fuel flag, rec_ok (translate_node rules fuel flag).
Proof using HS.
  induction fuel as [|fuel IH]; intros flag n st c st' I Hn E; cbn [translate_node] in E; [discriminate|].
  destruct (lookup (ready st) n) as [c0|] eqn:EL.
  { injection E as <- <-. split; [auto|]. split; [apply step_refl, (i_closed _ _ _ _ I)|].
    split; [apply (i_ready _ _ _ _ I); auto|right; eauto]. }
  destruct (try_rules rules (tg st) n flag n) as [t s1] eqn:ER.
  assert (RP : rules_post (tg st) n t s1).
  { eapply try_rules_spec; [exact HS| | | | |exact ER].
    - apply (i_closed _ _ _ _ I).
    - apply (i_acyc _ _ _ _ I).
    - auto.
    - apply rules_post_refl; [apply (i_closed _ _ _ _ I)|apply (i_acyc _ _ _ _ I)|auto]. }
  destruct (translate_list (translate_node rules fuel false) (ins (gg s1) t) (mkT s1 (ready st)))
    as [[cs st2]|] eqn:EI; [|discriminate].
  assert (RP' := RP). destruct RP' as [X1 X2 X3 X4 X5 X6 X7 X8].
  assert (X1' := X1). destruct X1' as [XL XE].
  assert (C0 := i_closed _ _ _ _ I).
  assert (LB0 : forall k x, lookup (ready st) k = Some x -> k < gn (tg st) /\ x < gn (tg st))
    by (intros k x L; apply (r_lt _ _ _ _ _ _ (i_ready _ _ _ _ I _ _ L))).
  set (st1 := mkT s1 (ready st)) in *.
  assert (I1 : tinv st1).
  { apply tinv_ext; auto. apply (plain_ext (tg st) s1); auto; [apply (i_plain _ _ _ _ I)|].
    intros m Hm Hk. now destruct (X5 m Hm Hk). }
  assert (Hts1 : t < gn s1) by (destruct X6; lia).
  destruct (translate_list_spec packV fieldV oprun _ (IH false) (ins (gg s1) t) st1 cs st2 I1)
    as (I2 & S2 & F2 & Q2); [|exact EI|].
  { intros i Hi. cbn [st1 tg]. now apply X2 in Hi. }
  assert (S2' := S2). destruct S2' as [[SL SE] SM SN SLoc]. cbn [st1 tg ready] in *.
  assert (LB2 : forall k x, lookup (ready st2) k = Some x -> k < gn (tg st2) /\ x < gn (tg st2))
    by (intros k x L; apply (r_lt _ _ _ _ _ _ (i_ready _ _ _ _ I2 _ _ L))).
  assert (Kn1 : kind (gg s1) n = kind (gg (tg st)) n) by (now destruct (XE n Hn)).
  assert (Kn2 : kind (gg (tg st2)) n = kind (gg (tg st)) n) by (destruct (SE n); [lia|congruence]).
  destruct (SE t Hts1) as [Kt2 It2].
  assert (LC : forall x, In x cs -> x < gn (tg st2)).
  { intros x Hx. destruct (Forall2_In_r _ _ _ _ F2 Hx) as (i & _ & Ri).
    now destruct (r_lt _ _ _ _ _ _ Ri). }
  (* a parameter: no inputs, nothing translated in between *)
  assert (TK : kind (gg (tg st2)) n = KParam <-> kind (gg (tg st2)) t = KParam).
  { rewrite Kn2, Kt2. split; [auto|]. destruct X6 as [->|X6]; [congruence|].
    intros Hk. now destruct (X5 t X6 Hk). }
  assert (TN : kind (gg (tg st2)) n = KParam -> st2 = st1 /\ cs = []).
  { intros Kn. pose proof (i_plain _ _ _ _ I2 t (proj1 TK Kn)) as X. rewrite It2 in X.
    rewrite X in EI. cbn [translate_list] in EI. injection EI as <- <-. auto. }
  assert (TN' : kind (gg (tg st2)) n = KParam -> lookup (ready st2) n = None).
  { intros Kn. destruct (TN Kn) as [-> _]. exact EL. }
  assert (TD : kind (gg (tg st2)) n <> KParam ->
    forall env v, den (gg (tg st2)) env t v <-> den (gg (tg st2)) env n v).
  { intros Kn env v. rewrite Kn2 in Kn.
    rewrite <- (ext_den _ _ _ s1 (tg st2) env t v X2), <- (ext_den _ _ _ s1 (tg st2) env n v X2).
    - apply X8; auto.
    - split; auto.
    - lia.
    - split; auto.
    - auto. }
  assert (TR : forall m, reach (gg (tg st2)) t m -> kind (gg (tg st2)) m = KParam ->
    kind (gg (tg st2)) n <> KParam -> reach (gg (tg st2)) n m).
  { intros m R K Kn. rewrite Kn2 in Kn.
    destruct (ext_reach s1 (tg st2) t m X2 ltac:(split; auto) Hts1 R) as [R1 Lm].
    destruct (SE m Lm) as [Em _]. rewrite Em in K.
    destruct (rp_reach _ _ _ _ C0 Hn RP Kn m R1) as [Hm|Hm].
    - destruct (X5 m) as [? _]; [lia|auto|contradiction].
    - apply (ext_reach' (tg st) (tg st2)); auto. eapply ext_trans; [exact X1|split; auto]. }
  destruct (Nat.eqb_spec t n) as [->|Htn].
  - (* copy of the node itself *)
    injection E as <- <-.
    assert (PP3 : plain_params (gg (gnew (tg st2) (kind (gg (tg st2)) n) cs))).
    { apply (plain_ext (tg st2)); [apply (i_plain _ _ _ _ I2)|apply gnew_extends| |].
      - intros m Hm. cbn [gnew gg kind ins gn] in *. destruct (Nat.eqb_spec m (gn (tg st2))); [|lia].
        intros Hk. now destruct (TN Hk).
      - apply gnew_closed; auto. apply (i_closed _ _ _ _ I2). }
    destruct (finish packV fieldV oprun st1 st2 n (gn (tg st2)) n
      (gnew (tg st2) (kind (gg (tg st2)) n) cs) cs (fun m => m < gn (tg st2))) as [G1 G2];
      cbn [st1 tg]; auto; try lia.
    + intros m Hm. destruct (gnew_extends (tg st2) (kind (gg (tg st2)) n) cs) as [_ X]. auto.
    + intros m i _ Hi. now apply (i_closed _ _ _ _ I2) in Hi.
    + intros x Hx. apply X2 in Hx. lia.
    + intros k L. apply LB2 in L. lia.
    + apply gnew_closed; auto. apply (i_closed _ _ _ _ I2).
    + apply gnew_acyclic; auto. apply (i_closed _ _ _ _ I2). apply (i_acyc _ _ _ _ I2).
    + cbn [gnew gn]. lia.
    + intros m Hm. destruct (gnew_extends (tg st2) (kind (gg (tg st2)) n) cs) as [_ X]. now destruct (X m Hm).
    + cbn [gnew gg kind]. now rewrite Nat.eqb_refl.
    + cbn [gnew gg ins]. now rewrite Nat.eqb_refl.
    + split; [exact G1|]. split; [|split; [exact G2|left; lia]].
      (* the step *)
      assert (EXT : extends (tg st) (tg st2)) by (eapply ext_trans; [exact X1|split; auto]).
      constructor; cbn [tg ready].
      * eapply ext_trans; [exact EXT|apply gnew_extends].
      * intros k x L. rewrite lookup_insert. pose proof (SM _ _ L).
        destruct (lookup (ready st2) n) eqn:En; auto. destruct (Nat.eqb_spec k n); [congruence|auto].
      * intros k x L N. rewrite lookup_insert in L.
        assert (OLD : lookup (ready st2) k = Some x -> (gn (tg st) <= k \/ reach (gg (tg st)) n k) /\ gn (tg st) <= x).
        { intros L'. destruct (SN _ _ L' N) as [Hk Hx]. split; [|lia].
          destruct Hk as [Hk|(i & Hi & Hk)]; [left; lia|].
          right. destruct (XE n Hn) as [_ Ei]. rewrite Ei in Hi. econstructor; [exact Hi|].
          apply (ext_reach (tg st) s1); auto. now apply C0 in Hi. }
        destruct (lookup (ready st2) n) eqn:En; [auto|].
        destruct (Nat.eqb_spec k n) as [->|]; [|auto].
        injection L as <-. split; [right; constructor|lia].
      * intros m i Hm Hi. cbn [gnew gg ins] in Hi. destruct (Nat.eqb_spec m (gn (tg st2))) as [->|Hne].
        -- rewrite Forall_forall in Q2. destruct (Q2 i Hi) as [Hq|(k & Hk)]; cbn [st1 tg ready] in *.
           ++ left. lia.
           ++ right. right. eauto.
        -- destruct (Nat.lt_ge_cases m (gn s1)) as [Hlt|Hge].
           ++ destruct (SE m Hlt) as [_ Ei]. rewrite Ei in Hi.
              destruct (X4 m i Hm Hi) as [?|?]; auto.
           ++ destruct (SLoc m i Hge Hi) as [?|[(j & Hj & Hr)|?]]; [left; lia| |auto].
              right. left. destruct (XE n Hn) as [_ Ei]. rewrite Ei in Hj. econstructor; [exact Hj|].
              apply (ext_reach (tg st) s1); auto. now apply C0 in Hj.
  - (* a node made by a rule *)
    destruct X6 as [X6|X6]; [contradiction|].
    injection E as <- <-.
    pose (P := fun m => m < gn (tg st) \/ gn s1 <= m < gn (tg st2) \/
                        (m < gn s1 /\ exists i, In i (ins (gg s1) t) /\ reach (gg s1) i m)).
    assert (Pt : ~ P t).
    { unfold P. intros [H|[H|(_ & i & Hi & H)]]; [lia|lia|]. eapply acyclic_not_reach; eauto. }
    assert (PB : forall m i, P m -> In i (ins (gg (tg st2)) m) -> P i).
    { intros m i [H|[H|(Hl & j & Hj & H)]] Hi.
      - destruct (SE m) as [_ Ei]; [lia|]. rewrite Ei in Hi. destruct (XE m H) as [_ Ei']. rewrite Ei' in Hi.
        left. now apply C0 in Hi.
      - pose proof (i_closed _ _ _ _ I2 _ _ Hi) as [_ Li].
        destruct (SLoc m i) as [?|[(j & Hj & Hr)|(k & L)]]; [lia|auto| | |].
        + right. left. lia.
        + right. right. split; [|eauto].
          destruct (ext_reach s1 s1 j i X2 (ext_refl s1) ltac:(now apply X2 in Hj) Hr). auto.
        + left. now apply LB0 in L.
      - destruct (SE m Hl) as [_ Ei]. rewrite Ei in Hi. right. right. split; [now apply X2 in Hi|].
        exists j. split; [auto|]. eapply reach_in; eauto. }
    assert (PR : forall k x, lookup (ready st2) k = Some x -> P k /\ P x).
    { intros k x L. destruct (lookup (ready st) k) as [y|] eqn:Ey.
      - pose proof (SM _ _ Ey). assert (y = x) by congruence. subst y.
        apply LB0 in Ey. split; left; lia.
      - pose proof (LB2 _ _ L) as [L1 L2]. destruct (SN _ _ L Ey) as [Hk Hx].
        split; [|right; left; lia]. destruct Hk as [Hk|(j & Hj & Hr)]; [right; left; lia|].
        right. right. split; [|eauto].
        destruct (ext_reach s1 s1 j k X2 (ext_refl s1) ltac:(now apply X2 in Hj) Hr). auto. }
    assert (Pcs : forall x, In x cs -> P x).
    { intros x Hx. rewrite Forall_forall in Q2. destruct (Q2 x Hx) as [Hq|(k & L)]; cbn [st1 tg ready] in *.
      - right. left. split; [lia|auto].
      - left. now apply LB0 in L. }
    assert (NR : forall x, In x cs -> ~ reach (gg (tg st2)) x t).
    { intros x Hx R. apply Pt.
      destruct (reach_on P (gg (tg st2)) (gg (tg st2)) x t) as [_ ?]; auto. }
    assert (C3 : closed (glink (tg st2) t cs)).
    { intros m i. cbn [glink gg ins gn]. destruct (Nat.eqb_spec m t) as [->|].
      - intros Hi. split; [lia|auto].
      - apply (i_closed _ _ _ _ I2). }
    assert (A3 : acyclic (gg (glink (tg st2) t cs))).
    { apply relink_acyclic; [apply (i_acyc _ _ _ _ I2)|auto]. }
    assert (PP3 : plain_params (gg (glink (tg st2) t cs))).
    { intros m Hk. cbn [glink gg kind ins] in *. destruct (Nat.eqb_spec m t) as [->|].
      - apply TK in Hk. now destruct (TN Hk).
      - now apply (i_plain _ _ _ _ I2). }
    destruct (finish packV fieldV oprun st1 st2 n t t (glink (tg st2) t cs) cs P) as [G1 G2];
      cbn [st1 tg]; auto; try lia.
    + intros m Hm. cbn [glink gg kind ins]. destruct (Nat.eqb_spec m t) as [->|]; [contradiction|auto].
    + left. auto.
    + intros x Hx. right. right. split; [now apply X2 in Hx|]. exists x. split; [auto|constructor].
    + intros k L. apply PR in L. apply Pt. apply L.
    + cbn [glink gn]. lia.
    + cbn [glink gg ins]. now rewrite Nat.eqb_refl.
    + split; [exact G1|]. split; [|split; [exact G2|left; lia]].
      assert (EXT : extends (tg st) (tg st2)) by (eapply ext_trans; [exact X1|split; auto]).
      assert (RT : forall j k, In j (ins (gg s1) t) -> reach (gg s1) j k ->
        gn (tg st) <= k \/ reach (gg (tg st)) n k).
      { intros j k Hj Hr. destruct (Nat.lt_ge_cases k (gn (tg st))) as [Hk|Hk]; [|auto].
        assert (G : forall a b, reach (gg s1) a b ->
                    gn (tg st) <= a \/ reach (gg (tg st)) n a -> gn (tg st) <= b \/ reach (gg (tg st)) n b).
        { clear - C0 Hn X4 XE. induction 1 as [|a k b Hk _ IH]; auto. intros Ha. apply IH.
          destruct Ha as [Ha|Ha]; [eauto|].
          assert (a < gn (tg st)).
          { clear - C0 Hn Ha. induction Ha as [|a k b Hk _ IH]; auto. apply IH. now apply C0 in Hk. }
          destruct (XE a H) as [_ E2]. rewrite E2 in Hk. right. eapply reach_in; eauto. }
        apply (G j k Hr). apply (X4 t j); [lia|auto]. }
      constructor; cbn [tg ready].
      * destruct EXT as [EL1 EE1]. split; [cbn [glink gn]; lia|].
        intros m Hm. cbn [glink gg kind ins]. destruct (Nat.eqb_spec m t); [lia|auto].
      * intros k x L. rewrite lookup_insert. pose proof (SM _ _ L).
        destruct (lookup (ready st2) n) eqn:En; auto. destruct (Nat.eqb_spec k n); [congruence|auto].
      * intros k x L N. rewrite lookup_insert in L.
        assert (OLD : lookup (ready st2) k = Some x -> (gn (tg st) <= k \/ reach (gg (tg st)) n k) /\ gn (tg st) <= x).
        { intros L'. destruct (SN _ _ L' N) as [Hk Hx]. split; [|lia].
          destruct Hk as [Hk|(i & Hi & Hk)]; [left; lia|]. eauto. }
        destruct (lookup (ready st2) n) eqn:En; [auto|].
        destruct (Nat.eqb_spec k n) as [->|]; [|auto].
        injection L as <-. split; [right; constructor|lia].
      * intros m i Hm Hi. cbn [glink gg ins] in Hi. destruct (Nat.eqb_spec m t) as [->|Hne].
        -- rewrite Forall_forall in Q2. destruct (Q2 i Hi) as [Hq|(k & Hk)]; cbn [st1 tg ready] in *.
           ++ left. lia.
           ++ right. right. eauto.
        -- destruct (Nat.lt_ge_cases m (gn s1)) as [Hlt|Hge].
           ++ destruct (SE m Hlt) as [_ Ei]. rewrite Ei in Hi.
              destruct (X4 m i Hm Hi) as [?|?]; auto.
           ++ destruct (SLoc m i Hge Hi) as [?|[(j & Hj & Hr)|?]]; [left; lia| |auto].
              destruct (RT j i Hj Hr); auto.
Qed.
End Rules.
End TransProofs2.
