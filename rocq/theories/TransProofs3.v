(** The translator as a whole, and the zipper. *)
From Coq Require Import List ZArith Bool Lia Arith.
From Verif Require Import StackModel GraphSpec GraphModel CompilerSpec TransModel TransSpec
  GraphProofs ConstFoldProofs TransProofs TransProofs2.
Import ListNotations.

Lemma Forall2_impl {A B} (P Q : A -> B -> Prop) l l' :
  (forall a b, P a b -> Q a b) -> Forall2 P l l' -> Forall2 Q l l'.
Proof. intros H. induction 1; constructor; auto. Qed.

Section Bind.
Context {V : Type}.
Lemma bind_inj (rd : list (node * node)) :
  (forall k k' c, lookup rd k = Some c -> lookup rd k' = Some c -> k = k') ->
  forall is cs (args : list V) p p', Forall2 (fun i c => lookup rd i = Some c) is cs ->
  lookup rd p = Some p' -> bind cs args p' = bind is args p.
Proof.
  intros INJ is cs args p p' F L. revert args.
  induction F as [|i c is cs Hi _ IH]; intros args; [reflexivity|].
  destruct args as [|a args]; [reflexivity|]. cbn [bind].
  destruct (Nat.eqb_spec p' c) as [->|Hc].
  - rewrite (INJ p i c L Hi), Nat.eqb_refl. reflexivity.
  - destruct (Nat.eqb_spec p i) as [->|]; [congruence|apply IH].
Qed.
End Bind.

Section TransProofs3.
Context {V Opr : Type}.
Variable packV : list V -> V.
Variable fieldV : V -> Z -> option V.
Variable oprun : Opr -> list V -> opres V.
Notation graph := (graph V Opr).
Notation gstate := (gstate V Opr).
Notation tstate := (tstate V Opr).
Notation rule := (rule V Opr).
Notation den := (den packV fieldV oprun).
Notation dens := (dens packV fieldV oprun).
Notation sound := (sound packV fieldV oprun).
Notation tinv := (tinv packV fieldV oprun).
Notation res := (res packV fieldV oprun).

Lemma tinv_init (g : graph) fresh : closed (mkG g fresh) -> acyclic g -> plain_params g ->
  tinv (mkT (mkG g fresh) []).
Proof. intros C A P. constructor; cbn [tg gg ready]; auto; intros; discriminate. Qed.

Lemma translate_correct (rules : list rule) (g : graph) fresh outputs inputs fuel outs inps g' :
  Forall sound rules ->
  (forall n i, In i (ins g n) -> n < fresh /\ i < fresh) -> acyclic g -> plain_params g ->
  (forall o, In o outputs -> o < fresh) ->
  NoDup inputs -> (forall i, In i inputs -> i < fresh /\ kind g i = KParam) ->
  translate rules fuel g fresh outputs inputs = TOk (outs, inps, g') ->
  (forall args vs, dens g (bind inputs args) outputs vs <-> dens g' (bind inps args) outs vs) /\
  length inps = length inputs /\ NoDup inps /\ (forall i, In i inps -> kind g' i = KParam) /\
  acyclic g' /\
  (forall n, n < fresh -> kind g' n = kind g n /\ ins g' n = ins g n) /\
  ((forall p, kind g p = KParam -> used g outputs p -> In p inputs) ->
   forall p, kind g' p = KParam -> used g' outs p -> In p inps).
Proof.
  intros HS C A P Bo ND Bi E. unfold translate in E.
  destruct rules as [|r rules].
  { injection E as <- <- <-. split; [tauto|]. split; [auto|]. split; [auto|].
    split; [intros i Hi; now apply Bi|]. split; [auto|]. split; [auto|]. auto. }
  remember (r :: rules) as rs eqn:Ers. clear Ers r rules.
  destruct (translate_list (translate_node rs fuel true) outputs (mkT (mkG g fresh) [])) as [[os st1]|] eqn:E1;
    [|discriminate].
  destruct (translate_list (translate_node rs fuel true) inputs st1) as [[is' st2]|] eqn:E2; [|discriminate].
  injection E as <- <- <-.
  pose proof (tinv_init g fresh C A P) as I0.
  pose proof (translate_node_spec packV fieldV oprun rs HS fuel true) as RO.
  destruct (translate_list_spec packV fieldV oprun _ RO _ _ _ _ I0 Bo E1) as (I1 & S1 & F1 & _).
  assert (EX1 := s_ext _ _ _ S1). cbn [tg] in EX1.
  destruct (translate_list_spec packV fieldV oprun _ RO inputs st1 is' st2 I1) as (I2 & S2 & F2 & _); [|exact E2|].
  { intros i Hi. destruct (Bi i Hi). destruct EX1 as [? _]. cbn [gn] in *. lia. }
  assert (EX : extends (mkG g fresh) (tg st2)) by (eapply ext_trans; [exact EX1|apply (s_ext _ _ _ S2)]).
  assert (F1' : Forall2 (res st2) outputs os).
  { eapply Forall2_impl; [|exact F1]. intros a b H. exact (res_mono _ _ _ _ st1 st2 a b I1 S2 H). }
  assert (EX' := EX). destruct EX' as [XL XE]. cbn [gn gg] in XL, XE.
  assert (LI : Forall2 (fun i c => lookup (ready st2) i = Some c /\ kind (gg (tg st2)) c = KParam) inputs is').
  { assert (Bi' : forall i, In i inputs -> kind (gg (tg st2)) i = KParam).
    { intros i Hi. destruct (Bi i Hi) as [L K]. destruct (XE i L) as [-> _]. auto. }
    clear - F2 Bi'. induction F2 as [|i c is cs R _ IH]; constructor.
    - destruct (r_param _ _ _ _ _ _ R); [apply Bi'; now left|auto].
    - apply IH. intros j Hj. apply Bi'. now right. }
  assert (LI1 : Forall2 (fun i c => lookup (ready st2) i = Some c) inputs is').
  { eapply Forall2_impl; [|exact LI]. cbn beta; intros a b [? _]; auto. }
  split; [|split; [|split; [|split; [|split; [|split]]]]].
  - intros args vs.
    assert (CP : compat st2 (bind inputs args) (bind is' args)).
    { intros p p' L _. apply (bind_inj (ready st2)); auto. apply (i_inj _ _ _ _ I2). }
    rewrite <- (res_dens _ _ _ st2 _ _ _ _ F1' CP vs).
    assert (DS : forall ns ws, (forall n, In n ns -> n < fresh) ->
      dens g (bind inputs args) ns ws <-> dens (gg (tg st2)) (bind inputs args) ns ws).
    { intros ns ws Hns. split; apply (dens_on packV fieldV oprun (fun m => m < fresh)); auto.
      - intros m i _ Hi. now apply C in Hi.
      - intros m Hm. destruct (XE m Hm); auto.
      - intros m i Hm. destruct (XE m Hm) as [_ ->]. intros Hi. now apply C in Hi. }
    apply DS. auto.
  - clear - LI1. induction LI1; cbn [length]; auto.
  - assert (INJ := i_inj _ _ _ _ I2). clear - LI1 ND INJ.
    induction LI1 as [|i c is cs L F IH]; constructor.
    + inversion ND as [|x l N1 N2]; subst. intros Hc.
      destruct (Forall2_In_r _ _ _ _ F Hc) as (j & Hj & Lj). rewrite (INJ i j c L Lj) in N1. auto.
    + apply IH. now inversion ND.
  - intros i Hi. destruct (Forall2_In_r _ _ _ _ LI Hi) as (j & _ & _ & K). exact K.
  - apply (i_acyc _ _ _ _ I2).
  - intros n Hn. apply XE. exact Hn.
  - intros HP p Kp (o & Ho & Hr).
    destruct (Forall2_In_r _ _ _ _ F1' Ho) as (q & Hq & Rq).
    destruct (r_params _ _ _ _ _ _ Rq p Hr Kp) as (w & W1 & W2 & W3).
    destruct (ext_reach (mkG g fresh) (tg st2) q w C EX (Bo q Hq) W1) as [W1' Lw]. cbn [gg gn] in *.
    destruct (XE w Lw) as [Kw _]. rewrite Kw in W2.
    assert (Hin : In w inputs) by (apply HP; [auto|exists q; auto]).
    destruct (Forall2_In_r (fun c i => lookup (ready st2) i = Some c) is' inputs w) as (c & Hc & Lc); [|auto|].
    { clear - LI1. induction LI1; constructor; auto. }
    congruence.
Qed.

(** ** Rules that never apply *)
Lemma inapplicable_sound (r : rule) : inapplicable r -> sound r.
Proof.
  intros H s n flag a t s' C A Hn E. rewrite H in E. injection E as <- <- <-.
  split; [apply ext_refl|]. split; [auto|]. split; [auto|].
  split; [intros m i Hm Hi; apply C in Hi; lia|]. split; [intros; lia|]. intros; discriminate.
Qed.

Lemma try_inapplicable (rules : list rule) s n flag cur : Forall inapplicable rules ->
  try_rules rules s n flag cur = (cur, s).
Proof. induction 1 as [|r rs Hr _ IH]; cbn [try_rules]; [auto|]. rewrite Hr. exact IH. Qed.

(** The memo table is a graph isomorphism. *)
Definition iso (fresh : node) (st : tstate) : Prop :=
  forall k c, lookup (ready st) k = Some c ->
    k < fresh /\ fresh <= c /\ kind (gg (tg st)) c = kind (gg (tg st)) k /\
    Forall2 (fun i x => lookup (ready st) i = Some x) (ins (gg (tg st)) k) (ins (gg (tg st)) c).

Section Inapplicable.
Variable rules : list rule.
Hypothesis HI : Forall inapplicable rules.
Variable g : graph.
Variable fresh : node.
Variable rank : node -> nat.
Hypothesis HR : forall n m, In m (ins g n) -> rank m < rank n.
Hypothesis HC : forall n i, In i (ins g n) -> n < fresh /\ i < fresh.

Definition okst (st : tstate) : Prop := tinv st /\ extends (mkG g fresh) (tg st) /\ iso fresh st.

Definition iso_rec (rec : node -> tstate -> tres (node * tstate)) (n : node) : Prop :=
  forall st, okst st -> exists c st',
    rec n st = TOk (c, st') /\ okst st' /\ step (reach (gg (tg st)) n) st st' /\
    lookup (ready st') n = Some c.

Lemma iso_list rec : rec_ok packV fieldV oprun rec -> forall is st,
  (forall i, In i is -> i < fresh /\ iso_rec rec i) -> okst st -> exists cs st',
  translate_list rec is st = TOk (cs, st') /\ okst st' /\
  step (fun x => exists i, In i is /\ reach (gg (tg st)) i x) st st' /\
  Forall2 (fun i x => lookup (ready st') i = Some x) is cs.
Proof using Type.
  intros RO. induction is as [|i is IH]; intros st Hi K; cbn [translate_list].
  - exists [], st. split; [auto|]. split; [auto|]. split; [apply step_refl, (i_closed _ _ _ _ (proj1 K))|constructor].
  - destruct (proj2 (Hi i (or_introl eq_refl)) st K) as (c & st1 & E1 & K1 & S1 & L1).
    destruct (IH st1) as (cs & st2 & E2 & K2 & S2 & L2); [intros j Hj; apply Hi; now right|auto|].
    exists (c :: cs), st2. rewrite E1, E2. split; [auto|]. split; [auto|]. split.
    + eapply step_trans; [exact S1|exact S2| |]; cbn beta.
      * intros x Hx. exists i. split; [now left|auto].
      * intros x (k & Hk & Hx). left. exists k. split; [now right|].
        destruct K as (I & [XL _] & _).
        destruct (ext_reach _ _ _ _ (i_closed _ _ _ _ I) (s_ext _ _ _ S1)
                    (Nat.lt_le_trans _ _ _ (proj1 (Hi k (or_intror Hk))) XL) Hx). auto.
    + constructor; [|auto]. now apply (s_mono _ _ _ S2).
Qed.

Lemma iso_node : forall fuel flag n, n < fresh -> rank n < fuel -> iso_rec (translate_node rules fuel flag) n.
Proof using HI HR HC.
  assert (HS : Forall sound rules) by (eapply Forall_impl; [|exact HI]; apply inapplicable_sound).
  induction fuel as [|fuel IH]; intros flag n Hn Hr st K; [lia|].
  assert (K' := K). destruct K' as (I & EX & IS). assert (EX' := EX). destruct EX' as [XL XE]. cbn [gn gg] in XL, XE.
  assert (SPEC := translate_node_spec packV fieldV oprun rules HS (S fuel) flag n st).
  cbn [translate_node] in *.
  destruct (lookup (ready st) n) as [c|] eqn:EL.
  { exists c, st. split; [auto|]. split; [auto|]. split; [apply step_refl, (i_closed _ _ _ _ I)|auto]. }
  rewrite try_inapplicable in * by auto.
  destruct (XE n Hn) as [_ En].
  assert (HH : forall i, In i (ins (gg (tg st)) n) -> i < fresh /\ iso_rec (translate_node rules fuel false) i).
  { intros i Hi. rewrite En in Hi. destruct (HC n i Hi). split; [auto|]. apply IH; [auto|].
    specialize (HR n i Hi). lia. }
  assert (KT : okst (mkT (tg st) (ready st))) by (destruct st; exact K).
  destruct (iso_list _ (translate_node_spec packV fieldV oprun rules HS fuel false)
              (ins (gg (tg st)) n) _ HH KT) as (cs & st2 & E2 & K2 & S2 & L2).
  rewrite E2 in SPEC |- *. rewrite Nat.eqb_refl in *.
  eexists; eexists. split; [reflexivity|].
  destruct (SPEC _ _ I ltac:(lia) eq_refl) as (I3 & S3 & R3 & _).
  assert (NONE : lookup (ready st2) n = None).
  { destruct (lookup (ready st2) n) as [x|] eqn:E; [|reflexivity]. exfalso.
    destruct (s_new _ _ _ S2 _ _ E EL) as [[?|(i & Hi & Hr')] _]; cbn [tg gg gn] in *; [lia|].
    eapply (acyclic_not_reach (gg (tg st))); [apply (i_acyc _ _ _ _ I)|exact Hi|exact Hr']. }
  destruct K2 as (I2 & EX2 & IS2). assert (EX2' := EX2). destruct EX2' as [YL YE]. cbn [gn gg] in YL, YE.
  split; [|split; [exact S3|]].
  - split; [exact I3|]. split; [eapply ext_trans; [exact EX|apply (s_ext _ _ _ S3)]|].
    intros k x L. cbn [ready tg gnew gg kind ins] in *.
    assert (MONO : forall i y, lookup (ready st2) i = Some y ->
      lookup (insert_new (ready st2) n (gn (tg st2))) i = Some y).
    { intros i y Ly. rewrite lookup_insert, NONE. destruct (Nat.eqb_spec i n); [congruence|auto]. }
    rewrite lookup_insert, NONE in L. destruct (Nat.eqb_spec k n) as [->|Hk].
    + injection L as <-. split; [auto|]. split; [lia|]. rewrite Nat.eqb_refl.
      destruct (Nat.eqb_spec n (gn (tg st2))); [lia|]. split; [auto|].
      destruct (YE n Hn) as [_ En2]. rewrite En2, <- En.
      eapply Forall2_impl; [|exact L2]. cbn beta. auto.
    + destruct (IS2 k x L) as (A1 & A2 & A3 & A4). split; [auto|]. split; [auto|].
      pose proof (r_lt _ _ _ _ _ _ (i_ready _ _ _ _ I2 _ _ L)) as [B1 B2].
      destruct (Nat.eqb_spec x (gn (tg st2))); [lia|]. destruct (Nat.eqb_spec k (gn (tg st2))); [lia|].
      split; [auto|]. eapply Forall2_impl; [|exact A4]. cbn beta. auto.
  - cbn [ready]. rewrite lookup_insert, NONE, Nat.eqb_refl. reflexivity.
Qed.
End Inapplicable.

Lemma translate_identity (rules : list rule) (g : graph) fresh outputs inputs :
  rules <> [] -> Forall inapplicable rules ->
  (forall n i, In i (ins g n) -> n < fresh /\ i < fresh) -> acyclic g -> plain_params g ->
  (forall o, In o outputs -> o < fresh) -> (forall i, In i inputs -> i < fresh) ->
  exists N, forall fuel, N <= fuel -> exists (f : node -> node) (g' : graph),
    translate rules fuel g fresh outputs inputs = TOk (map f outputs, map f inputs, g') /\
    (forall n, used g (outputs ++ inputs) n ->
       fresh <= f n /\ kind g' (f n) = kind g n /\ ins g' (f n) = map f (ins g n)) /\
    (forall n m, used g (outputs ++ inputs) n -> used g (outputs ++ inputs) m -> f n = f m -> n = m) /\
    (forall n, n < fresh -> kind g' n = kind g n /\ ins g' n = ins g n).
Proof.
  intros NE HI C [rank HR] P Bo Bi.
  assert (HS : Forall sound rules) by (eapply Forall_impl; [|exact HI]; apply inapplicable_sound).
  exists (S (lsum (map rank (outputs ++ inputs)))). intros fuel Hf.
  assert (RK : forall n, In n (outputs ++ inputs) -> rank n < fuel).
  { intros n Hn. pose proof (in_lsum rank _ _ Hn). lia. }
  assert (A : acyclic g) by (exists rank; auto).
  assert (K0 : okst g fresh (mkT (mkG g fresh) [])).
  { split; [apply tinv_init; auto|]. split; [apply ext_refl|]. intros k c L. discriminate. }
  assert (RO := translate_node_spec packV fieldV oprun rules HS fuel true).
  destruct (iso_list g fresh _ RO outputs _
    (fun i Hi => conj (Bo i Hi) (iso_node rules HI g fresh rank HR C fuel true i (Bo i Hi)
       (RK i (in_or_app _ _ _ (or_introl Hi))))) K0) as (os & st1 & E1 & K1 & S1 & L1).
  destruct (iso_list g fresh _ RO inputs st1
    (fun i Hi => conj (Bi i Hi) (iso_node rules HI g fresh rank HR C fuel true i (Bi i Hi)
       (RK i (in_or_app _ _ _ (or_intror Hi))))) K1) as (is' & st2 & E2 & K2 & S2 & L2).
  assert (L1' : Forall2 (fun i x => lookup (ready st2) i = Some x) outputs os).
  { eapply Forall2_impl; [|exact L1]. cbn beta. intros a b. apply (s_mono _ _ _ S2). }
  destruct K2 as (I2 & EX2 & IS2). destruct EX2 as [XL XE]. cbn [gn gg] in XL, XE.
  pose (f := fun n => match lookup (ready st2) n with Some c => c | None => n end).
  assert (MF : forall is cs, Forall2 (fun i x => lookup (ready st2) i = Some x) is cs -> cs = map f is).
  { induction 1 as [|i c is cs Hc _ IH]; cbn [map]; [auto|]. unfold f at 1. rewrite Hc. now f_equal. }
  assert (KNOWN : forall n, used g (outputs ++ inputs) n -> exists c, lookup (ready st2) n = Some c).
  { intros n (o & Ho & Hr).
    assert (exists c, lookup (ready st2) o = Some c) as Ho'.
    { assert (G : forall l l' x, Forall2 (fun i x => lookup (ready st2) i = Some x) l l' -> In x l ->
                  exists c, lookup (ready st2) x = Some c).
      { induction 1; intros Hx; [destruct Hx|]. destruct Hx as [->|Hx]; eauto. }
      apply in_app_or in Ho. destruct Ho as [Ho|Ho]; eauto. }
    clear Ho. induction Hr as [|a m b Hm _ IH]; [auto|]. apply IH.
    destruct Ho' as (c & L). destruct (IS2 a c L) as (A1 & _ & _ & A4).
    destruct (XE a A1) as [_ Ea]. rewrite Ea in A4.
    clear - A4 Hm. induction A4; [destruct Hm|]. destruct Hm as [->|Hm]; eauto. }
  exists f, (gg (tg st2)). split; [|split; [|split]].
  - unfold translate. destruct rules; [contradiction|]. rewrite E1, E2.
    rewrite <- (MF _ _ L1'), <- (MF _ _ L2). reflexivity.
  - intros n Hn. destruct (KNOWN n Hn) as (c & L). destruct (IS2 n c L) as (A1 & A2 & A3 & A4).
    unfold f at 1 2 3. rewrite L. destruct (XE n A1) as [Ek Ei]. rewrite Ei in A4. rewrite Ek in A3.
    split; [auto|]. split; [auto|]. apply MF. exact A4.
  - intros n m Hn Hm. destruct (KNOWN n Hn) as (c & L). destruct (KNOWN m Hm) as (c' & L').
    unfold f. rewrite L, L'. intros ->. eapply (i_inj _ _ _ _ I2); eauto.
  - exact XE.
Qed.

(** ** The zipper *)
Record zinv (g0 : gstate) (st : tstate) : Prop := {
  z_closed : closed (tg st);
  z_acyc : acyclic (gg (tg st));
  z_plain : plain_params (gg (tg st));
  z_ready : forall k c, lookup (ready st) k = Some c -> k < gn (tg st) /\ c < gn (tg st) /\
    forall env v, den (gg (tg st)) env k v <-> den (gg (tg st)) env c v
}.

Lemma zrules_spec (rules : list rule) : Forall (zip_sound packV fieldV oprun) rules ->
  forall s n flag cur t s', closed s -> acyclic (gg s) -> plain_params (gg s) -> n < gn s -> cur < gn s ->
  (forall env v, den (gg s) env cur v <-> den (gg s) env n v) ->
  try_rules rules s n flag cur = (t, s') ->
  extends s s' /\ closed s' /\ acyclic (gg s') /\ plain_params (gg s') /\ t < gn s' /\
  forall env v, den (gg s') env t v <-> den (gg s') env n v.
Proof.
  induction 1 as [|r rs Hr _ IH]; intros s n flag cur t s' C A PP Hn Hc HD E; cbn [try_rules] in E.
  - injection E as <- <-. split; [apply ext_refl|auto].
  - destruct (r s n flag) as [[applies x] s1] eqn:Er.
    destruct (Hr s n flag applies x s1 C A Hn Er) as (X1 & X2 & X3 & XP & X4).
    assert (X1' := X1). destruct X1' as [XL _].
    assert (PP1 : plain_params (gg s1)).
    { apply (plain_ext s); auto. intros m Hm. apply XP. lia. }
    assert (G : match x with Some y => y | None => cur end < gn s1 /\
      forall env v, den (gg s1) env (match x with Some y => y | None => cur end) v <-> den (gg s1) env n v).
    { destruct x as [y|]; [apply X4; auto|]. split; [lia|]. intros env v.
      rewrite <- (ext_den _ _ _ s s1 env cur v), <- (ext_den _ _ _ s s1 env n v); auto. }
    destruct G as [G1 G2]. destruct applies.
    + injection E as <- <-. repeat (split; [assumption|]); assumption.
    + destruct (IH s1 n flag _ t s' X2 X3 PP1 ltac:(lia) G1 G2 E) as (Y1 & Y).
      split; [eapply ext_trans; eauto|exact Y].
Qed.

Definition zrec_ok (rec : node -> tstate -> tres (node * tstate)) : Prop :=
  forall g0 n st c st', zinv g0 st -> n < gn (tg st) -> rec n st = TOk (c, st') ->
  zinv g0 st' /\ extends (tg st) (tg st') /\ c < gn (tg st') /\
  (forall env v, den (gg (tg st')) env n v <-> den (gg (tg st')) env c v).

Definition zsame (st : tstate) (n c : node) : Prop :=
  n < gn (tg st) /\ c < gn (tg st) /\ forall env v, den (gg (tg st)) env n v <-> den (gg (tg st)) env c v.

Lemma zsame_ext st st' n c : closed (tg st) -> extends (tg st) (tg st') -> zsame st n c -> zsame st' n c.
Proof.
  intros C E (A & B & D). assert (E' := E). destruct E' as [L _]. split; [lia|]. split; [lia|].
  intros env v. rewrite <- (ext_den _ _ _ (tg st) (tg st') env n v), <- (ext_den _ _ _ (tg st) (tg st') env c v); auto.
Qed.

Lemma zlist_spec rec : zrec_ok rec -> forall is g0 st cs st', zinv g0 st ->
  (forall i, In i is -> i < gn (tg st)) -> translate_list rec is st = TOk (cs, st') ->
  zinv g0 st' /\ extends (tg st) (tg st') /\ Forall2 (zsame st') is cs.
Proof.
  intros RO. induction is as [|i is IH]; intros g0 st cs st' Z B E; cbn [translate_list] in E.
  - injection E as <- <-. split; [auto|]. split; [apply ext_refl|constructor].
  - destruct (rec i st) as [[c st1]|] eqn:E1; [|discriminate].
    destruct (translate_list rec is st1) as [[cs' st2]|] eqn:E2; [|discriminate].
    injection E as <- <-.
    destruct (RO g0 i st c st1 Z (B i (or_introl eq_refl)) E1) as (Z1 & X1 & L1 & D1).
    assert (X1' := X1). destruct X1' as [XL _].
    destruct (IH g0 st1 cs' st2 Z1) as (Z2 & X2 & F2); [|exact E2|].
    { intros j Hj. specialize (B j (or_intror Hj)). lia. }
    split; [auto|]. split; [eapply ext_trans; eauto|]. constructor; [|auto].
    apply (zsame_ext st1); [apply (z_closed _ _ Z1)|auto|]. split; [|auto].
    specialize (B i (or_introl eq_refl)). lia.
Qed.

Lemma changed_false is : forall cs, length is = length cs -> changed is cs = false -> cs = is.
Proof.
  unfold changed. induction is as [|i is IH]; intros [|c cs]; cbn [length combine forallb]; try discriminate; auto.
  intros L H. apply negb_false_iff, andb_true_iff in H. destruct H as [H1 H2].
  apply Nat.eqb_eq in H1. cbn [fst snd] in H1. subst. f_equal. apply IH; [lia|].
  now rewrite H2.
Qed.

Lemma zsame_dens st is cs : Forall2 (zsame st) is cs -> forall env vs,
  dens (gg (tg st)) env is vs <-> dens (gg (tg st)) env cs vs.
Proof.
  induction 1 as [|i c is cs (_ & _ & D) _ IH]; intros env vs; [tauto|].
  split; intros X; inversion X; subst; constructor; try (now apply IH); now apply D.
Qed.

Lemma zip_node_spec (rules : list rule) : Forall (zip_sound packV fieldV oprun) rules ->
  forall fuel, zrec_ok (zip_node rules fuel).
Proof.
  intros HS. induction fuel as [|fuel IH]; intros g0 n st c st' Z Hn E; cbn [zip_node] in E; [discriminate|].
  destruct (lookup (ready st) n) as [x|] eqn:EL.
  { injection E as <- <-. split; [auto|]. split; [apply ext_refl|]. destruct (z_ready _ _ Z n x EL) as (? & ? & ?). auto. }
  destruct (try_rules rules (tg st) n false n) as [t s1] eqn:ER.
  destruct (zrules_spec rules HS (tg st) n false n t s1 (z_closed _ _ Z) (z_acyc _ _ Z) (z_plain _ _ Z) Hn Hn
    ltac:(tauto) ER) as (X1 & X2 & X3 & XP & X4 & X5).
  destruct (translate_list (zip_node rules fuel) (ins (gg s1) t) (mkT s1 (ready st))) as [[cs st2]|] eqn:EI; [|discriminate].
  assert (X1' := X1). destruct X1' as [XL _].
  assert (Z1 : zinv g0 (mkT s1 (ready st))).
  { constructor; cbn [tg ready]; auto. intros k x L.
    destruct (z_ready _ _ Z k x L) as (A & B & D). split; [lia|]. split; [lia|].
    intros env v. rewrite <- (ext_den _ _ _ (tg st) s1 env k v), <- (ext_den _ _ _ (tg st) s1 env x v); auto;
      apply (z_closed _ _ Z). }
  destruct (zlist_spec _ IH (ins (gg s1) t) g0 _ cs st2 Z1) as (Z2 & X6 & F); [|exact EI|].
  { intros i Hi. cbn [tg]. now apply X2 in Hi. }
  cbn [tg] in X6. assert (X6' := X6). destruct X6' as [YL YE].
  assert (EXT : extends (tg st) (tg st2)) by (eapply ext_trans; eauto).
  assert (TN : forall env v, den (gg (tg st2)) env t v <-> den (gg (tg st2)) env n v).
  { intros env v. rewrite <- (ext_den _ _ _ s1 (tg st2) env t v), <- (ext_den _ _ _ s1 (tg st2) env n v); auto. lia. }
  assert (INS : forall s3 y, extends (tg st2) s3 -> closed s3 -> acyclic (gg s3) -> plain_params (gg s3) -> y < gn s3 ->
    (forall env v, den (gg s3) env n v <-> den (gg s3) env y v) ->
    zinv g0 (mkT s3 (insert_new (ready st2) n y))).
  { intros s3 y E3 C3 A3 P3 L3 D3. assert (E3' := E3). destruct E3' as [E3L _].
    assert (OLD : forall k x, lookup (ready st2) k = Some x ->
      k < gn s3 /\ x < gn s3 /\ forall env v, den (gg s3) env k v <-> den (gg s3) env x v).
    { intros k x L. destruct (z_ready _ _ Z2 k x L) as (A & B & D). split; [lia|]. split; [lia|].
      intros env v. rewrite <- (ext_den _ _ _ (tg st2) s3 env k v), <- (ext_den _ _ _ (tg st2) s3 env x v); auto;
        apply (z_closed _ _ Z2). }
    constructor; cbn [tg ready]; auto. intros k x L. rewrite lookup_insert in L.
    destruct (lookup (ready st2) n); [auto|]. destruct (Nat.eqb_spec k n) as [->|]; [|auto].
    injection L as <-. split; [lia|auto]. }
  destruct (changed (ins (gg s1) t) cs) eqn:EC.
  - injection E as <- <-.
    assert (LC : forall i, In i cs -> i < gn (tg st2)).
    { intros i Hi. destruct (Forall2_In_r _ _ _ _ F Hi) as (j & _ & (_ & ? & _)). auto. }
    assert (D3 : forall env v, den (gg (gnew (tg st2) (kind (gg (tg st2)) t) cs)) env n v <->
      den (gg (gnew (tg st2) (kind (gg (tg st2)) t) cs)) env (gn (tg st2)) v).
    { intros env v.
      rewrite <- (ext_den _ _ _ (tg st2) (gnew (tg st2) (kind (gg (tg st2)) t) cs) env n v);
        [|apply (z_closed _ _ Z2)|apply gnew_extends|lia].
      rewrite <- TN, den_unfold, den_unfold.
      cbn [gnew gg kind ins]. rewrite Nat.eqb_refl.
      destruct (YE t X4) as [_ It]. rewrite It.
      assert (DS : forall vs, dens (gg (tg st2)) env (ins (gg s1) t) vs <->
        dens (gg (gnew (tg st2) (kind (gg (tg st2)) t) cs)) env cs vs).
      { intros vs. rewrite (zsame_dens _ _ _ F env vs).
        destruct (gnew_extends (tg st2) (kind (gg (tg st2)) t) cs) as [_ GE].
        split; apply (dens_on packV fieldV oprun (fun m => m < gn (tg st2))); auto.
        - intros m i _ Hi. now apply (z_closed _ _ Z2) in Hi.
        - intros m Hm. destruct (GE m Hm); auto.
        - intros m i Hm. destruct (GE m Hm) as [_ ->]. intros Hi. now apply (z_closed _ _ Z2) in Hi. }
      cbn [gnew gg] in DS.
      destruct (kind (gg (tg st2)) t) eqn:Kt; try tauto.
      - (* a parameter with translated inputs: its copy would be another parameter *)
        exfalso. pose proof (z_plain _ _ Z2 t Kt) as IP. rewrite It in IP. rewrite IP in EC. discriminate.
      - split; intros (vs & A & B); exists vs; (split; [now apply DS|exact B]).
      - split; intros (vs & A & B); exists vs; (split; [now apply DS|exact B]).
      - split; intros (vs & A & B); exists vs; (split; [now apply DS|exact B]). }
    split; [|split; [|split]].
    + apply INS; auto.
      * apply gnew_extends.
      * apply gnew_closed; auto. apply (z_closed _ _ Z2).
      * apply gnew_acyclic; auto. apply (z_closed _ _ Z2). apply (z_acyc _ _ Z2).
      * intros m. cbn [gnew gg kind ins]. destruct (Nat.eqb_spec m (gn (tg st2))) as [->|]; [|apply (z_plain _ _ Z2)].
        intros Kt. exfalso. destruct (YE t X4) as [_ It].
        pose proof (z_plain _ _ Z2 t Kt) as IP. rewrite It in IP. rewrite IP in EC. discriminate.
    + cbn [tg]. eapply ext_trans; [exact EXT|apply gnew_extends].
    + cbn [tg gnew gn]. lia.
    + cbn [tg]. exact D3.
  - injection E as <- <-. split; [|split; [|split]].
    + apply INS; auto; [apply ext_refl|apply (z_closed _ _ Z2)|apply (z_acyc _ _ Z2)|apply (z_plain _ _ Z2)|lia|].
      intros env v. symmetry. apply TN.
    + exact EXT.
    + cbn [tg]. lia.
    + cbn [tg]. intros env v. symmetry. apply TN.
Qed.

Lemma zip_correct (rules : list rule) (g : graph) fresh nodes fuel outs g' :
  Forall (zip_sound packV fieldV oprun) rules ->
  (forall n i, In i (ins g n) -> n < fresh /\ i < fresh) -> acyclic g -> plain_params g ->
  (forall o, In o nodes -> o < fresh) ->
  zip rules fuel g fresh nodes = TOk (outs, g') ->
  (forall env vs, dens g env nodes vs <-> dens g' env outs vs) /\ acyclic g' /\
  (forall n, n < fresh -> kind g' n = kind g n /\ ins g' n = ins g n).
Proof.
  intros HS C A P B E. unfold zip in E. destruct rules as [|r rules].
  { injection E as <- <-. split; [tauto|auto]. }
  remember (r :: rules) as rs eqn:Ers. clear Ers r rules.
  destruct (translate_list (zip_node rs fuel) nodes (mkT (mkG g fresh) [])) as [[os st1]|] eqn:E1; [|discriminate].
  injection E as <- <-.
  assert (Z0 : zinv (mkG g fresh) (mkT (mkG g fresh) [])).
  { constructor; cbn [tg gg ready]; auto. intros; discriminate. }
  destruct (zlist_spec _ (zip_node_spec rs HS fuel) nodes _ _ _ _ Z0 B E1) as (Z1 & [_ XE] & F).
  cbn [tg gg gn] in XE. split; [|split; [apply (z_acyc _ _ Z1)|exact XE]].
  intros env vs. rewrite <- (zsame_dens _ _ _ F env vs).
  split; apply (dens_on packV fieldV oprun (fun m => m < fresh)); auto.
  - intros m i _ Hi. now apply C in Hi.
  - intros m Hm. destruct (XE m Hm); auto.
  - intros m i Hm. destruct (XE m Hm) as [_ ->]. intros Hi. now apply C in Hi.
Qed.

Lemma zip_identity (rules : list rule) (g : graph) fresh nodes :
  Forall inapplicable rules -> acyclic g ->
  exists N, forall fuel, N <= fuel -> zip rules fuel g fresh nodes = TOk (nodes, g).
Proof.
  intros HI [rank HR]. exists (S (lsum (map rank nodes))). intros fuel Hf. unfold zip.
  destruct rules as [|r rules]; [reflexivity|].
  remember (r :: rules) as rs eqn:Ers. clear Ers r rules.
  assert (RD : forall fuel n, rank n < fuel -> forall rd, (forall k c, lookup rd k = Some c -> c = k) ->
    exists rd', (forall k c, lookup rd' k = Some c -> c = k) /\
      zip_node rs fuel n (mkT (mkG g fresh) rd) = TOk (n, mkT (mkG g fresh) rd')).
  { clear fuel Hf. induction fuel as [|fuel IH]; intros n Hn rd Hrd; [lia|]. cbn [zip_node ready tg].
    destruct (lookup rd n) as [c|] eqn:EL.
    { rewrite (Hrd _ _ EL). exists rd. auto. }
    rewrite try_inapplicable by auto. cbn [gg].
    assert (G : forall is rd, (forall i, In i is -> rank i < fuel) -> (forall k c, lookup rd k = Some c -> c = k) ->
      exists rd', (forall k c, lookup rd' k = Some c -> c = k) /\
        translate_list (zip_node rs fuel) is (mkT (mkG g fresh) rd) = TOk (is, mkT (mkG g fresh) rd')).
    { clear - IH. induction is as [|i is IHi]; intros rd Hi Hrd; cbn [translate_list]; [exists rd; auto|].
      destruct (IH i (Hi i (or_introl eq_refl)) rd Hrd) as (rd1 & H1 & E1). rewrite E1.
      destruct (IHi rd1) as (rd2 & H2 & E2); [intros j Hj; apply Hi; now right|auto|].
      rewrite E2. exists rd2. auto. }
    destruct (G (ins g n) rd) as (rd1 & H1 & E1); [|auto|].
    { intros i Hi. specialize (HR _ _ Hi). lia. }
    rewrite E1.
    assert (changed (ins g n) (ins g n) = false) as ->.
    { unfold changed. apply negb_false_iff. generalize (ins g n) as l. clear.
      induction l as [|x l IH]; cbn [combine forallb fst snd]; [auto|]. now rewrite Nat.eqb_refl, IH. }
    cbn [tg ready]. eexists. split; [|reflexivity].
    intros k c. rewrite lookup_insert. destruct (lookup rd1 n); [auto|].
    destruct (Nat.eqb_spec k n) as [->|]; [congruence|auto]. }
  assert (G : forall is rd, (forall i, In i is -> rank i < fuel) -> (forall k c, lookup rd k = Some c -> c = k) ->
      exists rd', translate_list (zip_node rs fuel) is (mkT (mkG g fresh) rd) = TOk (is, mkT (mkG g fresh) rd')).
  { induction is as [|i is IHi]; intros rd Hi Hrd; cbn [translate_list]; [exists rd; auto|].
    destruct (RD fuel i (Hi i (or_introl eq_refl)) rd Hrd) as (rd1 & H1 & E1). rewrite E1.
    destruct (IHi rd1) as (rd2 & E2); [intros j Hj; apply Hi; now right|auto|].
    rewrite E2. exists rd2. auto. }
  destruct (G nodes []) as (rd' & E'); [|intros; discriminate|now rewrite E'].
  intros i Hi. pose proof (in_lsum rank _ _ Hi). lia.
Qed.
End TransProofs3.
