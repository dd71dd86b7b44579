(** Proofs about constant folding. *)
From Coq Require Import List ZArith Bool Lia Arith.
From Verif Require Import StackModel GraphSpec GraphModel IntimeModel ConstFoldModel CompilerSpec
  GraphProofs StackProofs IntimeProofs CompilerProofs.
Import ListNotations.

Lemma reach_cases {V Opr} (g : graph V Opr) a b :
  reach g a b -> b = a \/ exists m, In m (ins g a) /\ reach g m b.
Proof. intros H. inversion H; subst; eauto. Qed.

Section Agree.
Context {V Opr : Type}.
Variable packV : list V -> V.
Variable fieldV : V -> Z -> option V.
Variable oprun : Opr -> list V -> opres V.
Notation graph := (graph V Opr).
Notation den := (den packV fieldV oprun).
Notation dens := (dens packV fieldV oprun).

(** [g] and [g'] agree below [N], and below [N] edges stay below [N]. *)
Definition agree (N : nat) (g g' : graph) : Prop :=
  (forall n, n < N -> kind g' n = kind g n /\ ins g' n = ins g n) /\
  (forall n i, n < N -> In i (ins g n) -> i < N).

Lemma agree_sym N g g' : agree N g g' -> agree N g' g.
Proof.
  intros [A B]. split.
  - intros n Hn. destruct (A n Hn). auto.
  - intros n i Hn. destruct (A n Hn) as [_ ->]. eauto.
Qed.

Lemma agree_reach N g g' n m : agree N g g' -> n < N -> reach g n m -> reach g' n m /\ m < N.
Proof.
  intros [A B] Hn H. induction H as [n|a k b Hk _ IH]; [split; auto; constructor|].
  destruct IH as [IH ?]; [eauto|]. split; auto. econstructor; [|exact IH].
  destruct (A a Hn) as [_ ->]. auto.
Qed.

Scheme den_mind := Induction for GraphSpec.den Sort Prop
  with dens_mind := Induction for GraphSpec.dens Sort Prop.

Lemma agree_den N g g' env n v : agree N g g' -> n < N -> den g env n v -> den g' env n v.
Proof.
  intros [A B] Hn H. revert Hn.
  refine (den_mind V Opr packV fieldV oprun g env
    (fun n v _ => n < N -> den g' env n v)
    (fun ns vs _ => (forall n, In n ns -> n < N) -> dens g' env ns vs) _ _ _ _ _ n v H).
  - intros m w Hk He Hm. apply den_param; auto. destruct (A m Hm) as [-> _]. auto.
  - intros m w Hk Hm. apply den_const. destruct (A m Hm) as [-> _]. auto.
  - intros m vs w Hk D IH Hv Hm. destruct (A m Hm) as [E1 E2].
    eapply den_op; [now rewrite E1| |now rewrite E1; exact Hv].
    rewrite E2. apply IH. intros i Hi. eauto.
  - intros _. constructor.
  - intros m ms w ws D IH Ds IHs Hin. constructor.
    + apply IH. apply Hin. now left.
    + apply IHs. intros; apply Hin; now right.
Qed.
End Agree.

Section ConstFoldProofs.
Context {V Opr : Type}.
Variable packV : list V -> V.
Variable fieldV : V -> Z -> option V.
Variable oprun : Opr -> list V -> opres V.
Variable supported : Opr -> bool.
Variables blo bpre : list V.
Variable bbs : list nat.
Notation bench := (fs blo bpre bbs).
Notation graph := (graph V Opr).
Notation fstate := (fstate V Opr).
Notation den := (den packV fieldV oprun).
Notation dens := (dens packV fieldV oprun).
Notation rcn := (@run_const_node V Opr packV oprun supported bench).
Notation finputs := (@fold_inputs V Opr).
Notation fold_value := (@fold_value V Opr packV oprun supported bench).

Variable g0 : graph.
Variable n0 : node.
Hypothesis Hfresh : forall n i, In i (ins g0 n) -> n < n0 /\ i < n0.

(** Operators return exactly one value whenever they return. *)
Definition single_valued : Prop :=
  forall o args fr k, oprun o args = ORet fr k -> k = 1%Z /\ fr <> [].

Definition sub (st st' : fstate) : Prop :=
  next st <= next st' /\
  (forall n, n < next st -> kind (gr st') n = kind (gr st) n /\ ins (gr st') n = ins (gr st) n).

Record good (st : fstate) (k c : node) (isc : bool) : Prop := {
  g_lt : c < next st;
  g_fwd : forall env w, den g0 env k w -> den (gr st) env c w;
  g_bwd : single_valued -> forall env w, den (gr st) env c w -> den g0 env k w;
  g_const : isc = true -> exists v, kind (gr st) c = KConst v;
  g_nonconst : isc = false -> exists p, kind (gr st) p = KParam /\ reach (gr st) c p;
  g_params : forall p, (kind g0 p = KParam /\ reach g0 k p) <-> (kind (gr st) p = KParam /\ reach (gr st) c p);
  g_folded : forall m, reach (gr st) c m -> is_operator (gr st) m ->
             exists p, kind (gr st) p = KParam /\ reach (gr st) m p
}.

Record finv (st : fstate) : Prop := {
  f_n0 : n0 <= next st;
  f_same : forall n, n < n0 -> kind (gr st) n = kind g0 n /\ ins (gr st) n = ins g0 n;
  f_closed : forall n i, In i (ins (gr st) n) -> n < next st /\ i < next st;
  f_acyc : acyclic (gr st);
  f_leaves : leaves_ok (gr st);
  f_rn : forall k c, k < n0 -> lookup (rnonconst st) k = Some c -> good st k c false;
  f_rc : forall k c, k < n0 -> lookup (rconst st) k = Some c -> good st k c true
}.

Lemma sub_refl st : sub st st.
Proof. split; auto. Qed.
Lemma sub_trans a b c : sub a b -> sub b c -> sub a c.
Proof.
  intros [A1 A2] [B1 B2]. split; [lia|]. intros n Hn.
  destruct (A2 n Hn) as [E1 E2]. destruct (B2 n ltac:(lia)) as [E3 E4]. split; congruence.
Qed.

Lemma sub_agree st st' : (forall n i, In i (ins (gr st) n) -> n < next st /\ i < next st) ->
  sub st st' -> agree (next st) (gr st) (gr st').
Proof. intros HC [A B]. split; auto. intros n i _ Hi. now apply HC in Hi. Qed.

Lemma good_mono st st' k c isc :
  (forall n i, In i (ins (gr st) n) -> n < next st /\ i < next st) ->
  sub st st' -> good st k c isc -> good st' k c isc.
Proof.
  intros HC HS [G1 G2 G3 G4 G5 G6 G7]. pose proof (sub_agree _ _ HC HS) as HA.
  pose proof (agree_sym _ _ _ HA) as HA'. destruct HS as [S1 S2].
  constructor.
  - lia.
  - intros env w H. eapply agree_den; eauto.
  - intros Hs env w H. apply G3; auto. eapply agree_den; eauto.
  - intros H. destruct (G4 H) as [v Hv]. exists v. destruct (S2 c G1) as [-> _]. auto.
  - intros H. destruct (G5 H) as (p & Hp & Hr). exists p.
    destruct (agree_reach _ _ _ _ _ HA G1 Hr) as [Hr' Hlt]. split; auto.
    destruct (S2 p Hlt) as [-> _]. auto.
  - intros p. rewrite G6. split; intros [Hp Hr].
    + destruct (agree_reach _ _ _ _ _ HA G1 Hr) as [Hr' Hlt]. split; auto.
      destruct (S2 p Hlt) as [-> _]. auto.
    + destruct (agree_reach _ _ _ _ _ HA' G1 Hr) as [Hr' Hlt]. split; auto.
      destruct (S2 p Hlt) as [E _]. congruence.
  - intros m Hr Ho. destruct (agree_reach _ _ _ _ _ HA' G1 Hr) as [Hr' Hlt].
    destruct (S2 m Hlt) as [E1 E2].
    destruct (G7 m Hr') as (p & Hp & Hrp); [unfold is_operator in *; now rewrite <- E1|].
    destruct (agree_reach _ _ _ _ _ HA Hlt Hrp) as [Hrp' Hlp]. exists p. split; auto.
    destruct (S2 p Hlp) as [-> _]. auto.
Qed.

Lemma finv_mono_tables st st' :
  finv st -> sub st st' -> rnonconst st' = rnonconst st -> rconst st' = rconst st ->
  (forall k c, k < n0 -> lookup (rnonconst st') k = Some c -> good st' k c false) /\
  (forall k c, k < n0 -> lookup (rconst st') k = Some c -> good st' k c true).
Proof.
  intros H HS E1 E2. rewrite E1, E2. split; intros k c Hk Hl.
  - eapply good_mono; [apply (f_closed _ H)|exact HS|]. eapply f_rn; eauto.
  - eapply good_mono; [apply (f_closed _ H)|exact HS|]. eapply f_rc; eauto.
Qed.

Lemma new_node_sub st k is : sub st (new_node st k is).
Proof.
  split; simpl; [lia|]. intros n Hn. destruct (Nat.eqb_spec n (next st)); [lia|auto].
Qed.

Lemma new_node_inv st k is :
  finv st -> (forall i, In i is -> i < next st) ->
  (match k with KOp _ | KField _ | KPack => True | _ => is = [] end) ->
  finv (new_node st k is).
Proof.
  intros H His Hk. pose proof (new_node_sub st k is) as HS.
  destruct (finv_mono_tables st _ H HS eq_refl eq_refl) as [T1 T2].
  destruct H as [F1 F2 F3 F4 F5 _ _].
  constructor; auto; simpl.
  - lia.
  - intros n Hn. destruct (Nat.eqb_spec n (next st)); [lia|auto].
  - intros n i. destruct (Nat.eqb_spec n (next st)) as [->|].
    + intros Hi. specialize (His i Hi). lia.
    + intros Hi. apply F3 in Hi. lia.
  - destruct F4 as [rank HR].
    exists (fun n => if Nat.eqb n (next st) then S (lsum (map rank is)) else rank n). simpl.
    intros n m. destruct (Nat.eqb_spec n (next st)) as [->|Hn]; intros Hm.
    + pose proof (His m Hm). destruct (Nat.eqb_spec m (next st)); [lia|].
      assert (rank m <= lsum (map rank is)).
      { clear -Hm. induction is as [|x l IH]; [destruct Hm|]. simpl.
        destruct Hm as [->|Hm]; [lia|]. specialize (IH Hm). lia. }
      lia.
    + pose proof (F3 _ _ Hm). destruct (Nat.eqb_spec m (next st)); [lia|]. auto.
  - intros n. unfold is_operator. simpl. destruct (Nat.eqb_spec n (next st)); [|apply F5].
    intros Ho. destruct k; tauto.
Qed.

Lemma add_nonconst_inv st k c : finv st -> good st k c false -> finv (add_nonconst st k c).
Proof.
  intros [F1 F2 F3 F4 F5 F6 F7] G.
  assert (M : forall k c b, good st k c b -> good (add_nonconst st k c) k c b).
  { intros k' c' b H. eapply good_mono; eauto. split; auto. }
  assert (M' : forall k' c' b, good st k' c' b -> good (add_nonconst st k c) k' c' b).
  { intros k' c' b H. eapply good_mono; eauto. split; auto. }
  constructor; try assumption.
  - intros k' c' Hk'. simpl. destruct (Nat.eqb_spec k' k) as [->|].
    + intros E; injection E as <-. auto.
    + intros E. apply M'. eauto.
  - intros k' c' Hk' E. apply M'. apply F7; auto.
Qed.

Lemma add_const_inv st k c : finv st -> good st k c true -> finv (add_const st k c).
Proof.
  intros [F1 F2 F3 F4 F5 F6 F7] G.
  assert (M' : forall k' c' b, good st k' c' b -> good (add_const st k c) k' c' b).
  { intros k' c' b H. eapply good_mono; eauto. split; auto. }
  constructor; try assumption.
  - intros k' c' Hk' E. apply M'. apply F6; auto.
  - intros k' c' Hk'. simpl. destruct (Nat.eqb_spec k' k) as [->|].
    + intros E; injection E as <-. auto.
    + intros E. apply M'. eauto.
Qed.

(** entries made under a fresh key do not matter *)
Lemma add_nonconst_fresh st k c : finv st -> n0 <= k -> finv (add_nonconst st k c).
Proof.
  intros [F1 F2 F3 F4 F5 F6 F7] Hk.
  assert (M' : forall k' c' b, good st k' c' b -> good (add_nonconst st k c) k' c' b).
  { intros k' c' b H. eapply good_mono; eauto. split; auto. }
  constructor; try assumption.
  - intros k' c' Hk'. simpl. destruct (Nat.eqb_spec k' k) as [->|]; [lia|]. intros E. apply M'. eauto.
  - intros k' c' Hk' E. apply M'. apply F7; auto.
Qed.
Lemma add_const_fresh st k c : finv st -> n0 <= k -> finv (add_const st k c).
Proof.
  intros [F1 F2 F3 F4 F5 F6 F7] Hk.
  assert (M' : forall k' c' b, good st k' c' b -> good (add_const st k c) k' c' b).
  { intros k' c' b H. eapply good_mono; eauto. split; auto. }
  constructor; try assumption.
  - intros k' c' Hk' E. apply M'. apply F6; auto.
  - intros k' c' Hk'. simpl. destruct (Nat.eqb_spec k' k) as [->|]; [lia|]. intros E. apply M'. eauto.
Qed.

(** What the recursive calls deliver. *)
Definition rec_ok (rec : node -> fstate -> fres (node * bool * fstate)) (k : node) : Prop :=
  forall st c isc st', finv st -> rec k st = FOk (c, isc, st') ->
  finv st' /\ sub st st' /\ good st' k c isc.

(** the folded constants of the inputs processed so far *)
Inductive rel (st : fstate) : list node -> list node -> list V -> bool -> bool -> Prop :=
| rel_nil : rel st [] [] [] true false
| rel_snoc_c ks cs vs ac bn k c v :
    rel st ks cs vs ac bn -> good st k c true -> kind (gr st) c = KConst v ->
    rel st (ks ++ [k]) (cs ++ [c]) (vs ++ [v]) ac (bn || negb (Nat.eqb c k))
| rel_snoc_n ks cs vs ac bn k c :
    rel st ks cs vs ac bn -> good st k c false ->
    rel st (ks ++ [k]) (cs ++ [c]) vs false (bn || negb (Nat.eqb c k)).

Lemma rel_mono st st' ks cs vs ac bn : finv st -> sub st st' -> rel st ks cs vs ac bn -> rel st' ks cs vs ac bn.
Proof.
  intros HI HS H.
  assert (M : forall k c b, good st k c b -> good st' k c b).
  { intros k c b G. eapply good_mono; [apply (f_closed _ HI)|exact HS|exact G]. }
  induction H.
  - constructor.
  - apply rel_snoc_c; auto.
    destruct HS as [_ S2]. destruct (S2 c (g_lt _ _ _ _ H0)) as [-> _]. auto.
  - eapply rel_snoc_n; eauto.
Qed.

Lemma fold_inputs_spec rec : forall is,
  (forall k, In k is -> k < n0 /\ rec_ok rec k) ->
  forall ks st vs cs ac bn vs' cs' ac' bn' st',
  finv st -> rel st ks cs vs ac bn ->
  fold_inputs rec is st vs cs ac bn = FOk (vs', cs', ac', bn', st') ->
  finv st' /\ sub st st' /\ rel st' (ks ++ is) cs' vs' ac' bn'.
Proof.
  induction is as [|k is IH]; intros Hrec ks st vs cs ac bn vs' cs' ac' bn' st' HI HR E; simpl in E.
  - injection E as <- <- <- <- <-. rewrite app_nil_r. split; [auto|]. split; [apply sub_refl|auto].
  - destruct (rec k st) as [[[c isc] st1]| |] eqn:Er; try discriminate.
    destruct (Hrec k (or_introl eq_refl)) as [_ Hk].
    destruct (Hk _ _ _ _ HI Er) as (HI1 & HS1 & HG).
    pose proof (rel_mono _ _ _ _ _ _ _ HI HS1 HR) as HR1.
    assert (Hrest : forall vs2 ac2,
      rel st1 (ks ++ [k]) (cs ++ [c]) vs2 ac2 (bn || negb (Nat.eqb c k)) ->
      fold_inputs rec is st1 vs2 (cs ++ [c]) ac2 (bn || negb (Nat.eqb c k)) = FOk (vs', cs', ac', bn', st') ->
      finv st' /\ sub st st' /\ rel st' (ks ++ k :: is) cs' vs' ac' bn').
    { intros vs2 ac2 HR2 E2. destruct (IH ltac:(intros; apply Hrec; now right) (ks ++ [k]) _ _ _ _ _ _ _ _ _ _ HI1 HR2 E2) as (A & B & C).
      split; [auto|]. split; [eapply sub_trans; eauto|]. now rewrite <- app_assoc in C. }
    destruct isc.
    + unfold const_value in E. destruct (kind (gr st1) c) eqn:Hkc; try discriminate.
      eapply Hrest; [|exact E]. now apply rel_snoc_c.
    + eapply Hrest; [|exact E]. eapply rel_snoc_n; eauto.
Qed.

Lemma dens_snoc g env ks k vs v : dens g env ks vs -> den g env k v -> dens g env (ks ++ [k]) (vs ++ [v]).
Proof. intros A B. apply dens_app. exists vs, [v]. repeat split; auto. apply dens_one; eauto. Qed.
Lemma dens_snoc_inv g env ks k ws : dens g env (ks ++ [k]) ws ->
  exists vs v, ws = vs ++ [v] /\ dens g env ks vs /\ den g env k v.
Proof.
  intros H. apply dens_app in H as (va & vb & -> & A & B). apply dens_one in B as (v & -> & B). eauto.
Qed.

Lemma den_kconst g env n v w : kind g n = KConst v -> den g env n w -> w = v.
Proof.
  intros Hk H. apply den_inv in H as [[K _]|[K|[K _]]]; try congruence. rewrite Hk in K. tauto.
Qed.

Lemma rel_dens_fwd st ks cs vs ac bn : rel st ks cs vs ac bn ->
  forall env ws, dens g0 env ks ws -> dens (gr st) env cs ws.
Proof.
  intros H. induction H; intros env ws D.
  - inversion D; constructor.
  - apply dens_snoc_inv in D as (vs0 & v0 & -> & D1 & D2). apply dens_snoc; auto. now apply (g_fwd _ _ _ _ H0).
  - apply dens_snoc_inv in D as (vs0 & v0 & -> & D1 & D2). apply dens_snoc; auto. now apply (g_fwd _ _ _ _ H0).
Qed.

Lemma rel_dens_bwd st ks cs vs ac bn : single_valued -> rel st ks cs vs ac bn ->
  forall env ws, dens (gr st) env cs ws -> dens g0 env ks ws.
Proof.
  intros Hs H. induction H; intros env ws D.
  - inversion D; constructor.
  - apply dens_snoc_inv in D as (vs0 & v0 & -> & D1 & D2). apply dens_snoc; auto. now apply (g_bwd _ _ _ _ H0).
  - apply dens_snoc_inv in D as (vs0 & v0 & -> & D1 & D2). apply dens_snoc; auto. now apply (g_bwd _ _ _ _ H0).
Qed.

Lemma rel_allconst st ks cs vs ac bn : leaves_ok (gr st) -> rel st ks cs vs ac bn -> ac = true ->
  (forall env ws, dens g0 env ks ws -> ws = vs) /\ (forall env, dens (gr st) env cs vs) /\
  (forall k p, In k ks -> kind g0 p = KParam -> ~ reach g0 k p).
Proof.
  intros Hlv H. induction H; intros Hac; try discriminate.
  - repeat split.
    + intros env ws D. inversion D. reflexivity.
    + intros. constructor.
    + intros k p [].
  - destruct (IHrel Hac) as (A & B & C). repeat split.
    + intros env ws D. apply dens_snoc_inv in D as (vs0 & v0 & -> & D1 & D2).
      rewrite (A env vs0 D1). f_equal. f_equal. apply (g_fwd _ _ _ _ H0) in D2.
      eapply den_kconst; eauto.
    + intros env. apply dens_snoc; auto. now apply den_const.
    + intros k' p Hk' Hp Hr. apply in_app_iff in Hk' as [Hk'|[<-|[]]]; [eapply C; eauto|].
      destruct (proj1 (g_params _ _ _ _ H0 p) (conj Hp Hr)) as [Hp' Hr'].
      inversion Hr'; subst; [congruence|]. rewrite (Hlv c) in H2; [destruct H2|].
      unfold is_operator. now rewrite H1.
Qed.

Lemma rel_in st ks cs vs ac bn : rel st ks cs vs ac bn ->
  (forall c, In c cs -> exists k isc, In k ks /\ good st k c isc) /\
  (forall k, In k ks -> exists c isc, In c cs /\ good st k c isc) /\
  (bn = false -> cs = ks) /\ (ac = false -> exists k c, In k ks /\ In c cs /\ good st k c false).
Proof.
  intros H. induction H.
  - split; [|split; [|split]]; auto; try (intros ? []). discriminate.
  - destruct IHrel as (A & B & C & D). split; [|split; [|split]].
    + intros c' Hc. apply in_app_iff in Hc as [Hc|[<-|[]]].
      * destruct (A c' Hc) as (k' & i & Hk & G). exists k', i. rewrite in_app_iff. auto.
      * exists k, true. rewrite in_app_iff. simpl. auto.
    + intros k' Hk. apply in_app_iff in Hk as [Hk|[<-|[]]].
      * destruct (B k' Hk) as (c' & i & Hc & G). exists c', i. rewrite in_app_iff. auto.
      * exists c, true. rewrite in_app_iff. simpl. auto.
    + intros E. apply orb_false_iff in E as [E1 E2]. rewrite (C E1).
      apply negb_false_iff, Nat.eqb_eq in E2. now subst.
    + intros E. destruct (D E) as (k' & c' & Hk & Hc & G). exists k', c'. rewrite !in_app_iff. auto.
  - destruct IHrel as (A & B & C & D). split; [|split; [|split]].
    + intros c' Hc. apply in_app_iff in Hc as [Hc|[<-|[]]].
      * destruct (A c' Hc) as (k' & i & Hk & G). exists k', i. rewrite in_app_iff. auto.
      * exists k, false. rewrite in_app_iff. simpl. auto.
    + intros k' Hk. apply in_app_iff in Hk as [Hk|[<-|[]]].
      * destruct (B k' Hk) as (c' & i & Hc & G). exists c', i. rewrite in_app_iff. auto.
      * exists c, false. rewrite in_app_iff. simpl. auto.
    + intros E. apply orb_false_iff in E as [E1 E2]. rewrite (C E1).
      apply negb_false_iff, Nat.eqb_eq in E2. now subst.
    + intros _. exists k, c. rewrite !in_app_iff. simpl. auto.
Qed.

(** an operator node rebuilt over folded inputs, at least one non-constant *)
Lemma good_op st n ks cs vs bn c :
  leaves_ok g0 -> n < n0 ->
  is_operator g0 n -> ins g0 n = ks -> rel st ks cs vs false bn ->
  c < next st -> kind (gr st) c = kind g0 n -> ins (gr st) c = cs -> good st n c false.
Proof.
  intros Hl0 Hn Hop Hks HR Hc Hkc Hic.
  destruct (rel_in _ _ _ _ _ _ HR) as (A & B & _ & D). specialize (D eq_refl).
  assert (Hopc : is_operator (gr st) c) by (unfold is_operator in *; now rewrite Hkc).
  destruct D as (k1 & c1 & Hk1 & Hc1 & G1).
  assert (Hpar : exists p, kind (gr st) p = KParam /\ reach (gr st) c p).
  { destruct (g_nonconst _ _ _ _ G1 eq_refl) as (p & Hp & Hr). exists p. split; auto.
    econstructor; [|exact Hr]. now rewrite Hic. }
  constructor; auto.
  - intros env w Hd. apply den_inv in Hd as [[K _]|[K|[K (ws & Dw & Ew)]]];
      try (exfalso; unfold is_operator in Hop; rewrite K in Hop; exact Hop).
    eapply den_op; [now rewrite Hkc| |rewrite Hkc; exact Ew]. rewrite Hic.
    eapply rel_dens_fwd; eauto. now rewrite <- Hks.
  - intros Hs env w Hd. apply den_inv in Hd as [[K _]|[K|[K (ws & Dw & Ew)]]];
      try (exfalso; unfold is_operator in Hopc; rewrite K in Hopc; exact Hopc).
    eapply den_op; [unfold is_operator in Hop; exact Hop| |rewrite <- Hkc; exact Ew].
    rewrite Hks. rewrite Hic in Dw. eapply rel_dens_bwd; eauto.
  - discriminate.
  - intros p. split; intros [Hp Hr].
    + apply reach_cases in Hr as [->|(m & Hm & Hr)].
      * unfold is_operator in Hop. rewrite Hp in Hop. tauto.
      * rewrite Hks in Hm. destruct (B m Hm) as (c' & i & Hc' & G).
        destruct (proj1 (g_params _ _ _ _ G p) (conj Hp Hr)) as [Hp' Hr'].
        split; auto. econstructor; [|exact Hr']. now rewrite Hic.
    + apply reach_cases in Hr as [->|(c' & Hcin & Hr')].
      * unfold is_operator in Hopc. rewrite Hp in Hopc. tauto.
      * rewrite Hic in Hcin. destruct (A c' Hcin) as (k' & i & Hk' & G).
        destruct (proj2 (g_params _ _ _ _ G p) (conj Hp Hr')) as [Hp' Hr''].
        split; auto. econstructor; [|exact Hr'']. now rewrite Hks.
  - intros m Hr Ho. apply reach_cases in Hr as [->|(c' & Hcin & Hr')]; auto.
    rewrite Hic in Hcin. destruct (A c' Hcin) as (k' & i & Hk' & G).
    exact (g_folded _ _ _ _ G m Hr' Ho).
Qed.

Lemma fold_value_op_value k args v w :
  fold_value k args = Some v -> node_value packV fieldV oprun k args = Some w -> v = w.
Proof.
  unfold ConstFoldModel.fold_value. destruct k; try discriminate.
  destruct (supported o); [|discriminate]. simpl. unfold op_value.
  destruct (oprun o args) as [fr k|fr] eqn:E; [|discriminate].
  intros Hf Hv.
  assert (k = 1%Z) by (destruct k as [|p|p]; try discriminate; destruct p; try discriminate; auto).
  subst k. destruct fr as [|x fr] using rev_ind; [discriminate|]. clear IHfr.
  rewrite rev_app_distr in Hv. simpl in Hv. injection Hv as <-.
  rewrite (intime_run_one packV (oprun o) args fr x blo bpre bbs E) in Hf. congruence.
Qed.

Lemma fold_value_single k args v : single_valued ->
  fold_value k args = Some v -> node_value packV fieldV oprun k args = Some v.
Proof.
  intros Hs. unfold ConstFoldModel.fold_value. destruct k; try discriminate.
  destruct (supported o); [|discriminate]. simpl. unfold op_value.
  destruct (oprun o args) as [fr k|fr] eqn:E.
  - destruct (Hs _ _ _ _ E) as [-> Hne]. destruct fr as [|x fr] using rev_ind; [tauto|]. clear IHfr.
    rewrite (intime_run_one packV (oprun o) args fr x blo bpre bbs E), rev_app_distr. simpl. congruence.
  - rewrite (intime_run_throw packV (oprun o) args fr blo bpre bbs E). discriminate.
Qed.

Lemma good_folded st n ks cs vs bn c v :
  leaves_ok (gr st) -> is_operator g0 n -> ins g0 n = ks -> rel st ks cs vs true bn ->
  fold_value (kind g0 n) vs = Some v ->
  c < next st -> kind (gr st) c = KConst v -> good st n c true.
Proof.
  intros Hlv Hop Hks HR Hfv Hc Hkc.
  destruct (rel_allconst _ _ _ _ _ _ Hlv HR eq_refl) as (A & B & C).
  assert (Hleaf : forall m, reach (gr st) c m -> m = c).
  { intros m Hr. inversion Hr; subst; auto. rewrite (Hlv c) in H; [destruct H|].
    unfold is_operator. now rewrite Hkc. }
  constructor; auto.
  - intros env w Hd. apply den_inv in Hd as [[K _]|[K|[K (ws & Dw & Ew)]]];
      try (exfalso; unfold is_operator in Hop; rewrite K in Hop; exact Hop).
    rewrite Hks in Dw. rewrite (A env ws Dw) in Ew.
    rewrite <- (fold_value_op_value _ _ _ _ Hfv Ew). now apply den_const.
  - intros Hs env w Hd. rewrite (den_kconst _ _ _ _ _ Hkc Hd).
    eapply den_op; [exact Hop| |apply fold_value_single; eauto].
    rewrite Hks. eapply rel_dens_bwd; eauto.
  - eauto.
  - discriminate.
  - intros p. split; intros [Hp Hr].
    + exfalso. apply reach_cases in Hr as [->|(m & Hm & Hr)].
      * unfold is_operator in Hop. rewrite Hp in Hop. tauto.
      * rewrite Hks in Hm. eapply C; eauto.
    + apply Hleaf in Hr. subst. congruence.
  - intros m Hr Ho. apply Hleaf in Hr. subst. unfold is_operator in Ho. rewrite Hkc in Ho. tauto.
Qed.

Lemma good_param st n : leaves_ok g0 -> finv st -> n < n0 -> kind g0 n = KParam -> good st n n false.
Proof.
  intros Hl0 HI Hn Hk. destruct HI as [F1 F2 F3 F4 F5 _ _]. destruct (F2 n Hn) as [Ek Ei].
  assert (Hi : ins g0 n = []) by (apply Hl0; unfold is_operator; rewrite Hk; auto).
  assert (Hr0 : forall m, reach g0 n m -> m = n).
  { intros m Hr. inversion Hr; subst; auto. rewrite Hi in H. destruct H. }
  assert (Hr1 : forall m, reach (gr st) n m -> m = n).
  { intros m Hr. inversion Hr; subst; auto. rewrite Ei, Hi in H. destruct H. }
  constructor; auto.
  - lia.
  - intros env w Hd. apply den_inv in Hd as [[K E]|[K|[K _]]]; [|congruence|rewrite Hk in K; tauto].
    apply den_param; congruence.
  - intros _ env w Hd. apply den_inv in Hd as [[K E]|[K|[K _]]]; [|congruence|rewrite Ek, Hk in K; tauto].
    apply den_param; congruence.
  - discriminate.
  - intros _. exists n. split; [congruence|constructor].
  - intros p. split; intros [Hp Hr].
    + apply Hr0 in Hr. subst. split; [congruence|constructor].
    + apply Hr1 in Hr. subst. split; [congruence|constructor].
  - intros m Hr Ho. apply Hr1 in Hr. subst. unfold is_operator in Ho. rewrite Ek, Hk in Ho. tauto.
Qed.

Lemma good_constant st n v : leaves_ok g0 -> finv st -> n < n0 -> kind g0 n = KConst v -> good st n n true.
Proof.
  intros Hl0 HI Hn Hk. destruct HI as [F1 F2 F3 F4 F5 _ _]. destruct (F2 n Hn) as [Ek Ei].
  assert (Hi : ins g0 n = []) by (apply Hl0; unfold is_operator; rewrite Hk; auto).
  assert (Hr0 : forall m, reach g0 n m -> m = n).
  { intros m Hr. inversion Hr; subst; auto. rewrite Hi in H. destruct H. }
  assert (Hr1 : forall m, reach (gr st) n m -> m = n).
  { intros m Hr. inversion Hr; subst; auto. rewrite Ei, Hi in H. destruct H. }
  constructor; auto.
  - lia.
  - intros env w Hd. rewrite (den_kconst _ _ _ _ _ Hk Hd). apply den_const. congruence.
  - intros _ env w Hd. rewrite Hk in Ek. rewrite (den_kconst _ _ _ _ _ Ek Hd). apply den_const. congruence.
  - intros _. exists v. congruence.
  - discriminate.
  - intros p. split; intros [Hp Hr].
    + apply Hr0 in Hr. congruence.
    + apply Hr1 in Hr. congruence.
  - intros m Hr Ho. apply Hr1 in Hr. subst. unfold is_operator in Ho. rewrite Ek, Hk in Ho. tauto.
Qed.

Lemma run_const_node_spec : leaves_ok g0 -> forall fuel alias n, n < n0 -> rec_ok (rcn fuel alias) n.
Proof.
  intros Hl0. induction fuel as [|fuel IH]; intros alias n Hn st c isc st' HI E; simpl in E; [discriminate|].
  destruct (lookup (rnonconst st) n) as [c0|] eqn:En.
  { injection E as <- <- <-. split; [auto|]. split; [apply sub_refl|]. eapply f_rn; eauto. }
  destruct (lookup (rconst st) n) as [c0|] eqn:Ec.
  { injection E as <- <- <-. split; [auto|]. split; [apply sub_refl|]. eapply f_rc; eauto. }
  destruct (f_same _ HI n Hn) as [Ek Ei].
  assert (Hin : forall k, In k (ins (gr st) n) -> k < n0 /\ rec_ok (rcn fuel false) k).
  { intros k Hk. rewrite Ei in Hk. pose proof (Hfresh _ _ Hk). split; [lia|]. apply IH. lia. }
  assert (Hgen : is_operator g0 n ->
    match fold_inputs (rcn fuel false) (ins (gr st) n) st [] [] true false with
    | FErr => FErr
    | FFuel => FFuel
    | FOk (cs, ns, all_const, build_new, st1) =>
        if negb all_const then
          if negb build_new then FOk (n, false, add_nonconst st1 n n)
          else FOk (next st1, false, add_nonconst (new_node st1 (kind (gr st) n) ns) (if alias then next st1 else n) (next st1))
        else match fold_value (kind (gr st) n) cs with
             | None => FErr
             | Some v => FOk (next st1, true, add_const (new_node st1 (KConst v) []) (if alias then next st1 else n) (next st1))
             end
    end = FOk (c, isc, st') -> finv st' /\ sub st st' /\ good st' n c isc).
  { intros Hop E'.
    destruct (fold_inputs (rcn fuel false) (ins (gr st) n) st [] [] true false)
      as [[[[[vs cs] ac] bn] st1]| |] eqn:Ef; try discriminate.
    destruct (fold_inputs_spec _ _ Hin [] st [] [] true false _ _ _ _ _ HI (rel_nil _) Ef) as (HI1 & HS1 & HR1).
    simpl in HR1. destruct (f_same _ HI1 n Hn) as [Ek1 Ei1].
    destruct ac; simpl in E'.
    - destruct (fold_value (kind (gr st) n) vs) as [v|] eqn:Efv; [|discriminate].
      injection E' as <- <- <-.
      set (st2 := new_node st1 (KConst v) []).
      pose proof (new_node_sub st1 (KConst v) []) as HS2.
      assert (HI2 : finv st2) by (apply new_node_inv; auto; intros i []).
      assert (HR2 : rel st2 (ins (gr st) n) cs vs true bn) by exact (rel_mono st1 st2 _ _ _ _ _ HI1 HS2 HR1).
      assert (HG2 : good st2 n (next st1) true).
      { apply (good_folded st2 n (ins (gr st) n) cs vs bn (next st1) v (f_leaves _ HI2) Hop (eq_sym Ei) HR2).
        - now rewrite <- Ek.
        - simpl. lia.
        - simpl. now rewrite Nat.eqb_refl. }
      assert (HS : sub st (add_const st2 (if alias then next st1 else n) (next st1))).
      { eapply sub_trans; [exact HS1|]. eapply sub_trans; [exact HS2|]. split; auto. }
      split; [|split; auto].
      + destruct alias; [apply add_const_fresh; auto; apply (f_n0 _ HI1)|apply add_const_inv; auto].
      + eapply good_mono; [apply (f_closed _ HI2)|split; auto|exact HG2].
    - destruct bn; simpl in E'.
      + injection E' as <- <- <-.
        set (st2 := new_node st1 (kind (gr st) n) cs).
        pose proof (new_node_sub st1 (kind (gr st) n) cs) as HS2.
        destruct (rel_in _ _ _ _ _ _ HR1) as (A & _ & _ & _).
        assert (HI2 : finv st2).
        { apply new_node_inv; auto.
          - intros i Hi. destruct (A i Hi) as (k' & b' & _ & G). apply (g_lt _ _ _ _ G).
          - rewrite Ek. unfold is_operator in Hop. destruct (kind g0 n); tauto. }
        assert (HR2 : rel st2 (ins (gr st) n) cs vs false true) by exact (rel_mono st1 st2 _ _ _ _ _ HI1 HS2 HR1).
        assert (HG2 : good st2 n (next st1) false).
        { apply (good_op st2 n (ins (gr st) n) cs vs true (next st1) Hl0 Hn Hop (eq_sym Ei) HR2).
          - simpl. lia.
          - simpl. now rewrite Nat.eqb_refl, Ek.
          - simpl. now rewrite Nat.eqb_refl. }
        assert (HS : sub st (add_nonconst st2 (if alias then next st1 else n) (next st1))).
        { eapply sub_trans; [exact HS1|]. eapply sub_trans; [exact HS2|]. split; auto. }
        split; [|split; auto].
        * destruct alias; [apply add_nonconst_fresh; auto; apply (f_n0 _ HI1)|apply add_nonconst_inv; auto].
        * eapply good_mono; [apply (f_closed _ HI2)|split; auto|exact HG2].
      + injection E' as <- <- <-.
        destruct (rel_in _ _ _ _ _ _ HR1) as (_ & _ & C & _). specialize (C eq_refl). subst cs.
        assert (HG : good st1 n n false).
        { apply (good_op st1 n (ins (gr st) n) (ins (gr st) n) vs false n Hl0 Hn Hop (eq_sym Ei) HR1).
          - pose proof (f_n0 _ HI1). lia.
          - congruence.
          - congruence. }
        split; [now apply add_nonconst_inv|]. split.
        * eapply sub_trans; [exact HS1|]. split; auto.
        * eapply good_mono; [apply (f_closed _ HI1)|split; auto|exact HG]. }
  rewrite Ek in *. unfold is_operator in Hgen.
  destruct (kind g0 n) eqn:Hk0; try discriminate; try (apply Hgen; [exact I|exact E]).
  - injection E as <- <- <-.
    pose proof (good_param st n Hl0 HI Hn Hk0) as HG.
    split; [now apply add_nonconst_inv|]. split; [split; auto|].
    eapply good_mono; [apply (f_closed _ HI)|split; auto|exact HG].
  - injection E as <- <- <-.
    pose proof (good_constant st n v Hl0 HI Hn Hk0) as HG.
    split; [now apply add_const_inv|]. split; [split; auto|].
    eapply good_mono; [apply (f_closed _ HI)|split; auto|exact HG].
Qed.

(** ** all outputs *)
Inductive outs_good (st : fstate) : list node -> list node -> Prop :=
| og_nil : outs_good st [] []
| og_snoc ks cs k c isc : outs_good st ks cs -> good st k c isc -> outs_good st (ks ++ [k]) (cs ++ [c]).

Lemma outs_good_mono st st' ks cs : finv st -> sub st st' -> outs_good st ks cs -> outs_good st' ks cs.
Proof.
  intros HI HS H. induction H as [|ks cs k c isc H IH G]; [constructor|].
  apply (og_snoc st' ks cs k c isc IH). exact (good_mono st st' k c isc (f_closed _ HI) HS G).
Qed.

Lemma run_const_nodes_spec : leaves_ok g0 -> forall fuel nodes ks st acc outs st',
  (forall n, In n nodes -> n < n0) -> finv st -> outs_good st ks acc ->
  run_const_nodes packV oprun supported bench fuel nodes st acc = FOk (outs, st') ->
  finv st' /\ outs_good st' (ks ++ nodes) outs.
Proof.
  intros Hl0 fuel. induction nodes as [|n nodes IH]; intros ks st acc outs st' Hlt HI HO E; simpl in E.
  - injection E as <- <-. rewrite app_nil_r. auto.
  - destruct (rcn fuel true n st) as [[[c isc] st1]| |] eqn:Er; try discriminate.
    destruct (run_const_node_spec Hl0 fuel true n (Hlt n (or_introl eq_refl)) _ _ _ _ HI Er) as (HI1 & HS1 & HG).
    destruct (IH (ks ++ [n]) st1 (acc ++ [c]) outs st') as (A & B); auto.
    + intros; apply Hlt; now right.
    + apply (og_snoc st1 ks acc n c isc); [exact (outs_good_mono st st1 _ _ HI HS1 HO)|exact HG].
    + rewrite <- app_assoc in B. auto.
Qed.

Lemma init_finv : acyclic g0 -> leaves_ok g0 -> finv (mkF g0 n0 [] []).
Proof. intros. constructor; simpl; auto; discriminate. Qed.

(** ** termination: the recursion depth is bounded by the rank *)
Lemma fold_inputs_fuel rec : forall is st vs cs ac bn,
  (forall k st, In k is -> finv st -> rec k st <> FFuel) ->
  (forall k, In k is -> rec_ok rec k) -> finv st ->
  fold_inputs rec is st vs cs ac bn <> FFuel.
Proof.
  induction is as [|k is IH]; intros st vs cs ac bn H H2 HI; simpl; [discriminate|].
  pose proof (H k st (or_introl eq_refl) HI).
  destruct (rec k st) as [[[c isc] st1]| |] eqn:E; try congruence.
  destruct (H2 k (or_introl eq_refl) _ _ _ _ HI E) as (HI1 & _ & _).
  destruct isc; [destruct (const_value (gr st1) c); [|discriminate]|];
    apply IH; auto; intros; try apply H; try apply H2; auto; now right.
Qed.

Lemma run_const_node_fuel rank : leaves_ok g0 -> (forall n m, In m (ins g0 n) -> rank m < rank n) ->
  forall fuel alias n st, finv st -> n < n0 -> rank n < fuel -> rcn fuel alias n st <> FFuel.
Proof.
  intros Hl0 HR. induction fuel as [|fuel IH]; intros alias n st HI Hn Hf; [lia|]. simpl.
  destruct (lookup (rnonconst st) n); [discriminate|].
  destruct (lookup (rconst st) n); [discriminate|].
  destruct (f_same _ HI n Hn) as [Ek Ei]. rewrite Ek, Ei.
  assert (Hfi : fold_inputs (rcn fuel false) (ins g0 n) st [] [] true false <> FFuel).
  { apply fold_inputs_fuel; auto.
    - intros k st' Hk HI'. pose proof (HR _ _ Hk). pose proof (Hfresh _ _ Hk). apply IH; auto; lia.
    - intros k Hk. pose proof (Hfresh _ _ Hk). apply run_const_node_spec; auto; lia. }
  destruct (kind g0 n) eqn:Hk; try discriminate;
    (destruct (fold_inputs _ _ _ _ _ _ _) as [[[[[vs cs] ac] bn] st1]| |]; try discriminate; try tauto;
     destruct ac; simpl; [|destruct bn; discriminate]; 
     match goal with |- match ?x with _ => _ end <> _ => destruct x; discriminate | _ => discriminate end).
Qed.

Lemma run_const_nodes_fuel rank : leaves_ok g0 -> (forall n m, In m (ins g0 n) -> rank m < rank n) ->
  forall fuel nodes st acc, finv st -> (forall n, In n nodes -> n < n0 /\ rank n < fuel) ->
  run_const_nodes packV oprun supported bench fuel nodes st acc <> FFuel.
Proof.
  intros Hl0 HR fuel. induction nodes as [|n nodes IH]; intros st acc HI Hn; simpl; [discriminate|].
  destruct (Hn n (or_introl eq_refl)) as [Hlt Hrk].
  pose proof (run_const_node_fuel rank Hl0 HR fuel true n st HI Hlt Hrk).
  destruct (rcn fuel true n st) as [[[c isc] st1]| |] eqn:E; try congruence.
  destruct (run_const_node_spec Hl0 fuel true n Hlt _ _ _ _ HI E) as (HI1 & _ & _).
  apply IH; auto. intros; apply Hn; now right.
Qed.
End ConstFoldProofs.
