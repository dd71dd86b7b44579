(** Proofs about the translator: sound rules preserve meaning. *)
From Coq Require Import List ZArith Bool Lia Arith.
From Verif Require Import StackModel GraphSpec GraphModel CompilerSpec TransModel TransSpec
  GraphProofs ConstFoldProofs.
Import ListNotations.

(** ** Reachability *)
Section Reach.
Context {V Opr : Type}.
Notation graph := (graph V Opr).

Fixpoint reachb (f : nat) (g : graph) (a b : node) : bool :=
  Nat.eqb a b ||
  match f with O => false | S f' => existsb (fun m => reachb f' g m b) (ins g a) end.

Lemma reachb_reach f g : forall a b, reachb f g a b = true -> reach g a b.
Proof.
  induction f as [|f IH]; intros a b; cbn [reachb]; rewrite orb_true_iff.
  - intros [H|H]; [|discriminate]. apply Nat.eqb_eq in H. subst. constructor.
  - intros [H|H]; [apply Nat.eqb_eq in H; subst; constructor|].
    apply existsb_exists in H. destruct H as (m & Hm & H). econstructor; eauto.
Qed.

Lemma reach_reachb g (rank : node -> nat) (HR : forall n m, In m (ins g n) -> rank m < rank n) a b :
  reach g a b -> forall f, rank a <= f -> reachb f g a b = true.
Proof.
  induction 1 as [n|a m b Hm _ IH]; intros f Hf.
  - destruct f; cbn [reachb]; rewrite Nat.eqb_refl; auto.
  - pose proof (HR _ _ Hm). destruct f as [|f]; [lia|]. cbn [reachb].
    apply orb_true_iff. right. apply existsb_exists. exists m. split; auto. apply IH. lia.
Qed.

Lemma in_lsum (rank : node -> nat) is m : In m is -> rank m <= lsum (map rank is).
Proof.
  induction is as [|x l IH]; intros H; [destruct H|]. simpl.
  destruct H as [->|H]; [lia|]. specialize (IH H). lia.
Qed.

Lemma relink_acyclic (g : graph) t cs :
  acyclic g -> (forall c, In c cs -> ~ reach g c t) ->
  acyclic {| kind := kind g; ins := fun n => if Nat.eqb n t then cs else ins g n |}.
Proof.
  intros [rank HR] HC.
  pose (rb := fun m => reachb (rank m) g m t).
  assert (RB : forall m, rb m = true <-> reach g m t).
  { intros m. split; [apply reachb_reach|]. intros H. eapply reach_reachb; eauto. }
  exists (fun m => if rb m then rank m + S (lsum (map rank cs)) else rank m).
  intros n m. cbn [ins]. destruct (Nat.eqb_spec n t) as [->|Hn]; intros Hm.
  - assert (rb t = true) as -> by (apply RB; constructor).
    destruct (rb m) eqn:E; [exfalso; eapply HC; eauto; now apply RB|].
    pose proof (in_lsum rank cs m Hm). lia.
  - pose proof (HR _ _ Hm). destruct (rb m) eqn:E.
    + assert (rb n = true) as ->; [|lia]. apply RB. econstructor; eauto. now apply RB.
    + destruct (rb n); lia.
Qed.

Lemma acyclic_not_reach (g : graph) n i : acyclic g -> In i (ins g n) -> ~ reach g i n.
Proof.
  intros [rank HR] Hi H. pose proof (HR _ _ Hi).
  enough (rank n <= rank i) by lia. clear Hi H0.
  induction H as [|a m b Hm _ IH]; [lia|]. pose proof (HR _ _ Hm). lia.
Qed.
End Reach.

Section TransProofs.
Context {V Opr : Type}.
Variable packV : list V -> V.
Variable fieldV : V -> Z -> option V.
Variable oprun : Opr -> list V -> opres V.
Notation graph := (graph V Opr).
Notation gstate := (gstate V Opr).
Notation tstate := (tstate V Opr).
Notation rule := (rule V Opr).
Notation den := (den packV fieldV oprun).
Notation dens := (dens packV fieldV oprun).
Notation sound := (sound packV fieldV oprun).

(** Values depend only on the part of the graph below a node. *)
Lemma den_on (P : node -> Prop) (g g' : graph) env n v :
  (forall m, P m -> kind g' m = kind g m /\ ins g' m = ins g m) ->
  (forall m i, P m -> In i (ins g m) -> P i) ->
  P n -> den g env n v -> den g' env n v.
Proof.
  intros A B Hn H. revert Hn.
  refine (den_mind V Opr packV fieldV oprun g env
    (fun n v _ => P n -> den g' env n v)
    (fun ns vs _ => (forall n, In n ns -> P n) -> dens g' env ns vs) _ _ _ _ _ n v H).
  - intros m w Hk He Hm. apply den_param; auto. destruct (A m Hm) as [-> _]. auto.
  - intros m w Hk Hm. apply den_const. destruct (A m Hm) as [-> _]. auto.
  - intros m vs w Hk D IH Hv Hm. destruct (A m Hm) as [E1 E2].
    eapply den_op; [now rewrite E1| |now rewrite E1; exact Hv].
    rewrite E2. apply IH. intros i Hi. eauto.
  - intros _. constructor.
  - intros m ms w ws D IH Ds IHs Hin. constructor.
    + apply IH. apply Hin. now left.
    + apply IHs. intros; apply Hin; now right.
Qed.

Lemma den_on_iff (P : node -> Prop) (g g' : graph) env n v :
  (forall m, P m -> kind g' m = kind g m /\ ins g' m = ins g m) ->
  (forall m i, P m -> In i (ins g m) -> P i) ->
  P n -> den g env n v <-> den g' env n v.
Proof.
  intros A B Hn. split; apply (den_on P); auto.
  - intros m Hm. destruct (A m Hm). auto.
  - intros m i Hm. destruct (A m Hm) as [_ ->]. eauto.
Qed.

Lemma reach_on (P : node -> Prop) (g g' : graph) a b :
  (forall m, P m -> ins g' m = ins g m) ->
  (forall m i, P m -> In i (ins g m) -> P i) ->
  P a -> reach g a b -> reach g' a b /\ P b.
Proof.
  intros A B Ha H. induction H as [n|a m b Hm _ IH]; [split; auto; constructor|].
  destruct IH as [IH Hb]; [eauto|]. split; auto. econstructor; [|exact IH]. rewrite A; auto.
Qed.

Lemma reach_on_inv (P : node -> Prop) (g g' : graph) a b :
  (forall m, P m -> ins g' m = ins g m) ->
  (forall m i, P m -> In i (ins g m) -> P i) ->
  P a -> reach g' a b -> reach g a b /\ P b.
Proof.
  intros A B Ha H. apply (reach_on P g' g); auto.
  - intros m Hm. symmetry. auto.
  - intros m i Hm. rewrite A; auto. apply B; auto.
Qed.

(** ** Extension *)
Lemma ext_refl s : extends (V:=V) (Opr:=Opr) s s.
Proof. split; auto. Qed.
Lemma ext_trans (a b c : gstate) : extends a b -> extends b c -> extends a c.
Proof.
  intros [A1 A2] [B1 B2]. split; [lia|]. intros n Hn.
  destruct (A2 n Hn) as [E1 E2]. destruct (B2 n ltac:(lia)) as [E3 E4]. split; congruence.
Qed.

Lemma ext_den (s s' : gstate) env n v : closed s -> extends s s' -> n < gn s ->
  den (gg s) env n v <-> den (gg s') env n v.
Proof.
  intros C [_ E] Hn. apply (den_on_iff (fun m => m < gn s)); auto.
  intros m i _ Hi. now apply C in Hi.
Qed.

Lemma ext_reach (s s' : gstate) n m : closed s -> extends s s' -> n < gn s ->
  reach (gg s') n m -> reach (gg s) n m /\ m < gn s.
Proof.
  intros C [_ E] Hn. apply (reach_on_inv (fun m => m < gn s)); auto.
  - intros k Hk. now destruct (E k Hk).
  - intros k i _ Hi. now apply C in Hi.
Qed.
Lemma ext_reach' (s s' : gstate) n m : closed s -> extends s s' -> n < gn s ->
  reach (gg s) n m -> reach (gg s') n m /\ m < gn s.
Proof.
  intros C [_ E] Hn. apply (reach_on (fun m => m < gn s)); auto.
  - intros k Hk. now destruct (E k Hk).
  - intros k i _ Hi. now apply C in Hi.
Qed.

(** ** Several rules *)
Record rules_post (s : gstate) (n : node) (t : node) (s' : gstate) : Prop := {
  rp_ext : extends s s';
  rp_closed : closed s';
  rp_acyc : acyclic (gg s');
  rp_local : forall m i, gn s <= m -> In i (ins (gg s') m) -> gn s <= i \/ reach (gg s) n i;
  rp_params : forall m, gn s <= m < gn s' -> kind (gg s') m = KParam ->
     kind (gg s) n = KParam /\ ins (gg s') m = [];
  rp_t : t = n \/ gn s <= t < gn s';
  rp_kind : kind (gg s) n = KParam -> kind (gg s') t = KParam;
  rp_den : kind (gg s) n <> KParam -> forall env v, den (gg s') env t v <-> den (gg s') env n v
}.

Lemma rules_post_refl s n : closed s -> acyclic (gg s) -> n < gn s -> rules_post s n n s.
Proof.
  intros C A Hn. constructor; auto.
  - apply ext_refl.
  - intros m i Hm Hi. apply C in Hi. lia.
  - intros; lia.
  - tauto.
Qed.

Lemma rule_step (r : rule) s0 s n flag cur applies t s' :
  sound r -> closed s0 -> acyclic (gg s0) -> n < gn s0 ->
  rules_post s0 n cur s -> r s n flag = (applies, t, s') ->
  rules_post s0 n (match t with Some x => x | None => cur end) s'.
Proof.
  intros HS C0 A0 Hn [R1 R2 R3 R4 R5 R6 R7 R8] E.
  assert (Hns : n < gn s) by (destruct R1; lia).
  destruct (HS s n flag applies t s' R2 R3 Hns E) as (X1 & X2 & X3 & X4 & X5 & X6).
  assert (Kn : kind (gg s) n = kind (gg s0) n) by (destruct R1 as [_ R1]; now destruct (R1 n Hn)).
  assert (X16 := X1). destruct X16 as [XL XE].
  assert (R16 := R1). destruct R16 as [RL RE].
  constructor; auto.
  - eapply ext_trans; eauto.
  - intros m i Hm Hi. destruct (Nat.lt_ge_cases m (gn s)) as [Hlt|Hge].
    + destruct (XE m Hlt) as [_ E2]. rewrite E2 in Hi. eauto.
    + destruct (X4 m i Hge Hi) as [H|H]; [lia|]. right.
      now destruct (ext_reach s0 s n i C0 R1 Hn H).
  - intros m Hm Hk. destruct (Nat.lt_ge_cases m (gn s)) as [Hlt|Hge].
    + destruct (XE m Hlt) as [E1 E2]. rewrite E1 in Hk. destruct (R5 m) as [? Hi]; [lia|auto|].
      split; congruence.
    + destruct (X5 m) as [? ?]; [lia|auto|]. split; [congruence|auto].
  - destruct t as [x|].
    + destruct (X6 x eq_refl) as (H & _). destruct H; [auto|right; lia].
    + destruct R6; [auto|right; lia].
  - intros Hk. destruct t as [x|].
    + destruct (X6 x eq_refl) as (_ & H & _). apply H. congruence.
    + rewrite <- (R7 Hk). destruct (XE cur); [destruct R6; lia|auto].
  - intros Hk env v. destruct t as [x|].
    + destruct (X6 x eq_refl) as (_ & _ & H). apply H. congruence.
    + rewrite <- (ext_den s s' env cur v), <- (ext_den s s' env n v); auto.
      destruct R6; lia.
Qed.

Lemma try_rules_spec rs : Forall sound rs -> forall s0 s n flag cur t s',
  closed s0 -> acyclic (gg s0) -> n < gn s0 ->
  rules_post s0 n cur s -> try_rules rs s n flag cur = (t, s') -> rules_post s0 n t s'.
Proof.
  induction 1 as [|r rs Hr _ IH]; intros s0 s n flag cur t s' C A Hn RP E; cbn [try_rules] in E.
  - now injection E as <- <-.
  - destruct (r s n flag) as [[applies x] s1] eqn:Er.
    pose proof (rule_step r s0 s n flag cur applies x s1 Hr C A Hn RP Er) as RP1.
    destruct applies; [now injection E as <- <-|]. eauto.
Qed.

(** ** The invariant of the translation *)
Definition compat (st : tstate) (env env' : node -> option V) : Prop :=
  forall p p', lookup (ready st) p = Some p' -> kind (gg (tg st)) p = KParam -> env' p' = env p.

Definition transl (st : tstate) (n c : node) : Prop :=
  forall env env', compat st env env' -> forall v, den (gg (tg st)) env n v <-> den (gg (tg st)) env' c v.

Definition params_from (st : tstate) (n c : node) : Prop :=
  forall m, reach (gg (tg st)) c m -> kind (gg (tg st)) m = KParam ->
  exists p, reach (gg (tg st)) n p /\ kind (gg (tg st)) p = KParam /\ lookup (ready st) p = Some m.

Record res (st : tstate) (n c : node) : Prop := {
  r_lt : n < gn (tg st) /\ c < gn (tg st);
  r_den : transl st n c;
  r_params : params_from st n c;
  r_param : kind (gg (tg st)) n = KParam ->
    kind (gg (tg st)) c = KParam /\ lookup (ready st) n = Some c
}.

Record tinv (st : tstate) : Prop := {
  i_closed : closed (tg st);
  i_acyc : acyclic (gg (tg st));
  i_plain : plain_params (gg (tg st));
  i_ready : forall k c, lookup (ready st) k = Some c -> res st k c;
  i_inj : forall k k' c, lookup (ready st) k = Some c -> lookup (ready st) k' = Some c -> k = k'
}.

Record step (R : node -> Prop) (st st' : tstate) : Prop := {
  s_ext : extends (tg st) (tg st');
  s_mono : forall k c, lookup (ready st) k = Some c -> lookup (ready st') k = Some c;
  s_new : forall k c, lookup (ready st') k = Some c -> lookup (ready st) k = None ->
    (gn (tg st) <= k \/ R k) /\ gn (tg st) <= c;
  s_local : forall m i, gn (tg st) <= m -> In i (ins (gg (tg st')) m) ->
    gn (tg st) <= i \/ R i \/ exists k, lookup (ready st) k = Some i
}.

(** The result of translating is new or was already known. *)
Definition result (st : tstate) (c : node) : Prop :=
  gn (tg st) <= c \/ exists k, lookup (ready st) k = Some c.

Lemma step_refl R st : closed (tg st) -> step R st st.
Proof.
  intros C. constructor; auto.
  - apply ext_refl.
  - intros k c E1 E2. congruence.
  - intros m i Hm Hi. apply C in Hi. lia.
Qed.

Lemma step_trans (R R' R'' : node -> Prop) a b c :
  step R a b -> step R' b c ->
  (forall x, R x -> R'' x) -> (forall x, R' x -> R'' x \/ gn (tg a) <= x) -> step R'' a c.
Proof.
  intros [A1 A2 A3 A4] [B1 B2 B3 B4] H1 H2.
  assert (A1' := A1). destruct A1' as [AL AE]. assert (B1' := B1). destruct B1' as [BL BE].
  constructor.
  - eapply ext_trans; eauto.
  - auto.
  - intros k x E N. destruct (lookup (ready b) k) as [y|] eqn:Eb.
    + pose proof (B2 _ _ Eb). assert (y = x) by congruence. subst.
      destruct (A3 _ _ Eb N) as [[?|?] ?]; auto.
    + destruct (B3 _ _ E Eb) as [[?|HR] ?]; [split; [left|]; lia|].
      split; [|lia]. apply H2 in HR. tauto.
  - intros m i Hm Hi. destruct (Nat.lt_ge_cases m (gn (tg b))) as [Hlt|Hge].
    + destruct (BE m Hlt) as [_ E]. rewrite E in Hi. destruct (A4 m i Hm Hi) as [?|[?|?]]; auto.
    + destruct (B4 m i Hge Hi) as [?|[HR|(k & Ek)]]; [left; lia|apply H2 in HR; tauto|].
      destruct (lookup (ready a) k) as [y|] eqn:Ea.
      * pose proof (A2 _ _ Ea). assert (y = i) by congruence. subst. right. right. eauto.
      * left. now destruct (A3 _ _ Ek Ea).
Qed.

Lemma step_weaken (R R' : node -> Prop) a b : step R a b -> (forall x, R x -> R' x) -> step R' a b.
Proof.
  intros [A1 A2 A3 A4] H. constructor; auto.
  - intros k c E N. destruct (A3 k c E N) as [[?|?] ?]; auto.
  - intros m i Hm Hi. destruct (A4 m i Hm Hi) as [?|[?|?]]; auto.
Qed.

Lemma compat_mono st st' env env' :
  (forall k c, lookup (ready st) k = Some c -> k < gn (tg st)) ->
  extends (tg st) (tg st') ->
  (forall k c, lookup (ready st) k = Some c -> lookup (ready st') k = Some c) ->
  compat st' env env' -> compat st env env'.
Proof.
  intros B [_ E] M C p p' L K. apply C; [auto|]. destruct (E p (B _ _ L)) as [-> _]. auto.
Qed.

Lemma res_mono_gen st st' n c :
  closed (tg st) ->
  (forall k c, lookup (ready st) k = Some c -> k < gn (tg st)) ->
  extends (tg st) (tg st') ->
  (forall k c, lookup (ready st) k = Some c -> lookup (ready st') k = Some c) ->
  res st n c -> res st' n c.
Proof.
  intros C B E M [[R1 R2] R3 R4 R5]. assert (E' := E). destruct E' as [EL EE].
  constructor.
  - lia.
  - intros env env' HC v. rewrite <- (ext_den _ _ env n v C E R1), <- (ext_den _ _ env' c v C E R2).
    apply R3. eapply compat_mono; eauto.
  - intros m Hm Hk. destruct (ext_reach _ _ _ _ C E R2 Hm) as [Hm' Hlt].
    destruct (EE m Hlt) as [Ek _]. rewrite Ek in Hk.
    destruct (R4 m Hm' Hk) as (p & P1 & P2 & P3). exists p.
    destruct (ext_reach' _ _ _ _ C E R1 P1) as [P1' Pl]. split; [auto|].
    destruct (EE p Pl) as [-> _]. auto.
  - destruct (EE n R1) as [-> _]. destruct (EE c R2) as [-> _]. intros Hk.
    destruct (R5 Hk). auto.
Qed.

Lemma res_mono R st st' n c : tinv st -> step R st st' -> res st n c -> res st' n c.
Proof.
  intros I [S1 S2 _ _]. apply res_mono_gen; auto; [apply (i_closed _ I)|].
  intros k x L. now destruct (r_lt _ _ _ (i_ready _ I _ _ L)).
Qed.

Definition rec_ok (rec : node -> tstate -> tres (node * tstate)) : Prop :=
  forall n st c st', tinv st -> n < gn (tg st) -> rec n st = TOk (c, st') ->
  tinv st' /\ step (reach (gg (tg st)) n) st st' /\ res st' n c /\ result st c.

Lemma translate_list_spec rec : rec_ok rec -> forall is st cs st',
  tinv st -> (forall i, In i is -> i < gn (tg st)) -> translate_list rec is st = TOk (cs, st') ->
  tinv st' /\ step (fun x => exists i, In i is /\ reach (gg (tg st)) i x) st st' /\
  Forall2 (res st') is cs /\ Forall (result st) cs.
Proof.
  intros HR. induction is as [|i is IH]; intros st cs st' I B E; cbn [translate_list] in E.
  - injection E as <- <-. split; [auto|]. split; [apply step_refl, (i_closed _ I)|]. split; constructor.
  - destruct (rec i st) as [[c st1]|] eqn:E1; [|discriminate].
    destruct (translate_list rec is st1) as [[cs' st2]|] eqn:E2; [|discriminate].
    injection E as <- <-.
    destruct (HR i st c st1 I (B i (or_introl eq_refl)) E1) as (I1 & S1 & R1 & Q1).
    assert (L1 : gn (tg st) <= gn (tg st1)) by (destruct S1 as [[? _] _ _ _]; lia).
    destruct (IH st1 cs' st2 I1) as (I2 & S2 & R2 & Q2); [|exact E2|].
    { intros k Hk. specialize (B k (or_intror Hk)). lia. }
    split; [auto|]. split; [|split].
    + eapply step_trans; [exact S1|exact S2| |]; cbn beta.
      * intros x Hx. exists i. split; [now left|auto].
      * intros x (k & Hk & Hx). left. exists k. split; [now right|].
        destruct S1 as [S1 _ _ _].
        destruct (ext_reach _ _ _ _ (i_closed _ I) S1 (B k (or_intror Hk)) Hx). auto.
    + constructor; [exact (res_mono _ st1 st2 i c I1 S2 R1)|exact R2].
    + constructor; auto. eapply Forall_impl; [|exact Q2]. intros x [Hx|(k & Hk)].
      * left. lia.
      * destruct (lookup (ready st) k) as [y|] eqn:Ey.
        -- pose proof (s_mono _ _ _ S1 _ _ Ey). assert (y = x) by congruence. subst. right. eauto.
        -- left. now destruct (s_new _ _ _ S1 _ _ Hk Ey).
Qed.

(** Translated inputs carry the values over. *)
Lemma res_dens st is cs env env' : Forall2 (res st) is cs -> compat st env env' ->
  forall vs, dens (gg (tg st)) env is vs <-> dens (gg (tg st)) env' cs vs.
Proof.
  intros H C. induction H as [|i c is cs Hr _ IH]; intros vs.
  - split; inversion 1; constructor.
  - split; intros D; inversion D; subst; constructor; try (now apply IH);
      eapply (r_den _ _ _ Hr); eauto.
Qed.

Lemma dens_on (P : node -> Prop) (g g' : graph) env :
  (forall m, P m -> kind g' m = kind g m /\ ins g' m = ins g m) ->
  (forall m i, P m -> In i (ins g m) -> P i) ->
  forall ns vs, (forall n, In n ns -> P n) -> dens g env ns vs -> dens g' env ns vs.
Proof.
  intros A B. induction ns as [|n ns IH]; intros vs Hn D; inversion D; subst; constructor.
  - eapply (den_on P); eauto. apply Hn. now left.
  - apply IH; auto. intros m Hm. apply Hn. now right.
Qed.

(** The values of a node, one step. *)
Lemma den_unfold (g : graph) env n v :
  den g env n v <->
  match kind g n with
  | KParam => env n = Some v
  | KConst w => v = w
  | KVariable => False
  | k => exists vs, dens g env (ins g n) vs /\ node_value packV fieldV oprun k vs = Some v
  end.
Proof.
  split.
  - intros D. inversion D as [m w K E|m w K|m vs w K Ds Nv]; subst; rewrite ?K; auto.
    destruct (kind g n); try destruct K; eauto.
  - intros H. destruct (kind g n) eqn:K.
    + now apply den_param.
    + subst. now apply den_const.
    + destruct H.
    + destruct H as (vs & Ds & Nv). eapply den_op; [now rewrite K|exact Ds|now rewrite K].
    + destruct H as (vs & Ds & Nv). eapply den_op; [now rewrite K|exact Ds|now rewrite K].
    + destruct H as (vs & Ds & Nv). eapply den_op; [now rewrite K|exact Ds|now rewrite K].
Qed.

(** ** Finishing one node: the new node [c] gets the inputs [cs]. *)
Lemma lookup_insert m k c k' : lookup (insert_new m k c) k' =
  match lookup m k with Some _ => lookup m k' | None => if Nat.eqb k' k then Some c else lookup m k' end.
Proof. unfold insert_new. destruct (lookup m k); auto. Qed.

Lemma finish (st1 st2 : tstate) (n c t : node) (s3 : gstate) cs (P : node -> Prop) :
  (* the source [t] of the copy, in the graph of st2 *)
  tinv st2 ->
  Forall2 (res st2) (ins (gg (tg st1)) t) cs ->
  n < gn (tg st2) -> t < gn (tg st2) ->
  ins (gg (tg st2)) t = ins (gg (tg st1)) t ->
  (* the set that does not see [c] *)
  (forall m, P m -> kind (gg s3) m = kind (gg (tg st2)) m /\ ins (gg s3) m = ins (gg (tg st2)) m) ->
  (forall m i, P m -> In i (ins (gg (tg st2)) m) -> P i) ->
  (forall k x, lookup (ready st2) k = Some x -> P k /\ P x) ->
  P n -> (forall x, In x cs -> P x) -> (forall x, In x (ins (gg (tg st1)) t) -> P x) ->
  (forall k, lookup (ready st2) k <> Some c) ->
  (* the graph after *)
  closed s3 -> acyclic (gg s3) -> plain_params (gg s3) -> gn (tg st2) <= gn s3 -> c < gn s3 ->
  (forall m, m < gn (tg st2) -> kind (gg s3) m = kind (gg (tg st2)) m) ->
  kind (gg s3) c = kind (gg (tg st2)) t -> ins (gg s3) c = cs ->
  (* what [t] is to [n] *)
  (kind (gg (tg st2)) n <> KParam -> forall env v, den (gg (tg st2)) env t v <-> den (gg (tg st2)) env n v) ->
  (kind (gg (tg st2)) n = KParam <-> kind (gg (tg st2)) t = KParam) ->
  (forall m, reach (gg (tg st2)) t m -> kind (gg (tg st2)) m = KParam -> kind (gg (tg st2)) n <> KParam ->
     reach (gg (tg st2)) n m) ->
  (kind (gg (tg st2)) n = KParam -> lookup (ready st2) n = None) ->
  tinv (mkT s3 (insert_new (ready st2) n c)) /\ res (mkT s3 (insert_new (ready st2) n c)) n c.
Proof.
  intros I F Hn Ht Et PA PB PR Pn Pcs Pis Pc C3 A3 PP3 L3 Lc KK Kc Ic TD TK TR TN.
  assert (LB : forall k x, lookup (ready st2) k = Some x -> k < gn (tg st2) /\ x < gn (tg st2))
    by (intros k x L; apply (r_lt _ _ _ (i_ready _ I _ _ L))).
  set (st3 := mkT s3 (insert_new (ready st2) n c)).
  assert (MONO : forall k x, lookup (ready st2) k = Some x -> lookup (ready st3) k = Some x).
  { intros k x L. subst st3. cbn [ready]. rewrite lookup_insert.
    destruct (lookup (ready st2) n) eqn:En; auto. destruct (Nat.eqb_spec k n); [congruence|auto]. }
  assert (COMP : forall env env', compat st3 env env' -> compat st2 env env').
  { intros env env' HC p p' L K. apply HC; [auto|]. cbn [st3 tg]. rewrite KK; auto. now apply LB in L. }
  assert (DEN : forall env m v, P m -> den (gg (tg st2)) env m v <-> den (gg s3) env m v).
  { intros env m v Pm. apply (den_on_iff P); auto. }
  assert (REACH : forall a b, P a -> reach (gg s3) a b -> reach (gg (tg st2)) a b /\ P b).
  { intros a b Pa. apply (reach_on_inv P); auto. intros m Pm. now destruct (PA m Pm). }
  assert (REACH' : forall a b, P a -> reach (gg (tg st2)) a b -> reach (gg s3) a b /\ P b).
  { intros a b Pa. apply (reach_on P); auto. intros m Pm. now destruct (PA m Pm). }
  assert (OLD : forall k x, P k -> P x -> res st2 k x -> res st3 k x).
  { intros k x Pk Px [[L1 L2] D PF PK]. constructor; cbn [st3 tg].
    - lia.
    - intros env env' HC v. cbn [st3 tg]. rewrite <- (DEN env k v Pk), <- (DEN env' x v Px).
      apply D. auto.
    - intros m Hm Hk. destruct (REACH _ _ Px Hm) as [Hm' Pm]. destruct (PA m Pm) as [Ek _].
      cbn [st3 tg] in Hk. rewrite Ek in Hk. destruct (PF m Hm' Hk) as (p & P1 & P2 & P3).
      exists p. cbn [st3 tg]. destruct (REACH' _ _ Pk P1) as [P1' Pp]. split; [auto|].
      destruct (PA p Pp) as [-> _]. auto.
    - destruct (PA k Pk) as [-> _]. destruct (PA x Px) as [-> _]. intros Hk.
      destruct (PK Hk). auto. }
  assert (NEW : res st3 n c).
  { constructor; cbn [st3 tg].
    - lia.
    - intros env env' HC v. cbn [st3 tg]. rewrite <- (DEN env n v Pn).
      destruct (kind (gg (tg st2)) n) eqn:Kn.
      { (* a parameter *)
        rewrite den_unfold, Kn, den_unfold, Kc. rewrite (proj1 TK eq_refl).
        rewrite (HC n c); [tauto| |].
        - subst st3. cbn [ready]. rewrite lookup_insert, TN, Nat.eqb_refl; auto.
        - cbn [st3 tg]. rewrite KK; auto. }
      all: rewrite <- (TD ltac:(discriminate) env v); cbn [st3 tg]; rewrite den_unfold, (den_unfold (gg s3)), Kc, Ic, Et.
      all: destruct (kind (gg (tg st2)) t) eqn:Kt; try tauto;
        try (exfalso; destruct TK as [_ TK]; specialize (TK eq_refl); congruence).
      all: assert (DS : forall vs, dens (gg (tg st2)) env (ins (gg (tg st1)) t) vs <-> dens (gg s3) env' cs vs)
        by (intros vs; rewrite (res_dens st2 _ _ env env' F (COMP _ _ HC)); split;
            [apply (dens_on P); auto
            |apply (dens_on P); auto;
             [intros m Pm; destruct (PA m Pm); auto|intros m i Pm; destruct (PA m Pm) as [_ ->]; eauto]]);
        split; intros (vs & Ds & Nv); exists vs; (split; [apply DS; exact Ds|exact Nv]).
    - intros m Hm Hk. cbn [st3 tg] in *.
      destruct (reach_cases _ _ _ Hm) as [->|(x & Hx & Hx')].
      + (* the node itself is a parameter *)
        rewrite Kc in Hk. apply TK in Hk. exists n. split; [constructor|]. split; [rewrite KK; auto|].
        subst st3. cbn [ready]. rewrite lookup_insert, TN, Nat.eqb_refl; auto.
      + rewrite Ic in Hx. destruct (REACH _ _ (Pcs x Hx) Hx') as [Hr Pm].
        destruct (PA m Pm) as [Ek _]. rewrite Ek in Hk.
        assert (exists i, In i (ins (gg (tg st1)) t) /\ res st2 i x) as (i & Hi & Ri).
        { clear - F Hx. induction F as [|i c is cs Hr _ IH]; [destruct Hx|].
          destruct Hx as [->|Hx]; [exists i; split; [now left|auto]|].
          destruct (IH Hx) as (j & ? & ?). exists j. split; [now right|auto]. }
        destruct (r_params _ _ _ Ri m Hr Hk) as (p & P1 & P2 & P3).
        assert (Kn : kind (gg (tg st2)) n <> KParam).
        { intros Kn. apply TK in Kn. pose proof (i_plain _ I _ Kn) as X. rewrite Et in X. rewrite X in Hi. destruct Hi. }
        assert (Rt : reach (gg (tg st2)) t p) by (econstructor; [rewrite Et; exact Hi|exact P1]).
        pose proof (TR p Rt P2 Kn) as Rn. exists p.
        destruct (REACH' _ _ Pn Rn) as [Rn' Pp]. split; [auto|].
        destruct (PA p Pp) as [-> _]. auto.
    - intros Kn. rewrite KK in Kn by auto. split; [rewrite Kc; now apply TK|].
      subst st3. cbn [ready]. rewrite lookup_insert, TN, Nat.eqb_refl; auto. }
  split; [|exact NEW]. constructor; cbn [st3 tg]; auto.
  - intros k x L. subst st3. cbn [ready] in L. rewrite lookup_insert in L.
    destruct (lookup (ready st2) n) eqn:En.
    + apply OLD; [apply (PR _ _ L)|apply (PR _ _ L)|apply (i_ready _ I _ _ L)].
    + destruct (Nat.eqb_spec k n) as [->|].
      * injection L as <-. exact NEW.
      * apply OLD; [apply (PR _ _ L)|apply (PR _ _ L)|apply (i_ready _ I _ _ L)].
  - intros k k' x. subst st3. cbn [ready]. rewrite !lookup_insert.
    destruct (lookup (ready st2) n) eqn:En; [apply (i_inj _ I)|].
    destruct (Nat.eqb_spec k n), (Nat.eqb_spec k' n); subst; auto.
    + intros E1 E2. injection E1 as <-. exfalso. eapply Pc; eauto.
    + intros E1 E2. injection E2 as <-. exfalso. eapply Pc; eauto.
    + apply (i_inj _ I).
Qed.
End TransProofs.
