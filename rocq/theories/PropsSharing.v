(** C52, the part that holds: constant folding keeps sharing when no output is
    asked for twice and none depends on an output asked for before it. *)
From Coq Require Import List ZArith Bool Lia Arith.
From Verif Require Import StackModel GraphSpec GraphModel IntimeModel ConstFoldModel CompilerModel PipelineModel CompilerSpec
  GraphProofs StackProofs IntimeProofs CompilerProofs CompilerProofs2 CompilerProofs3 ConstFoldProofs ConstFoldProofs2 PropsCompiler.
Import ListNotations.

Section Sharing.
Context {V Opr : Type}.
Variable packV : list V -> V.
Variable fieldV : V -> Z -> option V.
Variable oprun : Opr -> list V -> opres V.
Variable supported : Opr -> bool.
Variables blo bpre : list V.
Variable bbs : list nat.
Notation bench := (fs blo bpre bbs).
Notation graph := (graph V Opr).
Notation fstate := (fstate V Opr).
Notation rcn := (@run_const_node V Opr packV oprun supported bench).
Variable g0 : graph.
Variable n0 : node.
Hypothesis Hfresh : forall n i, In i (ins g0 n) -> n < n0 /\ i < n0.
Hypothesis Hac : acyclic g0.
Hypothesis Hleaf : leaves_ok g0.
Notation finv := (finv packV fieldV oprun g0 n0).
Notation spec := (run_const_node_spec packV fieldV oprun supported blo bpre bbs g0 n0 Hfresh Hleaf).

(** [own] pairs every node met so far that is not constant with the node that
    stands for it; [blocked] are the nodes whose entry the table lacks. *)
Record own_inv (own : list (node * node)) (blocked : node -> Prop) (st : fstate) : Prop := {
  o_keys : NoDup (map fst own);
  o_range : forall k c, In (k, c) own -> k < n0 /\ c < next st /\ (c < n0 -> c = k);
  o_inj : forall k k' c, In (k, c) own -> In (k', c) own -> k = k';
  o_kind : forall k c, In (k, c) own -> kind (gr st) c = kind g0 k /\ length (ins (gr st) c) = length (ins g0 k);
  o_closed : forall k c i, In (k, c) own -> In i (ins (gr st) c) ->
    (exists v, kind (gr st) i = KConst v) \/ exists k', In (k', i) own;
  o_memo : forall k c, In (k, c) own -> lookup (rnonconst st) k = Some c \/ blocked k;
  o_table : forall k c, k < n0 -> lookup (rnonconst st) k = Some c -> In (k, c) own
}.

Definition standing (own : list (node * node)) (st : fstate) (k c : node) (isc : bool) : Prop :=
  if isc then exists v, kind (gr st) c = KConst v else In (k, c) own.

Definition rec_own (rec : node -> fstate -> fres (node * bool * fstate)) (alias : bool) (n : node) : Prop :=
  forall own blocked st c isc st', finv st -> own_inv own blocked st -> (forall b, blocked b -> ~ reach g0 n b) ->
  rec n st = FOk (c, isc, st') ->
  exists new, own_inv (new ++ own) (fun b => blocked b \/ alias = true /\ b = n) st' /\
    (forall k' c', In (k', c') new -> reach g0 n k') /\ standing (new ++ own) st' n c isc.

Lemma own_ext own (b b' : node -> Prop) st : (forall k, b k -> b' k) -> own_inv own b st -> own_inv own b' st.
Proof. intros H [A B C D E F G]. constructor; auto. intros k c Hk. destruct (F k c Hk); auto. Qed.

Lemma inputs_own rec : forall is,
  (forall k, In k is -> k < n0 /\ rec_ok packV fieldV oprun g0 n0 rec k /\ rec_own rec false k) ->
  forall own blocked st vs cs ac bn vs' cs' ac' bn' st',
  finv st -> own_inv own blocked st -> (forall b k, blocked b -> In k is -> ~ reach g0 k b) ->
  fold_inputs rec is st vs cs ac bn = FOk (vs', cs', ac', bn', st') ->
  exists new, own_inv (new ++ own) blocked st' /\
    (forall k' c', In (k', c') new -> exists k, In k is /\ reach g0 k k') /\
    exists ds, cs' = cs ++ ds /\ forall d, In d ds -> (exists v, kind (gr st') d = KConst v) \/ exists k', In (k', d) (new ++ own).
Proof.
  induction is as [|k is IH]; intros Hrec own blocked st vs cs ac bn vs' cs' ac' bn' st' HI HO HB E; simpl in E.
  - injection E as <- <- <- <- <-. exists []. split; [exact HO|]. split; [intros ? ? []|]. exists []. split; [now rewrite app_nil_r|]. intros d [].
  - destruct (rec k st) as [[[c isc] st1]| |] eqn:Er; try discriminate.
    destruct (Hrec k (or_introl eq_refl)) as (Hk & Hok & Hown).
    destruct (Hok _ _ _ _ HI Er) as (HI1 & HS1 & HG).
    destruct (Hown own blocked st c isc st1 HI HO (fun b Hb => HB b k Hb (or_introl eq_refl)) Er) as (new1 & HO1 & HR1 & St1).
    assert (HO1' : own_inv (new1 ++ own) blocked st1).
    { apply own_ext with (2 := HO1). intros b [Hb|[Hb _]]; [exact Hb|discriminate]. }
    assert (Hrest : forall vs2 ac2 bn2,
      fold_inputs rec is st1 vs2 (cs ++ [c]) ac2 bn2 = FOk (vs', cs', ac', bn', st') ->
      exists new, own_inv (new ++ own) blocked st' /\
        (forall k' c', In (k', c') new -> exists k0, In k0 (k :: is) /\ reach g0 k0 k') /\
        exists ds, cs' = cs ++ ds /\ forall d, In d ds -> (exists v, kind (gr st') d = KConst v) \/ exists k', In (k', d) (new ++ own)).
    { intros vs2 ac2 bn2 E2.
      destruct (IH (fun k' H => Hrec k' (or_intror H)) (new1 ++ own) blocked st1 vs2 (cs ++ [c]) ac2 bn2 _ _ _ _ _ HI1 HO1'
        (fun b k' Hb H => HB b k' Hb (or_intror H)) E2) as (new2 & A & B & ds & C & D).
      assert (HS2 : sub st1 st').
      { clear -E2 HI1 Hrec. revert st1 vs2 cs c ac2 bn2 HI1 E2.
        assert (H : forall k, In k is -> rec_ok packV fieldV oprun g0 n0 rec k) by (intros; apply Hrec; now right). clear Hrec.
        induction is as [|j is IH]; intros st1 vs2 cs c ac2 bn2 HI1 E2; simpl in E2.
        - injection E2 as <- <- <- <- <-. apply sub_refl.
        - destruct (rec j st1) as [[[c2 i2] st2]| |] eqn:Er; try discriminate.
          destruct (H j (or_introl eq_refl) _ _ _ _ HI1 Er) as (HI2 & HS2 & _).
          apply sub_trans with (1 := HS2).
          destruct i2; [destruct (const_value (gr st2) c2); [|discriminate]|];
          (apply IH with (2 := HI2) (3 := E2); intros; apply H; now right). }
      exists (new2 ++ new1). rewrite <- app_assoc. split; [exact A|]. split.
      - intros k' c' Hin. apply in_app_iff in Hin. destruct Hin as [Hin|Hin].
        + destruct (B _ _ Hin) as (k0 & H0 & H1). exists k0. split; [now right|exact H1].
        + exists k. split; [now left|]. exact (HR1 _ _ Hin).
      - exists (c :: ds). split; [rewrite C, <- app_assoc; reflexivity|]. intros d [<-|Hd]; [|exact (D d Hd)].
        destruct isc; cbn [standing] in St1.
        + left. destruct St1 as [v Hv]. exists v. destruct HS2 as [_ HS2]. destruct (HS2 c (g_lt _ _ _ _ _ _ _ _ HG)) as [-> _]. exact Hv.
        + right. exists k. apply in_app_iff. right. exact St1. }
    destruct isc.
    + destruct (const_value (gr st1) c) eqn:Hkc; try discriminate. exact (Hrest _ _ _ E).
    + exact (Hrest _ _ _ E).
Qed.

Lemma rel_length st ks cs vs ac bn : rel packV fieldV oprun g0 st ks cs vs ac bn -> length cs = length ks.
Proof. induction 1; rewrite ?app_length; cbn; lia. Qed.

Lemma not_self n : ~ depends g0 n n.
Proof.
  destruct Hac as [rank HR]. intros (m & Hm & Hr).
  assert (H : forall a b, reach g0 a b -> rank b <= rank a).
  { clear -HR. induction 1 as [|a m b Hm _ IH]; [lia|]. specialize (HR _ _ Hm). lia. }
  specialize (H _ _ Hr). specialize (HR _ _ Hm). lia.
Qed.

(** a result that is not constant, put under [key], which is [n] or above all
    old nodes *)
Lemma add_own own blocked st1 st2 n c (alias : bool) key :
  own_inv own blocked st1 -> n < n0 -> ~ In n (map fst own) ->
  sub st1 st2 -> rnonconst st2 = (key, c) :: rnonconst st1 ->
  (key = n \/ n0 <= key /\ alias = true) ->
  c < next st2 -> (c < n0 -> c = n) -> (c = n \/ next st1 <= c) -> (forall k, In (k, n) own -> k = n) ->
  kind (gr st2) c = kind g0 n /\ length (ins (gr st2) c) = length (ins g0 n) ->
  (forall i, In i (ins (gr st2) c) -> (exists v, kind (gr st2) i = KConst v) \/ exists k', In (k', i) own) ->
  (forall k, In k (map snd own) -> k < next st1) ->
  (forall k c' i, In (k, c') own -> In i (ins (gr st1) c') -> i < next st1) ->
  own_inv ((n, c) :: own) (fun b => blocked b \/ alias = true /\ b = n) st2.
Proof.
  intros [A B C D E F G] Hn Hnew [S1 S2] Ht Hkey Hc Hc0 Hcn Hno Hk Hi Hv Hin. constructor.
  - cbn. now constructor.
  - intros k c' [H|H]; [injection H as <- <-; auto|]. destruct (B _ _ H) as (B1 & B2 & B3). split; [exact B1|]. split; [lia|exact B3].
  - intros k k' c' [H|H] [H'|H'].
    + congruence.
    + injection H as <- <-. destruct Hcn as [->|Hcn]; [symmetry; now apply Hno|].
      assert (c < next st1) by (apply Hv; now apply (in_map snd) in H'). lia.
    + injection H' as <- <-. destruct Hcn as [->|Hcn]; [now apply Hno|].
      assert (c < next st1) by (apply Hv; now apply (in_map snd) in H). lia.
    + exact (C _ _ _ H H').
  - intros k c' [H|H]; [injection H as <- <-; exact Hk|]. assert (c' < next st1) by (apply Hv; now apply (in_map snd) in H).
    destruct (S2 c' ltac:(assumption)) as [-> ->]. exact (D _ _ H).
  - intros k c' i [H|H] Hin'.
    + injection H as <- <-. destruct (Hi i Hin') as [?|(k' & ?)]; [now left|right; exists k'; now right].
    + assert (Hlt : c' < next st1) by (apply Hv; now apply (in_map snd) in H).
      destruct (S2 c' Hlt) as [_ E2]. rewrite E2 in Hin'.
      destruct (E _ _ _ H Hin') as [(v & Hkv)|(k' & ?)]; [left; exists v; destruct (S2 i (Hin _ _ _ H Hin')) as [-> _]; exact Hkv|right; exists k'; now right].
  - intros k c' [H|H].
    + injection H as <- <-. rewrite Ht. cbn. destruct Hkey as [->|[Hge ->]]; [rewrite Nat.eqb_refl; auto|auto].
    + rewrite Ht. cbn. destruct (B _ _ H) as (Bk & _).
      destruct (Nat.eqb_spec k key) as [->|Hne]; [|destruct (F _ _ H); auto].
      destruct Hkey as [->|[Hge _]]; [|lia]. exfalso. apply Hnew. now apply (in_map fst) in H.
  - intros k c' Hk' Hl. rewrite Ht in Hl. cbn in Hl. destruct (Nat.eqb_spec k key) as [->|Hne].
    + injection Hl as ->. destruct Hkey as [->|[Hge _]]; [now left|lia].
    + right. now apply G.
Qed.

Lemma own_sub own blocked st st' : own_inv own blocked st -> finv st -> sub st st' -> rnonconst st' = rnonconst st -> own_inv own blocked st'.
Proof.
  intros [A B C D E F G] HI [S1 S2] Ht.
  constructor; auto.
  - intros k c H. destruct (B _ _ H) as (? & ? & ?). split; [assumption|]. split; [lia|assumption].
  - intros k c H. destruct (B _ _ H) as (_ & Hlt & _). destruct (S2 c Hlt) as [-> ->]. exact (D _ _ H).
  - intros k c i H Hi. destruct (B _ _ H) as (_ & Hlt & _). destruct (S2 c Hlt) as [_ E2]. rewrite E2 in Hi.
    destruct (E _ _ _ H Hi) as [(v & Hv)|?]; [left|now right]. exists v.
    destruct (f_closed _ _ _ _ _ _ HI c i Hi) as [_ Hlt']. destruct (S2 i Hlt') as [-> _]. exact Hv.
  - now rewrite Ht.
  - now rewrite Ht.
Qed.

Lemma run_own : forall fuel alias n, n < n0 -> rec_own (rcn fuel alias) alias n.
Proof.
  induction fuel as [|fuel IH]; intros alias n Hn own blocked st c isc st' HI HO HB E; simpl in E; [discriminate|].
  destruct (lookup (rnonconst st) n) as [c0|] eqn:En.
  { injection E as <- <- <-. exists []. split; [apply own_ext with (2 := HO); auto|]. split; [intros ? ? []|]. cbn. now apply (o_table _ _ _ HO). }
  destruct (lookup (rconst st) n) as [c0|] eqn:Ec.
  { injection E as <- <- <-. exists []. split; [apply own_ext with (2 := HO); auto|]. split; [intros ? ? []|]. cbn.
    apply (g_const _ _ _ _ _ _ _ _ (f_rc _ _ _ _ _ _ HI n c0 Hn Ec)). reflexivity. }
  destruct (f_same _ _ _ _ _ _ HI n Hn) as [Ek Ei].
  assert (Hnew : ~ In n (map fst own)).
  { intro H. apply in_map_iff in H. destruct H as ([k c1] & Hk & H). cbn in Hk. subst k.
    destruct (o_memo _ _ _ HO _ _ H) as [H'|H']; [congruence|]. exact (HB _ H' (reach_refl _ _)). }
  assert (Hin : forall k, In k (ins (gr st) n) -> k < n0 /\ rec_ok packV fieldV oprun g0 n0 (rcn fuel false) k /\ rec_own (rcn fuel false) false k).
  { intros k Hk. rewrite Ei in Hk. pose proof (Hfresh _ _ Hk) as [_ Hlt]. split; [exact Hlt|]. split; [now apply spec|now apply IH]. }
  assert (Hno : forall own', own_inv own' blocked st -> True) by auto. clear Hno.
  assert (Hgen : is_operator g0 n ->
    match fold_inputs (rcn fuel false) (ins (gr st) n) st [] [] true false with
    | FErr => FErr
    | FFuel => FFuel
    | FOk (cs, ns, all_const, build_new, st1) =>
        if negb all_const then
          if negb build_new then FOk (n, false, add_nonconst st1 n n)
          else FOk (next st1, false, add_nonconst (new_node st1 (kind (gr st) n) ns) (if alias then next st1 else n) (next st1))
        else match fold_value packV oprun supported bench (kind (gr st) n) cs with
             | None => FErr
             | Some v => FOk (next st1, true, add_const (new_node st1 (KConst v) []) (if alias then next st1 else n) (next st1))
             end
    end = FOk (c, isc, st') ->
    exists new, own_inv (new ++ own) (fun b => blocked b \/ alias = true /\ b = n) st' /\
      (forall k' c', In (k', c') new -> reach g0 n k') /\ standing (new ++ own) st' n c isc).
  { intros Hop E'.
    destruct (fold_inputs (rcn fuel false) (ins (gr st) n) st [] [] true false)
      as [[[[[vs cs] ac] bn] st1]| |] eqn:Ef; try discriminate.
    destruct (fold_inputs_spec packV fieldV oprun g0 n0 (rcn fuel false) (ins (gr st) n)
       (fun k Hk => conj (proj1 (Hin k Hk)) (proj1 (proj2 (Hin k Hk)))) [] st [] [] true false _ _ _ _ _ HI (rel_nil _ _ _ _ _) Ef) as (HI1 & HS1 & HR1).
    cbn [app] in HR1.
    destruct (inputs_own (rcn fuel false) (ins (gr st) n) Hin own blocked st [] [] true false vs cs ac bn st1 HI HO) with (2 := Ef) as (new & HO1 & HN1 & ds & Ecs & Hds).
    { intros b k Hb Hk Hr. apply (HB b Hb). rewrite Ei in Hk. econstructor; [exact Hk|exact Hr]. }
    cbn [app] in Ecs. subst ds.
    assert (Hnew1 : ~ In n (map fst (new ++ own))).
    { rewrite map_app, in_app_iff. intros [H|H]; [|exact (Hnew H)]. apply in_map_iff in H. destruct H as ([k c1] & Hk & H). cbn in Hk. subst k.
      destruct (HN1 _ _ H) as (k & Hk & Hr). rewrite Ei in Hk. apply (not_self n). now exists k. }
    assert (HN : forall k' c', In (k', c') new -> reach g0 n k').
    { intros k' c' H. destruct (HN1 _ _ H) as (k & Hk & Hr). rewrite Ei in Hk. econstructor; eauto. }
    assert (Hsnd : forall k, In k (map snd (new ++ own)) -> k < next st1).
    { intros k H. apply in_map_iff in H. destruct H as ([a b] & Hb & H). cbn in Hb. subst b. now destruct (o_range _ _ _ HO1 _ _ H) as (_ & ? & _). }
    assert (Hcl : forall k c' i, In (k, c') (new ++ own) -> In i (ins (gr st1) c') -> i < next st1).
    { intros k c' i _ Hi. now destruct (f_closed _ _ _ _ _ _ HI1 c' i Hi). }
    assert (Hself : forall k, In (k, n) (new ++ own) -> k = n).
    { intros k H. destruct (o_range _ _ _ HO1 _ _ H) as (_ & _ & H3). symmetry. now apply H3. }
    destruct (f_same _ _ _ _ _ _ HI1 n Hn) as [Ek1 Ei1].
    pose proof (f_n0 _ _ _ _ _ _ HI1) as Hn01.
    destruct ac; simpl in E'.
    - destruct (fold_value packV oprun supported bench (kind (gr st) n) vs) as [v|] eqn:Efv; [|discriminate].
      injection E' as <- <- <-. exists new. split; [|split; [exact HN|]].
      + apply own_ext with (b := blocked); [auto|]. apply own_sub with (st := st1); auto.
        exact (sub_trans _ _ _ (new_node_sub st1 (KConst v) []) (conj (le_n _) (fun _ _ => conj eq_refl eq_refl))).
      + cbn. exists v. now rewrite Nat.eqb_refl.
    - destruct bn; simpl in E'; injection E' as <- <- <-.
      + exists ((n, next st1) :: new). split; [|split].
        * apply add_own with (st1 := st1) (key := if alias then next st1 else n); auto.
          -- exact (sub_trans _ _ _ (new_node_sub st1 (kind (gr st) n) cs) (conj (le_n _) (fun _ _ => conj eq_refl eq_refl))).
          -- destruct alias; auto.
          -- cbn. lia.
          -- cbn. rewrite Nat.eqb_refl. split; [exact Ek|]. rewrite <- Ei. apply (rel_length _ _ _ _ _ _ HR1).
          -- cbn. rewrite Nat.eqb_refl. intros i Hi. destruct (Hds i Hi) as [(v & Hv)|(k' & Hk')]; [left|right; now exists k'].
             exists v. destruct (Nat.eqb_spec i (next st1)) as [->|]; [|exact Hv].
             destruct (rel_in _ _ _ _ _ _ _ _ _ _ HR1) as (A & _). destruct (A _ Hi) as (k' & b' & _ & G). pose proof (g_lt _ _ _ _ _ _ _ _ G). lia.
        * intros k' c' [H|H]; [injection H as <- <-; apply reach_refl|exact (HN _ _ H)].
        * cbn. now left.
      + exists ((n, n) :: new). split; [|split].
        * apply add_own with (st1 := st1) (key := n); auto.
          -- split; [cbn; lia|auto].
          -- cbn. lia.
          -- cbn. split; [exact Ek1|now rewrite Ei1].
          -- intros i Hi. cbn [gr add_nonconst] in *. destruct (rel_in _ _ _ _ _ _ _ _ _ _ HR1) as (_ & _ & C & _). specialize (C eq_refl).
             rewrite Ei1, <- Ei, <- C in Hi. exact (Hds i Hi).
        * intros k' c' [H|H]; [injection H as <- <-; apply reach_refl|exact (HN _ _ H)].
        * cbn. now left. }
  assert (Hsnd0 : forall k, In k (map snd own) -> k < next st).
  { intros k H. apply in_map_iff in H. destruct H as ([a b] & Hb & H). cbn in Hb. subst b. now destruct (o_range _ _ _ HO _ _ H) as (_ & ? & _). }
  assert (Hcl0 : forall k c' i, In (k, c') own -> In i (ins (gr st) c') -> i < next st).
  { intros k c' i _ Hi. now destruct (f_closed _ _ _ _ _ _ HI c' i Hi). }
  pose proof (f_n0 _ _ _ _ _ _ HI) as Hn00.
  rewrite Ek in *. unfold is_operator in Hgen.
  destruct (kind g0 n) eqn:Hk0; try discriminate; try (apply Hgen; [exact I|exact E]).
  - injection E as <- <- <-. exists [(n, n)]. split; [|split].
    + apply add_own with (st1 := st) (key := n); auto.
      * split; [cbn; lia|auto].
      * cbn. lia.
      * intros k H. destruct (o_range _ _ _ HO _ _ H) as (_ & _ & H3). symmetry. now apply H3.
      * cbn. now rewrite Hk0, Ei.
      * cbn. rewrite Ei, Hleaf; [intros i []|]. unfold is_operator. now rewrite Hk0.
    + intros k' c' [H|[]]. injection H as <- <-. apply reach_refl.
    + cbn. now left.
  - injection E as <- <- <-. exists []. split; [|split].
    + apply own_ext with (b := blocked); [auto|]. apply own_sub with (st := st); auto. split; auto.
    + intros ? ? [].
    + cbn. exists v. now rewrite Ek.
Qed.

Lemma runs_own fuel : forall nodes own blocked st acc outs st',
  (forall n, In n nodes -> n < n0) -> finv st -> own_inv own blocked st ->
  (forall b n, blocked b -> In n nodes -> ~ reach g0 n b) ->
  (forall pre o post, nodes = pre ++ o :: post -> forall o', In o' post -> ~ reach g0 o' o) ->
  (forall c, In c acc -> (exists v, kind (gr st) c = KConst v) \/ exists k, In (k, c) own) -> (forall c, In c acc -> c < next st) ->
  run_const_nodes packV oprun supported bench fuel nodes st acc = FOk (outs, st') ->
  exists new blocked', own_inv (new ++ own) blocked' st' /\ (forall k c, In (k, c) new -> exists n, In n nodes /\ reach g0 n k) /\
    forall c, In c outs -> (exists v, kind (gr st') c = KConst v) \/ exists k, In (k, c) (new ++ own).
Proof.
  induction nodes as [|n nodes IH]; intros own blocked st acc outs st' Hlt HI HO HB HP Ha Hal E; simpl in E.
  - injection E as <- <-. exists [], blocked. split; [exact HO|]. split; [intros ? ? []|]. exact Ha.
  - destruct (rcn fuel true n st) as [[[c isc] st1]| |] eqn:Er; try discriminate.
    destruct (spec fuel true n (Hlt n (or_introl eq_refl)) _ _ _ _ HI Er) as (HI1 & HS1 & HG).
    destruct (run_own fuel true n (Hlt n (or_introl eq_refl)) own blocked st c isc st1 HI HO (fun b Hb => HB b n Hb (or_introl eq_refl)) Er) as (new1 & HO1 & HR1 & St1).
    destruct (IH (new1 ++ own) _ st1 (acc ++ [c]) outs st' (fun k H => Hlt k (or_intror H)) HI1 HO1) with (5 := E) as (new2 & blocked' & A & B & C).
    + intros b k [Hb|[_ ->]] Hk; [exact (HB b k Hb (or_intror Hk))|]. exact (HP [] n nodes eq_refl k Hk).
    + intros pre o post Hpre. apply (HP (n :: pre) o post). cbn. now rewrite Hpre.
    + intros d Hd. apply in_app_iff in Hd. destruct Hd as [Hd|[<-|[]]].
      * destruct (Ha d Hd) as [(v & Hv)|(k & Hk)].
        -- left. exists v. destruct HS1 as [_ S2]. destruct (S2 d (Hal d Hd)) as [-> _]. exact Hv.
        -- right. exists k. apply in_app_iff. now right.
      * destruct isc; cbn in St1; [now left|]. right. now exists n.
    + intros d Hd. apply in_app_iff in Hd. destruct HS1 as [S1 _]. destruct Hd as [Hd|[<-|[]]]; [specialize (Hal d Hd); lia|exact (g_lt _ _ _ _ _ _ _ _ HG)].
    + exists (new2 ++ new1), blocked'. rewrite <- app_assoc. split; [exact A|]. split; [|exact C].
      intros k d Hd. apply in_app_iff in Hd. destruct Hd as [Hd|Hd].
      * destruct (B _ _ Hd) as (m & Hm & Hr). exists m. split; [now right|exact Hr].
      * exists n. split; [now left|]. exact (HR1 _ _ Hd).
Qed.
End Sharing.

(** Every operator left after folding stands for one operator of the original
    graph, of the same kind, that some output needs, and no two stand for the
    same one, provided no output is the same as, or is needed by, a later one.
    Missing: outputs that are (C52_folding_keeps_sharing_refuted). *)
Theorem C52_sharing_partial :
  forall (V Opr : Type) (packV : list V -> V) (oprun : Opr -> list V -> opres V) (supported : Opr -> bool) (bench : stack V),
  (exists lo pre bs, bench = frame_stack lo pre bs) ->
  forall (g : graph V Opr) (fresh : node) (outputs : list node),
  (forall n i, In i (ins g n) -> n < fresh /\ i < fresh) ->
  (forall o, In o outputs -> o < fresh) ->
  acyclic g -> leaves_ok g ->
  (forall pre o post, outputs = pre ++ o :: post -> forall o', In o' post -> ~ reach g o' o) ->
  forall (fuel : nat) (outs : list node) (g' : graph V Opr),
  const_fold packV oprun supported bench fuel g fresh outputs = FOk (outs, g') ->
  exists origin : node -> node,
    (forall n, used g' outs n -> is_operator g' n -> used g outputs (origin n) /\ kind g (origin n) = kind g' n /\ length (ins g (origin n)) = length (ins g' n)) /\
    (forall n m, used g' outs n -> is_operator g' n -> used g' outs m -> is_operator g' m -> origin n = origin m -> n = m).
Proof.
  intros V Opr packV oprun supported bench (lo & pre & bs & ->) g fresh outputs Hfresh Hout Hac Hleaf HP fuel outs g' H.
  unfold const_fold in H. change (frame_stack lo pre bs) with (fs lo pre bs) in H.
  destruct (run_const_nodes _ _ _ _ _ _ _ _) as [[outs1 st]| |] eqn:E; try discriminate. injection H as <- <-.
  set (fieldV := fun (_ : V) (_ : Z) => @None V).
  destruct (runs_own packV fieldV oprun supported lo pre bs g fresh Hfresh Hac Hleaf fuel outputs [] (fun _ => False) _ [] outs1 st Hout
    (init_finv packV fieldV oprun g fresh Hfresh Hac Hleaf)) with (6 := E) as (own & blocked & HO & HR & HC); auto.
  - constructor; cbn; try tauto; try constructor. discriminate.
  - intros c [].
  - intros c [].
  - rewrite app_nil_r in *.
    set (origin := fun n => match find (fun p => Nat.eqb (snd p) n) own with Some p => fst p | None => 0 end).
    assert (Hor : forall k n, In (k, n) own -> origin n = k).
    { intros k n Hin. unfold origin. destruct (find (fun p => Nat.eqb (snd p) n) own) as [[k' n']|] eqn:F.
      - apply find_some in F. destruct F as [F1 F2]. cbn in F2. apply Nat.eqb_eq in F2. subst n'. cbn. exact (o_inj _ _ _ _ _ HO _ _ _ F1 Hin).
      - exfalso. pose proof (find_none _ _ F _ Hin) as F'. cbn in F'. rewrite Nat.eqb_refl in F'. discriminate. }
    assert (Hown : forall n, used (gr st) outs1 n -> is_operator (gr st) n -> exists k, In (k, n) own).
    { intros n (o & Ho & Hr) Hop.
      assert (G : forall a b, reach (gr st) a b -> (exists v, kind (gr st) a = KConst v) \/ (exists k, In (k, a) own) ->
         (exists v, kind (gr st) b = KConst v) \/ (exists k, In (k, b) own)).
      { induction 1 as [|a m b Hm _ IH]; auto. intros [(v & Hv)|(k & Hk)]; apply IH.
        - exfalso. pose proof (run_const_nodes_spec packV fieldV oprun supported lo pre bs g fresh Hfresh Hleaf fuel outputs [] _ []
            outs1 st Hout (init_finv packV fieldV oprun g fresh Hfresh Hac Hleaf) (og_nil _ _ _ _ _) E) as (HI & _).
          rewrite (f_leaves _ _ _ _ _ _ HI a) in Hm; [destruct Hm|]. unfold is_operator. now rewrite Hv.
        - exact (o_closed _ _ _ _ _ HO _ _ _ Hk Hm). }
      destruct (G o n Hr (HC o Ho)) as [(v & Hv)|Hk]; [|exact Hk]. unfold is_operator in Hop. now rewrite Hv in Hop. }
    exists origin. split.
    + intros n Hu Hop. destruct (Hown n Hu Hop) as (k & Hk). rewrite (Hor _ _ Hk). split.
      * destruct (HR _ _ Hk) as (o & Ho & Hr). now exists o.
      * destruct (o_kind _ _ _ _ _ HO _ _ Hk) as [-> ->]. auto.
    + intros n m Hn On Hm Om Eq. destruct (Hown n Hn On) as (k & Hk). destruct (Hown m Hm Om) as (k' & Hk').
      rewrite (Hor _ _ Hk), (Hor _ _ Hk') in Eq. subst k'.
      pose proof (o_keys _ _ _ _ _ HO) as ND. clear -ND Hk Hk'. induction own as [|[a b] own IH]; [destruct Hk|].
      cbn in ND. inversion ND as [|x l Hx ND']. subst.
      assert (X : forall z, In (a, z) own -> False) by (intros z Hz; apply Hx; now apply (in_map fst) in Hz).
      destruct Hk as [Hk|Hk], Hk' as [Hk'|Hk'].
      * congruence.
      * injection Hk as -> ->. destruct (X _ Hk').
      * injection Hk' as -> ->. destruct (X _ Hk).
      * now apply IH.
Qed.
Print Assumptions C52_sharing_partial.

(** Hence the program compiled after folding evaluates no operator of the
    original graph twice. *)
Theorem C52_each_operator_once_partial :
  forall (V Opr : Type) (packV : list V -> V) (oprun : Opr -> list V -> opres V) (supported : Opr -> bool) (bench : stack V),
  (exists lo pre bs, bench = frame_stack lo pre bs) ->
  forall (g : graph V Opr) (fresh : node) (inputs outputs : list node) (output_count : Opr -> Z),
  (forall n i, In i (ins g n) -> n < fresh /\ i < fresh) ->
  (forall o, In o outputs -> o < fresh) ->
  acyclic g -> leaves_ok g ->
  (forall pre o post, outputs = pre ++ o :: post -> forall o', In o' post -> ~ reach g o' o) ->
  forall (fuel : nat) (b : block V Opr),
  fold_compile packV oprun supported bench g fresh outputs output_count fuel inputs = COk b ->
  exists origins : list node,
    NoDup origins /\ (forall n, In n origins -> used g outputs n /\ is_operator g n) /\
    Forall2 (evaluates g) origins (filter computes (b_insts b)).
Proof.
  intros V Opr packV oprun supported bench Hb g fresh inputs outputs output_count Hf Ho Hac Hl HP fuel b E. unfold fold_compile in E.
  destruct (const_fold _ _ _ _ _ _ _ _) as [[outs g']| |] eqn:F; try discriminate.
  destruct (const_fold_correct packV (fun _ _ => None) oprun supported bench Hb g fresh outputs Hf Ho Hac Hl fuel outs g' F) as (_ & _ & Hac' & Hl' & _ & _).
  destruct (C52_sharing_partial _ _ _ _ _ _ Hb g fresh outputs Hf Ho Hac Hl HP fuel outs g' F) as (origin & O1 & O2).
  destruct (C51_each_operator_once _ _ _ _ g' inputs outs fuel b Hac' Hl' E) as (order & N & U & Ev & _).
  exists (map origin order). split; [|split].
  - clear Ev. assert (U' : forall n, In n order -> used g' outs n /\ is_operator g' n) by (intros n Hn; now apply U). clear U.
    induction N as [|n order Hn N IH]; cbn; constructor.
    + intro H. apply in_map_iff in H. destruct H as (m & Em & Hm). destruct (U' n (or_introl eq_refl)), (U' m (or_intror Hm)).
      apply Hn. rewrite (O2 n m); auto.
    + apply IH. intros m Hm. apply U'. now right.
  - intros n Hn. apply in_map_iff in Hn. destruct Hn as (m & <- & Hm). apply U in Hm. destruct Hm as [Hu Hop].
    destruct (O1 m Hu Hop) as (H1 & H2 & _). split; [exact H1|]. unfold is_operator in *. now rewrite H2.
  - assert (U' : forall n, In n order -> used g' outs n /\ is_operator g' n) by (intros n Hn; now apply U). clear -Ev O1 U'.
    induction Ev as [|n i order insts He Ev IH]; cbn; constructor.
    + destruct (U' n (or_introl eq_refl)) as [Hu Hop]. destruct (O1 n Hu Hop) as (_ & H2 & H3). unfold evaluates in *. now rewrite H2, H3.
    + apply IH. intros m Hm. apply U'. now right.
Qed.
Print Assumptions C52_each_operator_once_partial.

(** 3 = 0 + (1 * 1) with 1 constant, used twice by 4 = 3 + 3 *)
Example C52_example :
  let g : graph Z nat := {| kind := fun n => match n with 0 => KParam | 1 => KConst 5%Z | 2 => KOp 1 | 3 => KOp 0 | 4 => KOp 0 | _ => KVariable end;
            ins := fun n => match n with 2 => [1; 1] | 3 => [0; 2] | 4 => [3; 3] | _ => [] end |} in
  (forall pre o post, [4] = pre ++ o :: post -> forall o', In o' post -> ~ reach g o' o) /\
  exists b, fold_compile Example1.packV Example1.oprun (fun _ => true) (frame_stack [] [] []) g 5 [4] (fun _ => 1%Z) 100 [0] = COk b /\
    filter computes (b_insts b) = [IOp 0 2 1; IOp 0 2 1].
Proof.
  split.
  - intros [|x [|y pre]] o post H; try discriminate. injection H as <- <-. intros o' [].
  - eexists. split; vm_compute; reflexivity.
Qed.
