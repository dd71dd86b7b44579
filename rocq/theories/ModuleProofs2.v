From Coq Require Import List ZArith Bool Lia Permutation.
From Verif Require Import StackModel GraphSpec GraphModel GraphProofs TensorModel SerialModel SerialSpec
  SerialProofs ModuleModel ModuleSpec ModuleProofs.
Import ListNotations.

Lemma Forall2_impl {A B} (P Q : A -> B -> Prop) l l' :
  (forall a b, P a b -> Q a b) -> Forall2 P l l' -> Forall2 Q l l'.
Proof. intros H. induction 1; constructor; auto. Qed.

(** ** graph_walker *)
Record walk_inv (g : mgraph) (outputs queue walked inputs : list node) : Prop := {
  wi_out : forall o, In o outputs -> In o walked \/ In o queue;
  wi_need : forall n, In n walked \/ In n queue -> needed g outputs n;
  wi_closed : forall n i, In n walked -> is_operator g n -> In i (mg_ins g n) -> In i walked \/ In i queue;
  wi_usable : forall n, In n walked -> ~ unusable g n;
  wi_inputs : forall n, In n inputs <-> In n walked /\ is_param g n;
  wi_nodup : NoDup inputs
}.

Lemma needs_trans g a b c : needs g a b -> needs g b c -> needs g a c.
Proof. induction 1; intros; auto. eapply needs_input; eauto. Qed.

Lemma walk_inv_final g outputs : forall fuel q walked inputs,
  walk_inv g outputs q walked inputs ->
  match walk fuel g q walked inputs with
  | WOk r => exists walked', walk_inv g outputs [] walked' r
  | WErr => exists n, needed g outputs n /\ unusable g n
  | WFuel => True
  end.
Proof.
  induction fuel as [|k IH]; intros q walked inputs I; destruct q as [|n q]; cbn [walk]; auto.
  - eauto.
  - eauto.
  - destruct I as [A B C D E F].
    destruct (mem n walked) eqn:Ew.
    { apply mem_In in Ew. apply IH. split; auto.
      - intros o Ho. destruct (A o Ho) as [H|[<-|H]]; auto.
      - intros x [H|H]; apply B; auto. right; now right.
      - intros x i H1 H2 H3. destruct (C x i H1 H2 H3) as [H|[<-|H]]; auto. }
    apply mem_notIn in Ew.
    assert (Hneed : needed g outputs n) by (apply B; right; now left).
    destruct (mem n (mg_nodes g)) eqn:En; cbn [negb].
    2:{ exists n. split; auto. left. now apply mem_notIn. }
    apply mem_In in En.
    assert (Hpush : forall extra inputs',
      (is_operator g n -> extra = mg_ins g n /\ extra <> []) -> (~ is_operator g n -> extra = []) ->
      (forall x, In x inputs' <-> In x (n :: walked) /\ is_param g x) -> NoDup inputs' ->
      walk_inv g outputs (q ++ extra) (n :: walked) inputs').
    { intros extra inputs' X1 X2 X3 X4. split; auto.
      - intros o Ho. destruct (A o Ho) as [H|[<-|H]].
        + left; now right.
        + left; now left.
        + right. apply in_or_app; now left.
      - intros x [[<-|H]|H]; auto. apply in_app_or in H as [H|H]; [apply B; right; now right|].
        assert (OP : is_operator g n).
        { unfold is_operator, is_param, is_const.
          destruct (list_eq_dec Z.eq_dec (b_op (mg_bub g n)) op_param) as [P|P];
          [exfalso; rewrite X2 in H by (intros [Q1 Q2]; contradiction); destruct H|].
          destruct (list_eq_dec Z.eq_dec (b_op (mg_bub g n)) op_const) as [Q|Q];
          [exfalso; rewrite X2 in H by (intros [Q1 Q2]; contradiction); destruct H|]. auto. }
        destruct (X1 OP) as [-> _]. destruct Hneed as (o & Ho & Hn). exists o. split; auto.
        eapply needs_trans; eauto. eapply needs_input; eauto. constructor.
      - intros x i [<-|H1] H2 H3.
        + right. apply in_or_app. right. destruct (X1 H2) as [-> _]. auto.
        + destruct (C x i H1 H2 H3) as [H|[<-|H]]; [left; now right|left; now left|].
          right. apply in_or_app; now left.
      - intros x [<-|H]; auto. intros [U|[U1 U2]]; [contradiction|].
        destruct (X1 U1) as [-> U3]. contradiction. }
    destruct (str_eqb (b_op (mg_bub g n)) op_param) eqn:Ep.
    { apply str_eqb_eq in Ep. apply IH. rewrite <- (app_nil_r q). apply Hpush.
      - intros [H _]. contradiction.
      - auto.
      - intro x. rewrite in_app_iff, E. simpl. split.
        + intros [[H1 H2]|[<-|[]]]; auto.
        + intros [[<-|H1] H2]; auto.
      - apply NoDup_snoc; auto. rewrite E. tauto. }
    assert (NP : ~ is_param g n).
    { unfold is_param. intro H. rewrite H, str_eqb_refl in Ep. discriminate. }
    assert (INP : forall x, In x inputs <-> In x (n :: walked) /\ is_param g x).
    { intro x. rewrite E. simpl. split; [tauto|]. intros [[<-|H1] H2]; [contradiction|auto]. }
    destruct (str_eqb (b_op (mg_bub g n)) op_const) eqn:Ec.
    { apply str_eqb_eq in Ec. apply IH. rewrite <- (app_nil_r q). apply Hpush; auto.
      intros [_ H]. contradiction. }
    assert (NC : ~ is_const g n).
    { unfold is_const. intro H. rewrite H, str_eqb_refl in Ec. discriminate. }
    destruct (mg_ins g n) as [|i l] eqn:Ei.
    { exists n. split; auto. right. split; [split|]; auto. }
    apply IH. apply Hpush; auto.
    + intros _. split; [auto|discriminate].
    + intros H. exfalso. apply H. split; auto.
Qed.

Lemma walk_inv_start g outputs : walk_inv g outputs outputs [] [].
Proof.
  split; auto; try (intros; contradiction).
  - intros n [[]|H]. exists n. split; auto. constructor.
  - intro n. simpl. tauto.
  - constructor.
Qed.

Lemma walk_inv_done g outputs walked r : walk_inv g outputs [] walked r ->
  (forall n, needed g outputs n <-> In n walked) .
Proof.
  intros [A B C D E F] n. split.
  - intros (o & Ho & Hn). assert (In o walked) by (destruct (A o Ho) as [H|[]]; auto).
    clear Ho. induction Hn as [n|a i b H1 H2 H3 IH]; auto.
    apply IH. destruct (C a i) as [X|[]]; auto.
  - intro H. apply B. now left.
Qed.

Lemma graph_walker_ok g outputs r : graph_walker g outputs = WOk r ->
  NoDup r /\ (forall p, In p r <-> needed g outputs p /\ is_param g p) /\
  (forall n, needed g outputs n -> ~ unusable g n).
Proof.
  intro E. pose proof (walk_inv_final g outputs (walk_fuel g outputs) _ _ _ (walk_inv_start g outputs)) as H.
  unfold graph_walker in E. rewrite E in H. destruct H as [w I].
  pose proof (walk_inv_done _ _ _ _ I) as W. destruct I as [A B C D X F]. split; auto. split.
  - intro p. rewrite X, W. tauto.
  - intros n Hn. apply D. now apply W.
Qed.

Lemma graph_walker_err g outputs : graph_walker g outputs = WErr ->
  exists n, needed g outputs n /\ unusable g n.
Proof.
  intro E. pose proof (walk_inv_final g outputs (walk_fuel g outputs) _ _ _ (walk_inv_start g outputs)) as H.
  unfold graph_walker in E. now rewrite E in H.
Qed.

Lemma module_load_iff g outputs :
  (forall m, module_load g outputs = Some m ->
     m_graph m = g /\ m_outputs m = outputs /\ NoDup (m_inputs m) /\
     forall p, In p (m_inputs m) <-> needed g outputs p /\ is_param g p) /\
  ((exists m, module_load g outputs = Some m) <-> forall n, needed g outputs n -> ~ unusable g n).
Proof.
  unfold module_load. split.
  - intros m E. destruct (graph_walker g outputs) as [r| |] eqn:G; try discriminate.
    injection E as <-. apply graph_walker_ok in G as (G1 & G2 & G3). auto.
  - split.
    + intros [m E]. destruct (graph_walker g outputs) as [r| |] eqn:G; try discriminate.
      apply graph_walker_ok in G as (G1 & G2 & G3). auto.
    + intro H. destruct (graph_walker g outputs) as [r| |] eqn:G; [eauto| |].
      * apply graph_walker_err in G as (n & N1 & N2). exfalso. eapply H; eauto.
      * exfalso. eapply graph_walker_total; eauto.
Qed.

(** ** sort_inputs *)
Lemma sort_nodes_iff m l m' : sort_nodes m l = Some m' <->
  (forall p, In p (m_inputs m) -> In p l) /\ m' = mkModule (m_graph m) l (m_outputs m).
Proof.
  unfold sort_nodes. destruct (forallb _ _) eqn:E.
  - rewrite forallb_forall in E. split.
    + intro H. split; [|congruence]. intros p Hp. apply mem_In. auto.
    + intros [_ ->]. reflexivity.
  - split; [discriminate|]. intros [H _]. exfalso.
    rewrite <- not_true_iff_false in E. apply E. apply forallb_forall. intros x Hx. apply mem_In. auto.
Qed.

Lemma find_name_In t k n : find_name t k = Some n -> In (k, n) t.
Proof.
  induction t as [|[k' n'] r IH]; simpl; [discriminate|].
  destruct (str_eqb k k') eqn:E; intro H; auto. apply str_eqb_eq in E. left; congruence.
Qed.
Lemma find_name_None t k : find_name t k = None <-> ~ In k (map fst t).
Proof.
  induction t as [|[k' n'] r IH]; simpl; [tauto|].
  destruct (str_eqb k k') eqn:E.
  - apply str_eqb_eq in E. subst. split; [discriminate|tauto].
  - rewrite IH. split; [|tauto]. intros H [<-|H1]; [|tauto]. rewrite str_eqb_refl in E. discriminate.
Qed.
Lemma find_name_uniq t k n : NoDup (map fst t) -> In (k, n) t -> find_name t k = Some n.
Proof.
  induction t as [|[k' n'] r IH]; simpl; [tauto|]. intros H [E|E].
  - injection E as -> ->. now rewrite str_eqb_refl.
  - inversion H; subst. rewrite str_eqb_neq; auto. intros ->. apply H2. apply (in_map fst) in E. exact E.
Qed.

Lemma name_table_ok m : forall inputs t t', NoDup (map fst t) ->
  name_table m inputs t = Some t' ->
  t' = t ++ map (fun n => (name_of m n, n)) inputs /\ NoDup (map fst t').
Proof.
  induction inputs as [|n r IH]; intros t t' H E; cbn [name_table map] in *.
  - injection E as <-. now rewrite app_nil_r.
  - destruct (find_name t (name_of m n)) eqn:F; [discriminate|]. apply find_name_None in F.
    apply IH in E as [E1 E2]; [|rewrite map_app; simpl; now apply NoDup_snoc].
    split; auto. rewrite E1, <- app_assoc. reflexivity.
Qed.

Lemma name_table_total m : forall inputs t,
  NoDup (map fst (t ++ map (fun n => (name_of m n, n)) inputs)) ->
  name_table m inputs t = Some (t ++ map (fun n => (name_of m n, n)) inputs).
Proof.
  induction inputs as [|n r IH]; intros t H; cbn [name_table map] in *.
  - now rewrite app_nil_r.
  - assert (F : find_name t (name_of m n) = None).
    { apply find_name_None. rewrite map_app in H. simpl in H. apply NoDup_remove_2 in H.
      intro X. apply H. apply in_or_app. now left. }
    rewrite F. rewrite IH; rewrite <- app_assoc; auto.
Qed.

Lemma pick_names_ok t : NoDup (map fst t) -> forall names l,
  pick_names t names = Some l <-> Forall2 (fun k n => In (k, n) t) names l.
Proof.
  intro H. induction names as [|k r IH]; intros l; cbn [pick_names].
  - split; [intro E; injection E as <-; constructor|]. inversion 1. reflexivity.
  - split.
    + destruct (find_name t k) as [n|] eqn:F; [|discriminate].
      destruct (pick_names t r) as [l'|] eqn:P; [|discriminate].
      intro E. injection E as <-. constructor; [now apply find_name_In|]. now apply IH.
    + intro E. inversion E as [|? n ? l' E1 E2]; subst.
      rewrite (find_name_uniq t k n) by auto. apply IH in E2. now rewrite E2.
Qed.

Lemma sort_names_iff m names m' : sort_names m names = Some m' <->
  NoDup (map (name_of m) (m_inputs m)) /\
  exists l, Forall2 (fun k n => In n (m_inputs m) /\ name_of m n = k) names l /\
            (forall p, In p (m_inputs m) -> In p l) /\
            m' = mkModule (m_graph m) l (m_outputs m).
Proof.
  set (t := map (fun n => (name_of m n, n)) (m_inputs m)).
  assert (K : map fst t = map (name_of m) (m_inputs m)).
  { unfold t. rewrite map_map. reflexivity. }
  assert (IN : forall k n, In (k, n) t <-> In n (m_inputs m) /\ name_of m n = k).
  { intros k n. unfold t. rewrite in_map_iff. split.
    - intros (x & E & Hx). injection E as <- <-. auto.
    - intros [H <-]. eauto. }
  assert (F2 : forall ns l, Forall2 (fun k n => In (k, n) t) ns l <->
               Forall2 (fun k n => In n (m_inputs m) /\ name_of m n = k) ns l).
  { intros ns l. split; intro H; (eapply Forall2_impl; [|exact H]); intros; now apply IN. }
  assert (LEN : forall l, (forall x, In x l -> In x (m_inputs m)) -> NoDup (map (name_of m) (m_inputs m)) ->
     (length (node_set l) <? length t = false <-> forall p, In p (m_inputs m) -> In p l)).
  { intros l Hl ND. assert (NI : NoDup (m_inputs m)) by (eapply NoDup_map_inv; eauto).
    unfold node_set. unfold t. rewrite map_length. rewrite Nat.ltb_ge. split.
    - intros HL p Hp. rewrite <- (nodup_In Nat.eq_dec).
      apply (NoDup_length_incl (NoDup_nodup Nat.eq_dec l) (l' := m_inputs m)); auto.
      intros x Hx. apply nodup_In in Hx. auto.
    - intros H. apply NoDup_incl_length; auto. intros x Hx. apply nodup_In. auto. }
  unfold sort_names. split.
  - destruct (name_table m (m_inputs m) []) as [t'|] eqn:E; [|discriminate].
    apply name_table_ok in E as [E1 E2]; [|constructor]. simpl in E1. fold t in E1. subst t'.
    rewrite K in E2.
    destruct (pick_names t names) as [l|] eqn:P; [|discriminate].
    apply pick_names_ok in P; [|now rewrite K]. apply F2 in P.
    assert (Hl : forall x, In x l -> In x (m_inputs m)).
    { clear - P. induction P as [|k n ks ns [H _] P IH]; intros x; [intros []|]. intros [<-|Hx]; auto. }
    destruct (length (node_set l) <? length t) eqn:LT; [discriminate|]. intro X. injection X as <-.
    split; auto. exists l. split; auto. split; auto. now apply LEN.
  - intros (ND & l & P & C & ->).
    rewrite name_table_total by (simpl; fold t; now rewrite K). simpl. fold t.
    assert (Hl : forall x, In x l -> In x (m_inputs m)).
    { clear - P. induction P as [|k n ks ns [H _] P IH]; intros x; [intros []|]. intros [<-|Hx]; auto. }
    apply F2 in P. apply pick_names_ok in P; [|now rewrite K]. rewrite P.
    assert (LT : (length (node_set l) <? length t) = false) by (now apply LEN).
    now rewrite LT.
Qed.

(** ** load by output names *)
Definition named (g : mgraph) (k : list Z) (nodes : list node) : list node :=
  filter (fun n => str_eqb (b_name (mg_bub g n)) k) nodes.

Definition olist {A} (o : option A) : list A := match o with Some x => [x] | None => [] end.

Lemma has_name_In t k : has_name t k = true <-> In k (map fst t).
Proof.
  induction t as [|[k' v] r IH]; simpl; [split; [discriminate|tauto]|].
  rewrite orb_true_iff, IH, str_eqb_eq. split; intros [H|H]; auto.
Qed.

Lemma found_set_spec t k n t' : has_name t k = true -> found_set t k n = Some t' ->
  get_found t k = None /\ map fst t' = map fst t /\
  forall q, get_found t' q = if str_eqb q k then Some n else get_found t q.
Proof.
  revert t'. induction t as [|[k' v] r IH]; intros t' H E; cbn [has_name found_set get_found] in *; [discriminate|].
  destruct (str_eqb k k') eqn:K.
  - apply str_eqb_eq in K. subst k'. destruct v; [discriminate|]. injection E as <-.
    split; auto. split; auto. intro q. cbn [get_found]. destruct (str_eqb q k); reflexivity.
  - destruct (found_set r k n) as [r'|] eqn:F; [|discriminate]. injection E as <-.
    cbn [orb] in H. destruct (IH r' H eq_refl) as (I1 & I2 & I3). split; auto.
    split; [simpl; congruence|]. intro q. cbn [get_found]. rewrite I3.
    destruct (str_eqb q k') eqn:Q; auto. destruct (str_eqb q k) eqn:Q2; auto.
    apply str_eqb_eq in Q. apply str_eqb_eq in Q2. subst. rewrite str_eqb_refl in K. discriminate.
Qed.

Lemma found_set_None t k n : has_name t k = true -> found_set t k n = None -> exists x, get_found t k = Some x.
Proof.
  induction t as [|[k' v] r IH]; intros H E; cbn [has_name found_set get_found] in *; [discriminate|].
  destruct (str_eqb k k') eqn:K.
  - destruct v; [eauto|discriminate].
  - destruct (found_set r k n); [discriminate|]. cbn [orb] in H. auto.
Qed.

Lemma str_eqb_sym a b : str_eqb a b = str_eqb b a.
Proof.
  destruct (str_eqb a b) eqn:E.
  - apply str_eqb_eq in E. subst. now rewrite str_eqb_refl.
  - symmetry. apply str_eqb_neq. intros ->. rewrite str_eqb_refl in E. discriminate.
Qed.

Lemma scan_nodes_spec g : forall nodes t,
  match scan_nodes g nodes t with
  | Some t' => map fst t' = map fst t /\
      forall k, In k (map fst t) ->
        length (olist (get_found t k) ++ named g k nodes) <= 1 /\
        olist (get_found t' k) = olist (get_found t k) ++ named g k nodes
  | None => exists k, In k (map fst t) /\ 2 <= length (olist (get_found t k) ++ named g k nodes)
  end.
Proof.
  induction nodes as [|n r IH]; intros t; cbn [scan_nodes].
  - split; auto. intros k Hk. cbn [named filter]. rewrite app_nil_r.
    split; auto. destruct (get_found t k); simpl; lia.
  - set (kn := b_name (mg_bub g n)).
    assert (NM : forall k, named g k (n :: r) = if str_eqb kn k then n :: named g k r else named g k r).
    { intro k. reflexivity. }
    destruct (has_name t kn) eqn:H.
    + destruct (found_set t kn n) as [t1|] eqn:F.
      * destruct (found_set_spec _ _ _ _ H F) as (F1 & F2 & F3).
        specialize (IH t1).
        assert (ST : forall k, olist (get_found t1 k) ++ named g k r = olist (get_found t k) ++ named g k (n :: r)).
        { intro k. rewrite F3, NM, str_eqb_sym. destruct (str_eqb kn k) eqn:Q; auto.
          apply str_eqb_eq in Q. subst k. rewrite F1. reflexivity. }
        destruct (scan_nodes g r t1) as [t'|].
        -- destruct IH as [I1 I2]. split; [congruence|]. intros k Hk.
           rewrite <- ST. apply I2. congruence.
        -- destruct IH as (k & K1 & K2). exists k. rewrite <- ST. split; auto. congruence.
      * destruct (found_set_None _ _ _ H F) as [x X]. exists kn. split; [now apply has_name_In|].
        rewrite X, NM, str_eqb_refl. simpl. lia.
    + specialize (IH t).
      assert (ST : forall k, In k (map fst t) -> named g k (n :: r) = named g k r).
      { intros k Hk. rewrite NM. rewrite str_eqb_neq; auto. intros <-.
        apply has_name_In in Hk. congruence. }
      destruct (scan_nodes g r t) as [t'|].
      * destruct IH as [I1 I2]. split; auto. intros k Hk. rewrite ST by auto. auto.
      * destruct IH as (k & K1 & K2). exists k. rewrite ST by auto. auto.
Qed.

Lemma found_table_spec names : forall t,
  (forall k, get_found t k = None) ->
  (forall k, In k (map fst (found_table names t)) <-> In k (map fst t) \/ In k names) /\
  (forall k, get_found (found_table names t) k = None) /\
  (NoDup (map fst t) -> NoDup (map fst (found_table names t))).
Proof.
  induction names as [|a r IH]; intros t H; cbn [found_table].
  - split; [simpl; tauto|auto].
  - destruct (has_name t a) eqn:E.
    + destruct (IH t H) as (I1 & I2 & I3). split; [|auto]. intro k. rewrite I1. simpl.
      apply has_name_In in E. split; [tauto|]. intros [X|[<-|X]]; auto.
    + assert (G : forall k, get_found (t ++ [(a, None)]) k = None).
      { intro k. specialize (H k). revert H. clear. induction t as [|[k' v] r IH]; simpl; intro H.
        - destruct (str_eqb k a); reflexivity.
        - destruct (str_eqb k k'); auto. }
      destruct (IH (t ++ [(a, None)]) G) as (I1 & I2 & I3). split; [|split]; auto.
      * intro k. rewrite I1, map_app, in_app_iff. simpl. tauto.
      * intro N. apply I3. rewrite map_app. simpl. apply NoDup_snoc; auto.
        rewrite <- has_name_In. congruence.
Qed.

Lemma get_found_In (t : list (list Z * option node)) : NoDup (map fst t) -> forall k v, In (k, v) t -> get_found t k = v.
Proof.
  induction t as [|[k' v'] r IH]; simpl; [tauto|]. intros N k v [E|E]; inversion N; subst.
  - injection E as -> ->. now rewrite str_eqb_refl.
  - rewrite str_eqb_neq; auto. intros ->. apply H1. apply (in_map fst) in E. exact E.
Qed.

Lemma all_found_spec t : forall names l, all_found t names = Some l <-> Forall2 (fun k n => get_found t k = Some n) names l.
Proof.
  induction names as [|k r IH]; intro l; cbn [all_found].
  - split; [intro E; injection E as <-; constructor|]. inversion 1; reflexivity.
  - split.
    + destruct (get_found t k) eqn:E; [|discriminate]. destruct (all_found t r) eqn:A; [|discriminate].
      intro X. injection X as <-. constructor; auto. now apply IH.
    + intro X. inversion X as [|? n ? l' X1 X2]; subst. apply IH in X2. now rewrite X1, X2.
Qed.

Lemma load_names_lists g names m : module_load_names g names = Some m <->
  exists outs, Forall2 (fun k n => named g k (mg_nodes g) = [n]) names outs /\ module_load g outs = Some m.
Proof.
  unfold module_load_names.
  destruct (found_table_spec names [] (fun _ => eq_refl)) as (T1 & T2 & T3).
  specialize (T3 (NoDup_nil _)).
  set (t := found_table names []) in *. clearbody t.
  pose proof (scan_nodes_spec g (mg_nodes g) t) as S.
  destruct (scan_nodes g (mg_nodes g) t) as [t'|] eqn:E.
  - destruct S as [S1 S2].
    assert (S3 : forall k, In k names -> olist (get_found t' k) = named g k (mg_nodes g)).
    { intros k Hk. destruct (S2 k) as [_ X]; [apply T1; now right|]. now rewrite T2 in X. }
    destruct (forallb _ t') eqn:B.
    + assert (S4 : forall outs, Forall2 (fun k n => get_found t' k = Some n) names outs <->
                   Forall2 (fun k n => named g k (mg_nodes g) = [n]) names outs).
      { clear - S3. induction names as [|k r IH]; intros outs; split; intro X; inversion X as [|? n ? l X1 X2]; subst; constructor;
          try (apply IH; auto; intros; apply S3; now right).
        - rewrite <- S3 by now left. rewrite X1. reflexivity.
        - assert (Y := S3 k (or_introl eq_refl)). rewrite X1 in Y. destruct (get_found t' k); simpl in Y; congruence. }
      split.
      * destruct (all_found t' names) as [outs|] eqn:A; [|discriminate]. intro L.
        exists outs. split; auto. apply S4. now apply all_found_spec.
      * intros (outs & O1 & O2). apply S4 in O1. apply all_found_spec in O1. now rewrite O1.
    + split; [discriminate|]. intros (outs & O1 & O2). exfalso.
      rewrite <- not_true_iff_false in B. apply B. apply forallb_forall. intros [k v] Hkv. cbn [snd].
      assert (Hk : In k (map fst t')) by (apply (in_map fst) in Hkv; exact Hkv).
      rewrite S1 in Hk. apply T1 in Hk as [[]|Hk].
      assert (Y := S3 k Hk). rewrite (get_found_In t' ltac:(now rewrite S1) k v Hkv) in Y.
      destruct v; auto. exfalso. simpl in Y.
      clear - O1 Hk Y. induction O1 as [|a n r l X1 X2 IH]; [destruct Hk|].
      destruct Hk as [->|Hk]; auto. congruence.
  - destruct S as (k & K1 & K2). split; [discriminate|]. intros (outs & O1 & O2). exfalso.
    rewrite T2 in K2. simpl in K2. apply T1 in K1 as [[]|K1].
    clear - O1 K1 K2. induction O1 as [|a n r l X1 X2 IH]; [destruct K1|].
    destruct K1 as [->|K1]; auto. rewrite X1 in K2. simpl in K2. lia.
Qed.

Lemma named_only g k n : NoDup (mg_nodes g) -> (named g k (mg_nodes g) = [n] <-> only_named g k n).
Proof.
  intro ND. assert (IN : forall x, In x (named g k (mg_nodes g)) <-> In x (mg_nodes g) /\ b_name (mg_bub g x) = k).
  { intro x. unfold named. rewrite filter_In, str_eqb_eq. reflexivity. }
  split.
  - intro E. rewrite E in IN. destruct (proj1 (IN n) (or_introl eq_refl)) as [H1 H2].
    split; auto. split; auto. intros n' Hn' E'. destruct (proj2 (IN n') (conj Hn' E')) as [H|[]]; congruence.
  - intros (H1 & H2 & H3).
    assert (ND' : NoDup (named g k (mg_nodes g))) by (now apply NoDup_filter).
    destruct (named g k (mg_nodes g)) as [|a [|b r]].
    + exfalso. apply (proj2 (IN n)). auto.
    + f_equal. apply H3; apply IN; now left.
    + exfalso. inversion ND' as [|? ? X1 X2]; subst. apply X1. left.
      transitivity n; [|symmetry]; apply H3; apply IN; simpl; auto.
Qed.

Lemma load_names_iff g names m : NoDup (mg_nodes g) ->
  (module_load_names g names = Some m <->
   exists outs, Forall2 (only_named g) names outs /\ module_load g outs = Some m).
Proof.
  intro ND. rewrite load_names_lists. split; intros (outs & H1 & H2); exists outs; split; auto;
    (eapply Forall2_impl; [|exact H1]); intros; now apply named_only.
Qed.

(** ** equal functions *)
Scheme den_mind := Induction for den Sort Prop
  with dens_mind := Induction for dens Sort Prop.
Combined Scheme den_dens_mind from den_mind, dens_mind.

Section Meaning.
Context {V Opr : Type}.
Variable packV : list V -> V.
Variable fieldV : V -> Z -> option V.
Variable oprun : Opr -> list V -> opres V.
Variable interp : bubble -> nkind V Opr.
Variables (m m' : module) (f : node -> node).
Hypothesis R : renamed f m m'.
Hypothesis H_inputs : forall i, In i (m_inputs m) -> mg_ins (m_graph m) i = [].
Variables (env env' : node -> option V).
Hypothesis E : forall n, part_of m n -> env' (f n) = env n.

Lemma part_closed n i : part_of m n -> In i (mg_ins (m_graph m) n) -> part_of m i.
Proof.
  intros [H|(o & H1 & H2)] Hi.
  - rewrite H_inputs in Hi by auto. contradiction.
  - right. exists o. split; auto. eapply reachable_trans; eauto. eapply reachable_step; eauto. constructor.
Qed.

Notation G := (meaning interp (m_graph m)).
Notation G' := (meaning interp (m_graph m')).

Lemma den_forward :
  (forall n v, den packV fieldV oprun G env n v -> part_of m n -> den packV fieldV oprun G' env' (f n) v) /\
  (forall ns vs, dens packV fieldV oprun G env ns vs -> (forall n, In n ns -> part_of m n) ->
     dens packV fieldV oprun G' env' (map f ns) vs).
Proof.
  apply den_dens_mind.
  - intros n v K En P. apply den_param; [|rewrite E; auto].
    cbn [kind meaning] in *. now rewrite (rn_bub f m m' R).
  - intros n v K P. apply den_const. cbn [kind meaning] in *. now rewrite (rn_bub f m m' R).
  - intros n vs v K D IH NV P.
    apply den_op with (vs := vs); cbn [kind ins meaning] in *; rewrite ?(rn_bub f m m' R), ?(rn_ins f m m' R) by auto; auto.
    apply IH. intros i Hi. eapply part_closed; eauto.
  - intros _. constructor.
  - intros n ns v vs D IH Ds IHs P. cbn [map]. constructor; [apply IH|apply IHs]; intros; apply P; simpl; auto.
Qed.

Lemma den_backward :
  (forall k v, den packV fieldV oprun G' env' k v -> forall n, part_of m n -> k = f n -> den packV fieldV oprun G env n v) /\
  (forall ks vs, dens packV fieldV oprun G' env' ks vs -> forall ns, (forall n, In n ns -> part_of m n) ->
     ks = map f ns -> dens packV fieldV oprun G env ns vs).
Proof.
  apply den_dens_mind.
  - intros k v K En n P ->. apply den_param; [|rewrite <- E; auto].
    cbn [kind meaning] in *. now rewrite (rn_bub f m m' R) in K.
  - intros k v K n P ->. apply den_const. cbn [kind meaning] in *. now rewrite (rn_bub f m m' R) in K.
  - intros k vs v K D IH NV n P ->.
    cbn [kind ins meaning] in *. rewrite (rn_bub f m m' R) in K, NV by auto.
    apply den_op with (vs := vs); cbn [kind ins meaning]; auto.
    apply IH; [|now apply (rn_ins f m m' R)]. intros i Hi. eapply part_closed; eauto.
  - intros ns _ H. destruct ns; [constructor|discriminate].
  - intros k ks v vs D IH Ds IHs ns P H. destruct ns as [|n ns]; [discriminate|].
    cbn [map] in H. injection H as -> ->. constructor; [apply IH|apply IHs]; auto; intros; apply P; simpl; auto.
Qed.
End Meaning.

Lemma bind_renamed {V} (m m' : module) f (args : list V) : renamed f m m' ->
  forall n, part_of m n -> bind (m_inputs m') args (f n) = bind (m_inputs m) args n.
Proof.
  intros R n P. rewrite (rn_inputs f m m' R).
  assert (H : forall l a, (forall x, In x l -> part_of m x) -> bind (map f l) a (f n) = @bind V l a n).
  { induction l as [|x l IH]; intros a Hl; [reflexivity|]. destruct a as [|v a]; [reflexivity|].
    cbn [map bind]. rewrite IH by (intros; apply Hl; now right).
    destruct (Nat.eqb_spec n x) as [->|H1]; [now rewrite Nat.eqb_refl|].
    destruct (Nat.eqb_spec (f n) (f x)) as [H2|H2]; auto.
    exfalso. apply H1. apply (rn_inj f m m' R); auto. apply Hl. now left. }
  apply H. intros x Hx. now left.
Qed.

Lemma meaning_renamed {V Opr} packV fieldV (oprun : Opr -> list V -> opres V) interp m m' f args vs :
  renamed f m m' -> (forall i, In i (m_inputs m) -> mg_ins (m_graph m) i = []) ->
  (dens packV fieldV oprun (meaning interp (m_graph m)) (bind (m_inputs m) args) (m_outputs m) vs <->
   dens packV fieldV oprun (meaning interp (m_graph m')) (bind (m_inputs m') args) (m_outputs m') vs).
Proof.
  intros R HI. pose proof (@bind_renamed V m m' f args R) as B.
  assert (PO : forall n, In n (m_outputs m) -> part_of m n).
  { intros n Hn. right. exists n. split; auto. constructor. }
  rewrite (rn_outputs f m m' R). split; intro D.
  - eapply den_forward; eauto.
  - eapply den_backward; eauto.
Qed.

(** ** files that are not modules *)
Lemma load_needs_code cast_other to_int s m rest : Forall (fun b => (0 <= b < 256)%Z) s ->
  load_file cast_other to_int s = ROk m rest -> firstn 4 (skipn 4 s) = w32 module_code.
Proof.
  intros HF. unfold load_file. destruct (read_into (zeros 4) s) as [a s1] eqn:E1.
  destruct (read_into (zeros 4) s1) as [cb s2] eqn:E2.
  destruct (read_into (zeros 120) s2) as [c s3].
  destruct (Z.eqb_spec (value_or_0 cb) module_code) as [E|E]; [|discriminate]. intros _.
  assert (E1' : s1 = skipn 4 s) by (change s1 with (snd (a, s1)); rewrite <- E1; reflexivity).
  assert (E2' : cb = fst (read_into (zeros 4) s1)) by (rewrite E2; reflexivity).
  unfold read_into in E2'. cbn [fst] in E2'. change (length (zeros 4)) with 4%nat in *.
  subst cb. clear E1 E2.
  assert (HS : Forall (fun b => (0 <= b < 256)%Z) (skipn 4 s)).
  { rewrite <- (firstn_skipn 4 s) in HF. apply Forall_app in HF. apply HF. }
  rewrite <- E1' in *. clear E1' HF. destruct s1 as [|x0 [|x1 [|x2 [|x3 r]]]];
    repeat match goal with H : Forall _ (_ :: _) |- _ => pose proof (Forall_inv H); apply Forall_inv_tail in H end; cbv beta in *;
    cbv [firstn length map app zeros repeat skipn value_or_0 le_value] in E; unfold module_code in *; try lia.
  cbn [firstn]. change (w32 428935465) with [41; 9; 145; 25]%Z.
  assert (x0 = 41 /\ x1 = 9 /\ x2 = 145 /\ x3 = 25)%Z as (-> & -> & -> & ->) by lia. reflexivity.
Qed.
