(** Proofs about list_reference_nodes and build_node_refs. *)
From Coq Require Import List ZArith Bool Lia Permutation Sorted Arith.
From Verif Require Import StackModel GraphSpec GraphModel.
Import ListNotations.

Lemma lookup_In {A} (m : list (node * A)) n d : lookup m n = Some d -> In (n, d) m.
Proof.
  induction m as [|[k x] t IH]; simpl; [discriminate|].
  destruct (Nat.eqb_spec n k) as [->|H]; intro E.
  - injection E as <-. now left.
  - right. auto.
Qed.

Lemma lookup_None_notin {A} (m : list (node * A)) n :
  lookup m n = None <-> ~ In n (map fst m).
Proof.
  induction m as [|[k x] t IH]; simpl; [tauto|].
  destruct (Nat.eqb_spec n k) as [->|H].
  - split; [discriminate|]. intros H; exfalso; apply H; now left.
  - rewrite IH. split; intros H1; [intros [H2|H2]; [congruence|tauto]|tauto].
Qed.

Lemma lookup_Some_in {A} (m : list (node * A)) n :
  (exists d, lookup m n = Some d) <-> In n (map fst m).
Proof.
  destruct (lookup m n) as [d|] eqn:E.
  - split; [|eauto]. intros _. apply lookup_In in E. apply (in_map fst) in E. exact E.
  - apply lookup_None_notin in E. split; [intros [d H]; discriminate|tauto].
Qed.

Lemma lookup_app {A} (m1 m2 : list (node * A)) n :
  lookup (m1 ++ m2) n = match lookup m1 n with Some d => Some d | None => lookup m2 n end.
Proof.
  induction m1 as [|[k x] t IH]; simpl; auto.
  destruct (Nat.eqb_spec n k); auto.
Qed.

Lemma lookup_update {A} (m : list (node * A)) n d k :
  lookup (update m n d) k =
  if Nat.eqb k n then match lookup m n with Some _ => Some d | None => None end else lookup m k.
Proof.
  induction m as [|[k' x] t IH]; simpl.
  - now destruct (Nat.eqb k n).
  - destruct (Nat.eqb_spec n k') as [->|H]; simpl.
    + destruct (Nat.eqb_spec k k'); auto.
    + rewrite IH. destruct (Nat.eqb_spec k k') as [->|H2]; auto.
      destruct (Nat.eqb_spec k' n); [congruence|auto].
Qed.

Lemma map_fst_update {A} (m : list (node * A)) n d : map fst (update m n d) = map fst m.
Proof.
  induction m as [|[k x] t IH]; simpl; auto.
  destruct (Nat.eqb_spec n k); simpl; congruence.
Qed.

Section GraphProofs.
Context {V Opr : Type}.
Notation graph := (graph V Opr).
Variable g : graph.

(** ** reachability *)
Lemma reach_trans a b c : reach g a b -> reach g b c -> reach g a c.
Proof. induction 1; intros; auto. eapply reach_step; eauto. Qed.

Lemma reach_in a b m : reach g a b -> In m (ins g b) -> reach g a m.
Proof.
  intros H1 H2. eapply reach_trans; [exact H1|].
  eapply reach_step; [exact H2|apply reach_refl].
Qed.

Lemma depends_reach a b : depends g a b -> reach g a b.
Proof. intros [m [H1 H2]]. eapply reach_step; eauto. Qed.

Lemma reach_rank rank a b :
  (forall n m, In m (ins g n) -> rank m < rank n) -> reach g a b -> rank b <= rank a.
Proof. intros HR; induction 1 as [|a m b H1 H2 IH]; [lia|]. specialize (HR _ _ H1). lia. Qed.

Lemma depends_rank rank a b :
  (forall n m, In m (ins g n) -> rank m < rank n) -> depends g a b -> rank b < rank a.
Proof.
  intros HR [m [H1 H2]]. pose proof (HR _ _ H1). pose proof (reach_rank _ _ _ HR H2). lia.
Qed.

(** ** unfolding weight: the number of paths starting at a node *)
Definition lsum (l : list nat) : nat := fold_right Nat.add 0 l.

Fixpoint wt (k : nat) (n : node) : nat :=
  match k with
  | O => 1
  | S k' => S (lsum (map (wt k') (ins g n)))
  end.

Lemma wt_stable rank (HR : forall n m, In m (ins g n) -> rank m < rank n) :
  forall k n, rank n <= k -> wt k n = wt (rank n) n.
Proof.
  assert (H : forall r n, rank n <= r -> forall k, rank n <= k -> wt k n = wt (rank n) n).
  { induction r as [|r IH]; intros n Hr k Hk.
    - assert (rank n = 0) by lia.
      assert (Hi : ins g n = []).
      { destruct (ins g n) as [|m l] eqn:E; auto.
        assert (rank m < rank n) by (apply HR; rewrite E; now left). lia. }
      rewrite H. destruct k; simpl; rewrite ?Hi; reflexivity.
    - destruct (rank n) as [|rn] eqn:En.
      + assert (Hi : ins g n = []).
        { destruct (ins g n) as [|m l] eqn:E; auto.
          assert (rank m < rank n) by (apply HR; rewrite E; now left). lia. }
        destruct k; simpl; rewrite ?Hi; reflexivity.
      + destruct k as [|k]; [lia|]. simpl. f_equal. f_equal.
        apply map_ext_in. intros m Hm. pose proof (HR _ _ Hm).
        rewrite (IH m ltac:(lia) k ltac:(lia)).
        rewrite (IH m ltac:(lia) rn ltac:(lia)). reflexivity. }
  intros k n Hk. eapply H; eauto.
Qed.

Definition W (rank : node -> nat) (n : node) : nat := wt (rank n) n.
Definition Ws (rank : node -> nat) (l : list node) : nat := lsum (map (W rank) l).

Lemma lsum_app a b : lsum (a ++ b) = lsum a + lsum b.
Proof. induction a; simpl; lia. Qed.

Lemma Ws_app rank a b : Ws rank (a ++ b) = Ws rank a + Ws rank b.
Proof. unfold Ws. now rewrite map_app, lsum_app. Qed.

Lemma W_unfold rank (HR : forall n m, In m (ins g n) -> rank m < rank n) n :
  W rank n = S (Ws rank (ins g n)).
Proof.
  unfold W, Ws. rewrite <- (wt_stable rank HR (S (rank n)) n) by lia. simpl. f_equal. f_equal.
  apply map_ext_in. intros m Hm. apply wt_stable; auto. pose proof (HR _ _ Hm). lia.
Qed.

Lemma W_pos rank n : 1 <= W rank n.
Proof. unfold W. destruct (rank n); simpl; lia. Qed.

(** ** the worklist *)
Lemma lrn_inputs_spec : forall is depth m q m' q',
  lrn_inputs is depth m q = (m', q') ->
  (forall n d, lookup m n = Some d -> exists d', lookup m' n = Some d' /\ d <= d') /\
  (forall i, In i is -> exists di, lookup m' i = Some di /\ depth < di) /\
  (forall n d, lookup m' n = Some d -> lookup m n = Some d \/ In n q') /\
  (exists extra, q' = q ++ extra /\ incl extra is /\
     forall rank, Ws rank extra <= Ws rank is) /\
  (forall n, In n (map fst m') -> In n (map fst m) \/ In n is) /\
  (NoDup (map fst m) -> NoDup (map fst m')).
Proof.
  induction is as [|i is IH]; simpl; intros depth m q m' q' E.
  - injection E as <- <-. split; [|split; [|split; [|split; [|split]]]].
    + intros n d H; exists d; auto.
    + tauto.
    + auto.
    + exists []. rewrite app_nil_r. repeat split; auto. intros x [].
    + auto.
    + auto.
  - destruct (lookup m i) as [d|] eqn:El.
    + destruct (Nat.ltb_spec d (S depth)) as [Hlt|Hge].
      * apply IH in E as (A & B & C & (ex & D1 & D2 & D3) & F & G).
        split; [|split; [|split; [|split; [|split]]]].
        -- intros n dn Hn.
           destruct (Nat.eqb_spec n i) as [->|Hne].
           ++ destruct (A i (S depth)) as (d' & H1 & H2).
              { rewrite lookup_update, Nat.eqb_refl, El; auto. }
              exists d'; split; auto. rewrite El in Hn; injection Hn as <-. lia.
           ++ apply A. rewrite lookup_update. destruct (Nat.eqb_spec n i); congruence.
        -- intros k [<-|Hk]; [|auto].
           destruct (A i (S depth)) as (d' & H1 & H2).
           { rewrite lookup_update, Nat.eqb_refl, El; auto. }
           exists d'; split; auto; lia.
        -- intros n dn Hn. destruct (C _ _ Hn) as [H|H]; [|auto].
           rewrite lookup_update in H.
           destruct (Nat.eqb_spec n i) as [->|Hne]; [|auto].
           right. rewrite D1. apply in_or_app. left. apply in_or_app. right. now left.
        -- exists (i :: ex). rewrite D1, <- app_assoc. split; [reflexivity|split].
           ++ intros x [<-|Hx]; [now left|right; auto].
           ++ intros rank. specialize (D3 rank). unfold Ws in *. simpl. lia.
        -- intros n Hn. destruct (F n Hn) as [H|H]; [|auto].
           rewrite map_fst_update in H. auto.
        -- intros Hnd. apply G. now rewrite map_fst_update.
      * apply IH in E as (A & B & C & (ex & D1 & D2 & D3) & F & G).
        split; [|split; [|split; [|split; [|split]]]]; auto.
        -- intros k [<-|Hk]; [|auto].
           destruct (A _ _ El) as (d' & H1 & H2). exists d'; split; auto; lia.
        -- exists ex. split; [auto|split].
           ++ intros x Hx; right; auto.
           ++ intros rank. specialize (D3 rank). unfold Ws in *. simpl. lia.
        -- intros n Hn. destruct (F n Hn); auto.
    + apply IH in E as (A & B & C & (ex & D1 & D2 & D3) & F & G).
      split; [|split; [|split; [|split; [|split]]]].
      * intros n dn Hn. apply A. rewrite lookup_app, Hn. reflexivity.
      * intros k [<-|Hk]; [|auto].
        destruct (A i (S depth)) as (d' & H1 & H2).
        { rewrite lookup_app, El. simpl. now rewrite Nat.eqb_refl. }
        exists d'; split; auto; lia.
      * intros n dn Hn. destruct (C _ _ Hn) as [H|H]; [|auto].
        rewrite lookup_app in H. destruct (lookup m n) eqn:E2; [auto|].
        simpl in H. destruct (Nat.eqb_spec n i) as [->|]; [|discriminate].
        right. rewrite D1. apply in_or_app. left. apply in_or_app. right. now left.
      * exists (i :: ex). rewrite D1, <- app_assoc. split; [reflexivity|split].
        -- intros x [<-|Hx]; [now left|right; auto].
        -- intros rank. specialize (D3 rank). unfold Ws in *. simpl. lia.
      * intros n Hn. destruct (F n Hn) as [H|H]; [|auto].
        rewrite map_app in H. apply in_app_or in H as [H|H]; [auto|].
        simpl in H. destruct H as [<-|[]]. auto.
      * intros Hnd. apply G. rewrite map_app. simpl.
        apply lookup_None_notin in El.
        apply Permutation_NoDup with (l := i :: map fst m).
        -- apply Permutation_cons_append.
        -- now constructor.
Qed.

(** Invariant of the worklist loop. *)
Record lrn_inv (roots : list node) (m : list (node * nat)) (q : list node) : Prop := {
  li_roots : incl roots (map fst m);
  li_closed : forall n d, lookup m n = Some d ->
     In n q \/ forall i, In i (ins g n) -> exists di, lookup m i = Some di /\ d < di;
  li_reach : forall n, In n (map fst m) -> exists r, In r roots /\ reach g r n;
  li_q : incl q (map fst m);
  li_nodup : NoDup (map fst m)
}.

Lemma lrn_init_inv : forall nodes m q m' q' ,
  lrn_init nodes m q = (m', q') ->
  (forall n, In n (map fst m) <-> In n q) -> NoDup (map fst m) ->
  (forall n, In n (map fst m') <-> In n (map fst m) \/ In n nodes) /\
  (forall n, In n (map fst m') <-> In n q') /\ NoDup (map fst m') /\
  (forall rank, Ws rank q' <= Ws rank q + Ws rank nodes).
Proof.
  induction nodes as [|n t IH]; simpl; intros m q m' q' E Hq Hnd.
  - injection E as <- <-. repeat split; auto; try tauto.
    + apply Hq.
    + apply Hq.
    + intros. unfold Ws; simpl; lia.
  - destruct (lookup m n) as [d|] eqn:El.
    + destruct (IH _ _ _ _ E Hq Hnd) as (A & B & C & D).
      split; [|split; [|split]]; auto.
      * intros x. rewrite A.
        assert (In n (map fst m)) by (apply lookup_Some_in; eauto).
        split; [tauto|]. intros [H1|[->|H1]]; auto.
      * intros rank. specialize (D rank). unfold Ws in *; simpl; lia.
    + assert (Hq' : forall x, In x (map fst (m ++ [(n, 1)])) <-> In x (q ++ [n])).
      { intros x. rewrite map_app, !in_app_iff, Hq. reflexivity. }
      assert (Hnd' : NoDup (map fst (m ++ [(n, 1)]))).
      { rewrite map_app. simpl. apply lookup_None_notin in El.
        apply Permutation_NoDup with (l := n :: map fst m).
        - apply Permutation_cons_append.
        - now constructor. }
      destruct (IH _ _ _ _ E Hq' Hnd') as (A & B & C & D).
      split; [|split; [|split]]; auto.
      * intros x. rewrite A, map_app, in_app_iff. simpl. tauto.
      * intros rank. specialize (D rank). rewrite Ws_app in D. unfold Ws in *; simpl in *; lia.
Qed.

Lemma lrn_step_inv roots m n q m' q'' :
  lrn_inv roots m (n :: q) ->
  lrn_inputs (ins g n) (match lookup m n with Some d => d | None => 0 end) m q = (m', q'') ->
  lrn_inv roots m' q''.
Proof.
  intros I E. destruct I as [I1 I2 I3 I4 I5].
  apply lrn_inputs_spec in E as (A & B & C & (ex & D1 & D2 & D3) & F & G).
  assert (Hin : forall x, In x (map fst m) -> In x (map fst m')).
  { intros x Hx. apply lookup_Some_in in Hx as [d Hd]. destruct (A _ _ Hd) as (d' & H & _).
    apply lookup_Some_in; eauto. }
  constructor.
  - intros x Hx. auto.
  - intros x d Hx. destruct (C _ _ Hx) as [H|H]; [|auto].
    destruct (I2 _ _ H) as [[<-|Hq]|Hcl].
    + right. intros i Hi. rewrite H in B. destruct (B i Hi) as (di & H1 & H2). eauto.
    + left. rewrite D1. apply in_or_app; auto.
    + right. intros i Hi. destruct (Hcl i Hi) as (di & H1 & H2).
      destruct (A _ _ H1) as (d' & H3 & H4). exists d'; split; auto; lia.
  - intros x Hx. destruct (F _ Hx) as [H|H]; [auto|].
    assert (Hn : In n (map fst m)) by (apply I4; now left).
    destruct (I3 _ Hn) as (r & Hr & Hre). exists r; split; auto. eapply reach_in; eauto.
  - intros x Hx. rewrite D1 in Hx. apply in_app_or in Hx as [Hx|Hx].
    + apply Hin, I4. now right.
    + destruct (B x (D2 _ Hx)) as (di & H & _). apply lookup_Some_in; eauto.
  - auto.
Qed.

Lemma lrn_loop_inv roots : forall fuel m q m',
  lrn_inv roots m q -> lrn_loop fuel g m q = Some m' -> lrn_inv roots m' [].
Proof.
  induction fuel as [|fuel IH]; intros m q m' I E; destruct q as [|n q]; simpl in E.
  - injection E as <-; auto.
  - discriminate.
  - injection E as <-; auto.
  - destruct (lrn_inputs _ _ _ _) as [m1 q1] eqn:E1.
    eapply IH; [|exact E]. eapply lrn_step_inv; eauto.
Qed.

Lemma lrn_loop_terminates rank (HR : forall n m, In m (ins g n) -> rank m < rank n) :
  forall fuel m q, Ws rank q <= fuel -> exists m', lrn_loop fuel g m q = Some m'.
Proof.
  induction fuel as [|fuel IH]; intros m q H; destruct q as [|n q]; simpl; eauto.
  - unfold Ws in H; simpl in H. pose proof (W_pos rank n). lia.
  - destruct (lrn_inputs _ _ _ _) as [m1 q1] eqn:E1.
    apply lrn_inputs_spec in E1 as (_ & _ & _ & (ex & D1 & _ & D3) & _).
    apply IH. rewrite D1, Ws_app. specialize (D3 rank).
    unfold Ws in *. simpl in H. rewrite (W_unfold rank HR n) in H. unfold Ws in *. lia.
Qed.

(** ** sorting *)
Lemma insert_desc_perm p l : Permutation (p :: l) (insert_desc p l).
Proof.
  induction l as [|h t IH]; simpl; auto.
  destruct (snd h <? snd p); auto.
  eapply perm_trans; [apply perm_swap|]. auto.
Qed.

Lemma sort_desc_perm l : Permutation l (sort_desc l).
Proof.
  induction l as [|h t IH]; simpl; auto.
  eapply perm_trans; [apply perm_skip, IH|apply insert_desc_perm].
Qed.

Definition desc (a b : node * nat) : Prop := snd b <= snd a.

Lemma insert_desc_sorted p l : StronglySorted desc l -> StronglySorted desc (insert_desc p l).
Proof.
  induction l as [|h t IH]; simpl; intros H.
  - repeat constructor.
  - apply StronglySorted_inv in H as [H1 H2].
    destruct (Nat.ltb_spec (snd h) (snd p)) as [L|L].
    + constructor; [constructor; auto|].
      constructor; [unfold desc; lia|].
      eapply Forall_impl; [|exact H2]. unfold desc; intros; lia.
    + constructor; [auto|].
      rewrite Forall_forall in *. intros x Hx.
      apply (Permutation_in x (Permutation_sym (insert_desc_perm p t))) in Hx as [<-|Hx].
      * unfold desc; lia.
      * auto.
Qed.

Lemma sort_desc_sorted l : StronglySorted desc (sort_desc l).
Proof. induction l; simpl; [constructor|]. now apply insert_desc_sorted. Qed.

(** ** the schedule is closed and topologically ordered *)
Record schedule_ok (roots : list node) (sched : list (node * nat)) : Prop := {
  so_mem : forall n, In n (map fst sched) <-> exists r, In r roots /\ reach g r n;
  so_nodup : NoDup (map fst sched);
  so_topo : forall pre n post, map fst sched = pre ++ n :: post ->
            forall i, In i (ins g n) -> In i pre
}.

Lemma lrn_inv_schedule roots m sched :
  lrn_inv roots m [] -> Permutation m sched -> StronglySorted desc sched ->
  schedule_ok roots sched.
Proof.
  intros [I1 I2 I3 _ I5] HP HS.
  assert (HPf : Permutation (map fst m) (map fst sched)) by (now apply Permutation_map).
  assert (Hcl : forall n d, lookup m n = Some d ->
            forall i, In i (ins g n) -> exists di, lookup m i = Some di /\ d < di).
  { intros n d H. destruct (I2 _ _ H) as [[]|H']. exact H'. }
  assert (Hreach : forall a b, reach g a b -> In a (map fst m) -> In b (map fst m)).
  { intros a b H. induction H as [n|a k b H1 H2 IH]; intros Ha; auto. apply IH.
    apply lookup_Some_in in Ha as [d Hd]. destruct (Hcl _ _ Hd _ H1) as (di & H & _).
    apply lookup_Some_in; eauto. }
  constructor.
  - intros n. split.
    + intros Hn. apply I3. eapply Permutation_in; [apply Permutation_sym; exact HPf|auto].
    + intros (r & Hr & Hre). eapply Permutation_in; [exact HPf|]. eapply Hreach; eauto.
  - eapply Permutation_NoDup; eauto.
  - intros pre n post E i Hi.
    assert (Hn : In n (map fst m)).
    { eapply Permutation_in; [apply Permutation_sym; exact HPf|]. rewrite E.
      apply in_or_app; right; now left. }
    apply lookup_Some_in in Hn as [d Hd].
    destruct (Hcl _ _ Hd _ Hi) as (di & Hdi & Hlt).
    assert (Hinn : In (n, d) sched) by (eapply Permutation_in; [exact HP|apply lookup_In; auto]).
    assert (Hini : In (i, di) sched) by (eapply Permutation_in; [exact HP|apply lookup_In; auto]).
    assert (Hii : In i (map fst sched)) by (apply (in_map fst) in Hini; exact Hini).
    rewrite E in Hii. apply in_app_or in Hii as [?|[->|Hpost]]; [assumption| |].
    + rewrite Hd in Hdi. injection Hdi as ->. lia.
    + exfalso.
      (* split sched accordingly *)
      apply map_eq_app in E as (s1 & s2 & -> & Ep & E2).
      destruct s2 as [|[n' d'] s3]; [discriminate|]. simpl in E2. injection E2 as -> Es3.
      assert (Hnd : NoDup (map fst (s1 ++ (n, d') :: s3))).
      { eapply Permutation_NoDup; eauto. }
      assert (d' = d).
      { assert (Hd' : In (n, d') m).
        { eapply Permutation_in; [apply Permutation_sym; exact HP|]. apply in_or_app; right; now left. }
        clear - Hd Hd' I5. induction m as [|[k x] t IH]; simpl in *; [contradiction|].
        inversion I5 as [|? ? N1 N2]; subst.
        destruct (Nat.eqb_spec n k) as [->|Hne].
        - injection Hd as ->. destruct Hd' as [H|H]; [congruence|].
          exfalso; apply N1. apply (in_map fst) in H. exact H.
        - destruct Hd' as [H|H]; [congruence|auto]. }
      subst d'.
      assert (In (i, di) s3).
      { rewrite map_app in Hnd. simpl in Hnd.
        apply in_app_or in Hini as [H|[H|H]]; auto.
        - exfalso. apply (in_map fst) in H. simpl in H.
          rewrite <- Es3 in Hpost.
          apply NoDup_remove_1 in Hnd.
          clear - Hnd H Hpost. induction (map fst s1) as [|x xs IH]; simpl in *; [contradiction|].
          inversion Hnd as [|? ? N1 N2]; subst. destruct H as [->|H]; [|auto].
          apply N1. apply in_or_app; auto.
        - injection H as -> ->. exfalso. rewrite <- Es3 in Hpost.
          apply NoDup_remove_2 in Hnd. apply Hnd. apply in_or_app; auto. }
      assert (HS' : StronglySorted desc ((n, d) :: s3)).
      { clear - HS. induction s1 as [|x xs IH]; simpl in *; auto.
        apply StronglySorted_inv in HS as [HS _]. auto. }
      apply StronglySorted_inv in HS' as [_ HF]. rewrite Forall_forall in HF.
      specialize (HF _ H). unfold desc in HF. simpl in HF. lia.
Qed.

Lemma lrn_init_ok roots m q :
  lrn_init roots [] [] = (m, q) -> lrn_inv roots m q.
Proof.
  intros E. apply lrn_init_inv in E as (A & B & C & _); [|simpl; tauto|constructor].
  constructor; auto.
  - intros x Hx. apply A. auto.
  - intros n d H. left. apply B. apply lookup_Some_in. eauto.
  - intros n Hn. apply A in Hn as [[]|Hn]. exists n; split; auto. apply reach_refl.
  - intros x Hx. apply B; auto.
Qed.

Theorem list_reference_nodes_ok fuel roots sched :
  list_reference_nodes fuel g roots = Some sched -> schedule_ok roots sched.
Proof.
  unfold list_reference_nodes. destruct (lrn_init roots [] []) as [m q] eqn:E.
  destruct (lrn_loop fuel g m q) as [m'|] eqn:E2; [|discriminate].
  intros H; injection H as <-.
  eapply lrn_inv_schedule; [|apply sort_desc_perm|apply sort_desc_sorted].
  eapply lrn_loop_inv; [|exact E2]. now apply lrn_init_ok.
Qed.

Theorem list_reference_nodes_terminates rank roots fuel :
  (forall n m, In m (ins g n) -> rank m < rank n) ->
  Ws rank roots <= fuel ->
  exists sched, list_reference_nodes fuel g roots = Some sched.
Proof.
  intros HR Hf. unfold list_reference_nodes.
  destruct (lrn_init roots [] []) as [m q] eqn:E.
  apply lrn_init_inv in E as (_ & _ & _ & D); [|simpl; tauto|constructor].
  destruct (lrn_loop_terminates rank HR fuel m q) as [m' Hm'].
  { specialize (D rank). unfold Ws in *. simpl in D. lia. }
  rewrite Hm'. eauto.
Qed.

(** ** the reference sets are exactly the proper dependencies *)
Definition refs_exact (t : list (node * list node)) (n : node) : Prop :=
  forall b, In b (refs_of t n) <-> depends g n b.

Lemma build_inputs_known : forall is t refs,
  (forall i, In i is -> In i (map fst t)) ->
  exists refs', build_inputs is t refs = (t, refs') /\
  forall b, In b refs' <-> In b refs \/ exists i, In i is /\ (b = i \/ In b (refs_of t i)).
Proof.
  induction is as [|i is IH]; simpl; intros t refs H.
  - exists refs. split; auto. intros b; split; [auto|]. intros [?|(i & [] & _)]; auto.
  - assert (Hi : In i (map fst t)) by auto.
    apply lookup_Some_in in Hi as [d Hd].
    unfold map_insert. rewrite Hd.
    destruct (IH t (i :: refs_of t i ++ refs)) as (refs' & E & S); [auto|].
    exists refs'. split; auto. intros b. rewrite S. simpl. rewrite in_app_iff.
    split.
    + intros [[->|[H1|H1]]|(k & H1 & H2)]; eauto 6.
    + intros [H1|(k & [<-|H1] & H2)]; eauto 6.
      destruct H2 as [->|H2]; auto.
Qed.

Lemma build_refs_exact : forall sched done t,
  (forall pre n post, map fst sched = pre ++ n :: post ->
     forall i, In i (ins g n) -> In i done \/ In i pre) ->
  NoDup (done ++ map fst sched) ->
  (forall n, In n (map fst t) <-> In n done) ->
  (forall n, In n done -> refs_exact t n) ->
  forall n, In n (done ++ map fst sched) -> refs_exact (build_refs g sched t) n.
Proof.
  induction sched as [|[n d] sched IH]; simpl; intros done t Htopo Hnd Hk He x Hx.
  - rewrite app_nil_r in Hx. auto.
  - destruct (build_inputs_known (ins g n) t []) as (refs & E & S).
    { intros i Hi. apply Hk. destruct (Htopo [] n (map fst sched) eq_refl i Hi) as [H|[]]; auto. }
    rewrite E.
    assert (Hn : lookup t n = None).
    { apply lookup_None_notin. rewrite Hk. intros H.
      apply NoDup_remove_2 in Hnd. apply Hnd. apply in_or_app; auto. }
    unfold map_insert. rewrite Hn.
    apply (IH (done ++ [n])).
    + intros pre k post Ek i Hi.
      destruct (Htopo (n :: pre) k post ltac:(simpl; now rewrite Ek) i Hi) as [H|[<-|H]]; auto;
        left; apply in_or_app; simpl; auto.
    + rewrite <- app_assoc. exact Hnd.
    + intros k. simpl. rewrite in_app_iff, Hk. simpl. tauto.
    + intros k Hkd. unfold refs_exact, refs_of. simpl. intros b.
      destruct (Nat.eqb_spec k n) as [->|Hne].
      * rewrite S. split.
        -- intros [[]|(i & Hi & [->|Hb])].
           ++ exists i; split; auto. apply reach_refl.
           ++ assert (In i done) as Hid by (destruct (Htopo [] n (map fst sched) eq_refl i Hi) as [H|[]]; auto).
              apply (He i Hid) in Hb. exists i; split; auto. now apply depends_reach.
        -- intros (m & Hm & Hr). right. exists m. split; auto.
           inversion Hr as [|a k' b' H1 H2]; subst; [auto|]. right.
           assert (In m done) as Hid by (destruct (Htopo [] n (map fst sched) eq_refl m Hm) as [H|[]]; auto).
           apply (He m Hid). exists k'; auto.
      * apply in_app_or in Hkd as [Hkd|[->|[]]]; [|congruence].
        apply (He k Hkd).
    + rewrite <- app_assoc. exact Hx.
Qed.

Theorem build_node_refs_exact roots sched :
  schedule_ok roots sched ->
  forall n, (exists r, In r roots /\ reach g r n) -> refs_exact (build_refs g sched []) n.
Proof.
  intros [A B C] n Hn. apply (build_refs_exact sched [] []); simpl; auto; try tauto.
  - intros. right. eapply C; eauto.
  - now apply A.
Qed.

Lemma list_reference_nodes_mono roots : forall f1 f2 sched, f1 <= f2 ->
  list_reference_nodes f1 g roots = Some sched -> list_reference_nodes f2 g roots = Some sched.
Proof.
  assert (H : forall f1 f2 m q r, f1 <= f2 -> lrn_loop f1 g m q = Some r -> lrn_loop f2 g m q = Some r).
  { induction f1 as [|f1 IH]; intros f2 m q r Hle E; destruct q as [|n q]; simpl in E; try discriminate.
    - destruct f2; simpl; auto.
    - destruct f2; simpl; auto.
    - destruct f2 as [|f2]; [lia|]. simpl.
      destruct (lrn_inputs _ _ _ _) as [m1 q1]. apply IH; auto; lia. }
  intros f1 f2 sched Hle. unfold list_reference_nodes.
  destruct (lrn_init roots [] []) as [m q].
  destruct (lrn_loop f1 g m q) eqn:E; [|discriminate].
  intros E2. erewrite H; eauto.
Qed.

End GraphProofs.
