From Coq Require Import List ZArith Bool Lia Arith.
From Verif Require Import ShapeModel ShapeSpec ShapeProofs KernelBase KernelSpec KernelProofs CoordProofs ConcatProofs TileModel EltwiseModel EltwiseSpec
  EltwiseProofs EltwiseKernelProofs EltwiseMainProofs WhereModel WhereSpec.
Import ListNotations.
Local Open Scope Z_scope.

(** * Broadcasting, axis by axis *)
Lemma srb_nth l r o : same_rank_broadcast l r o -> forall i, (i < length o)%nat ->
  (nth i l 0 = 1 \/ nth i l 0 = nth i o 0) /\ (nth i r 0 = 1 \/ nth i r 0 = nth i o 0) /\
  (nth i l 0 = nth i o 0 \/ nth i r 0 = nth i o 0).
Proof.
  induction 1 as [|a b o l r s Ha H IH]; intros i Hi; [cbn in Hi; lia|].
  destruct i as [|i]; cbn [nth]; [unfold axis_broadcast in Ha; intuition lia|]. apply IH. cbn in Hi. lia.
Qed.

Lemma nth_srb o : forall l r, length l = length o -> length r = length o ->
  (forall i, (i < length o)%nat -> (nth i l 0 = 1 \/ nth i l 0 = nth i o 0) /\ (nth i r 0 = 1 \/ nth i r 0 = nth i o 0) /\
    (nth i l 0 = nth i o 0 \/ nth i r 0 = nth i o 0)) -> same_rank_broadcast l r o.
Proof.
  induction o as [|d o IH]; intros [|a l] [|b r] L1 L2 H; try discriminate; [constructor|].
  constructor.
  - specialize (H O ltac:(cbn; lia)). cbn [nth] in H. unfold axis_broadcast. intuition lia.
  - apply IH; [now injection L1|now injection L2|]. intros i Hi. exact (H (S i) ltac:(cbn; lia)).
Qed.

Lemma nth_cfits o : forall s, length s = length o ->
  (forall i, (i < length o)%nat -> nth i s 0 = 1 \/ nth i s 0 = nth i o 0) -> cfits s o.
Proof.
  induction o as [|d o IH]; intros [|a s] L H; try discriminate; [constructor|].
  constructor; [exact (H O ltac:(cbn; lia))|]. apply IH; [now injection L|]. intros i Hi. exact (H (S i) ltac:(cbn; lia)).
Qed.

Lemma aligned_length n s : (length s <= n)%nat -> length (aligned n s) = n.
Proof. intros H. unfold aligned. rewrite app_length, repeat_length. lia. Qed.

Lemma broadcast_two l r o : broadcast l r o <-> broadcast_of [l; r] o.
Proof.
  unfold broadcast, broadcast_of, rank_of. cbn [map fold_right]. rewrite Nat.max_0_r.
  set (n := Nat.max (length l) (length r)).
  assert (Ll : length (aligned n l) = n) by (apply aligned_length; lia).
  assert (Lr : length (aligned n r) = n) by (apply aligned_length; lia).
  split.
  - intros H. destruct (srb_length _ _ _ H) as [E _]. assert (Lo : length o = n) by lia. split; [exact Lo|].
    intros i Hi. destruct (srb_nth _ _ _ H i Hi) as (H1 & H2 & H3). rewrite Lo. split.
    + intros s [<-|[<-|[]]]; assumption.
    + destruct H3 as [H3|H3]; [exists l|exists r]; cbn; auto.
  - intros [Lo H]. apply nth_srb; [lia|lia|]. intros i Hi. destruct (H i Hi) as [H1 (s & Hs & E)]. rewrite Lo in *.
    split; [apply H1; cbn; auto|]. split; [apply H1; cbn; auto|]. destruct Hs as [<-|[<-|[]]]; auto.
Qed.

Theorem broadcast_of_unique shapes o o' : broadcast_of shapes o -> broadcast_of shapes o' -> o = o'.
Proof.
  intros [L H] [L' H']. apply (nth_ext _ _ 0 0); [congruence|]. intros i Hi.
  destruct (H i Hi) as [H1 (s & Hs & E)]. destruct (H' i ltac:(lia)) as [H1' (s' & Hs' & E')].
  rewrite L, <- L' in E, H1. destruct (H1 s' Hs') as [F|F]; destruct (H1' s Hs) as [F'|F']; rewrite ?L, ?L' in *; congruence.
Qed.

(** * Loading through the modulus *)
Lemma mod_load_shown {A} (data : list A) rank s o c : cfits (aligned rank s) o -> inside o c ->
  mod_load data (aligned rank s) c = load data (position s (shown s c)).
Proof.
  intros F Hc. unfold mod_load. rewrite (mod_coordinate_ok o _ c F Hc).
  destruct (src_position _ _ c F Hc) as [I _]. pose proof (inside_length _ _ I) as L.
  rewrite to_index_ok by lia. rewrite L, Nat.sub_diag. cbn [skipn]. now rewrite (proj2 (shown_in _ _ _ _ F Hc)).
Qed.

Lemma load_elt {A} (x : tensor A) c a : wf x -> inside (t_shape x) c -> elt x c = Some a -> load (t_data x) (position (t_shape x) c) = SOk a.
Proof.
  intros W I E. unfold elt in E. pose proof (position_bound _ _ I). destruct (load_ok (t_data x) (position (t_shape x) c)) as (b & Hb & Hn).
  { rewrite (proj2 W). assumption. } rewrite Hb. congruence.
Qed.

(** a walk over all coordinates *)
Lemma walk_exec {A} (v : list Z -> A) (g : list Z -> sres A) o : positive_shape o ->
  (forall c, inside o c -> g c = SOk (v c)) ->
  exec (fresh (elements o)) (map (fun j => (Z.of_nat j, g (coordinate o j))) (seq 0 (Z.to_nat (elements o)))) =
  SOk (map Some (map (fun p => v (coordinate o (Z.to_nat p))) (upto (elements o)))).
Proof.
  intros P H. apply (exec_all (fun p => v (coordinate o (Z.to_nat p)))).
  - intros d w Hin. apply in_map_iff in Hin. destruct Hin as (j & [= <- <-] & Hj). apply in_seq in Hj.
    pose proof (elements_pos _ P). split; [lia|]. rewrite Nat2Z.id. apply H. apply (coordinate_at o j P). lia.
  - intros d Hd. apply in_map_iff. exists (d, g (coordinate o (Z.to_nat d))). split; [reflexivity|].
    apply in_map_iff. exists (Z.to_nat d). rewrite Z2Nat.id by lia. split; [reflexivity|]. apply in_seq. lia.
Qed.

Lemma coordinate_position o c : positive_shape o -> inside o c -> coordinate o (Z.to_nat (position o c)) = c.
Proof.
  intros P Hc. pose proof (position_bound _ _ Hc) as B. destruct (coordinate_at o (Z.to_nat (position o c)) P) as [I E]; [lia|].
  rewrite Z2Nat.id in E by lia. exact (position_inj _ _ _ I Hc E).
Qed.

(** * where *)
Lemma where_axes_ok c : forall l r, length l = length c -> length r = length c ->
  positive_shape c -> positive_shape l -> positive_shape r ->
  match where_axes c l r with
  | Some (o, b) => length o = length c /\ positive_shape o /\
      (forall i, (i < length c)%nat ->
        (nth i c 0 = 1 \/ nth i c 0 = nth i o 0) /\ (nth i l 0 = 1 \/ nth i l 0 = nth i o 0) /\ (nth i r 0 = 1 \/ nth i r 0 = nth i o 0) /\
        (nth i c 0 = nth i o 0 \/ nth i l 0 = nth i o 0 \/ nth i r 0 = nth i o 0)) /\
      (b = false -> c = o /\ l = o /\ r = o)
  | None => exists i, (i < length c)%nat /\ forall v,
      ~ ((nth i c 0 = 1 \/ nth i c 0 = v) /\ (nth i l 0 = 1 \/ nth i l 0 = v) /\ (nth i r 0 = 1 \/ nth i r 0 = v))
  end.
Proof.
  induction c as [|a c IH]; intros [|b l] [|d r] L1 L2 Pc Pl Pr; try discriminate.
  { cbn. split; [reflexivity|]. split; [constructor|]. split; [intros i Hi; lia|]. auto. }
  inversion Pc as [|? ? Ha Pc']; subst. inversion Pl as [|? ? Hb Pl']; subst. inversion Pr as [|? ? Hd Pr']; subst.
  specialize (IH l r ltac:(now injection L1) ltac:(now injection L2) Pc' Pl' Pr'). cbn [where_axes].
  destruct (negb ((a =? b) && (a =? d)) && _) eqn:E.
  - exists O. split; [cbn; lia|]. intros v. cbn [nth].
    apply andb_true_iff in E. destruct E as [_ E]. rewrite !orb_true_iff, !andb_true_iff, !negb_true_iff, !Z.eqb_neq in E. lia.
  - destruct (where_axes c l r) as [[o q]|].
    + destruct IH as (Lo & Po & Hi & Hq).
      destruct ((a =? b) && (a =? d)) eqn:Eq.
      * apply andb_true_iff in Eq. rewrite !Z.eqb_eq in Eq. destruct Eq as [<- <-]. split; [cbn; lia|].
        split; [constructor; auto|]. split.
        { intros [|i] Hlt; cbn [nth]; [lia|]. apply Hi. cbn in Hlt. lia. }
        intros Q. destruct (Hq Q) as (-> & -> & ->). auto.
      * cbn [negb andb] in E. rewrite !orb_false_iff, !andb_false_iff, !negb_false_iff, !Z.eqb_eq in E.
        split; [cbn; lia|]. split; [constructor; [lia|exact Po]|]. split.
        { intros [|i] Hlt; cbn [nth]; [|apply Hi; cbn in Hlt; lia]. clear - E Ha Hb Hd. lia. }
        discriminate.
    + destruct IH as (i & Hi & H). exists (S i). split; [cbn; lia|]. intros v. exact (H v).
Qed.

Lemma aligned_positive n s : positive_shape s -> positive_shape (aligned n s).
Proof. intros H. apply Forall_app. split; [|exact H]. apply Forall_forall. intros x Hx. apply repeat_spec in Hx. lia. Qed.

Lemma aligned_self n s : length s = n -> aligned n s = s.
Proof. intros <-. unfold aligned. now rewrite Nat.sub_diag. Qed.

Lemma where_reduce_ok c l r : positive_shape c -> positive_shape l -> positive_shape r ->
  match where_reduce c l r with
  | Some (cs, ls, rs, o, b) => let n := length o in positive_shape o /\
      cs = aligned n c /\ ls = aligned n l /\ rs = aligned n r /\ broadcast_of [c; l; r] o /\
      cfits cs o /\ cfits ls o /\ cfits rs o /\ (b = false -> cs = o /\ ls = o /\ rs = o)
  | None => forall o, ~ broadcast_of [c; l; r] o
  end.
Proof.
  intros Pc Pl Pr. unfold where_reduce.
  assert (Er : rank_of [c; l; r] = Nat.max (Nat.max (length c) (length l)) (length r)).
  { unfold rank_of. cbn [map fold_right]. lia. }
  destruct (shape_eqb c l && shape_eqb c r) eqn:E.
  - apply andb_true_iff in E. destruct E as [E1 E2]. apply shape_eqb_eq in E1, E2. subst l r. cbv zeta.
    assert (A : aligned (length c) c = c) by now apply aligned_self. rewrite A.
    assert (F : cfits c c) by (apply nth_cfits; auto).
    split; [exact Pc|]. split; [reflexivity|]. split; [reflexivity|]. split; [reflexivity|]. split.
    { split; [rewrite Er; lia|]. intros i Hi. split; [intros s [<-|[<-|[<-|[]]]]; right; now rewrite A|]. exists c. rewrite A. cbn; auto. }
    split; [exact F|]. split; [exact F|]. split; [exact F|]. auto.
  - set (n := Nat.max (Nat.max (length c) (length l)) (length r)) in *.
    change (front_append_ones c (n - length c)) with (aligned n c). change (front_append_ones l (n - length l)) with (aligned n l).
    change (front_append_ones r (n - length r)) with (aligned n r).
    assert (Lc : length (aligned n c) = n) by (apply aligned_length; lia).
    assert (Ll : length (aligned n l) = n) by (apply aligned_length; lia).
    assert (Lr : length (aligned n r) = n) by (apply aligned_length; lia).
    pose proof (where_axes_ok (aligned n c) (aligned n l) (aligned n r) ltac:(lia) ltac:(lia)
      (aligned_positive n c Pc) (aligned_positive n l Pl) (aligned_positive n r Pr)) as H.
    destruct (where_axes _ _ _) as [[o b]|].
    + destruct H as (Lo & Po & Hi & Hb). cbv zeta. rewrite Lc in *. rewrite Lo.
      split; [exact Po|]. split; [reflexivity|]. split; [reflexivity|]. split; [reflexivity|]. split.
      { split; [congruence|]. rewrite Lo. intros i Hlt. destruct (Hi i Hlt) as (H1 & H2 & H3 & H4).
        split; [intros s [<-|[<-|[<-|[]]]]; assumption|]. destruct H4 as [H4|[H4|H4]]; [exists c|exists l|exists r]; cbn; auto. }
      split; [apply nth_cfits; [lia|intros i Hlt; apply Hi; lia]|]. split; [apply nth_cfits; [lia|intros i Hlt; apply Hi; lia]|].
      split; [apply nth_cfits; [lia|intros i Hlt; apply Hi; lia]|]. exact Hb.
    + destruct H as (i & Hi & H). intros o [Lo Ho]. rewrite Lc in Hi. rewrite Er in Lo.
      destruct (Ho i ltac:(lia)) as [H1 _]. rewrite Lo in H1. apply (H (nth i o 0)).
      split; [apply H1; cbn; auto|]. split; apply H1; cbn; auto.
Qed.

Lemma where_stores_walk {A} c (l r : list A) cs ls rs o n : forall i,
  where_stores c l r cs ls rs o n (Z.of_nat i) (coordinate o i) =
  map (fun j => (Z.of_nat j, select (mod_load c cs (coordinate o j)) (mod_load l ls (coordinate o j)) (mod_load r rs (coordinate o j)))) (seq i n).
Proof.
  induction n as [|n IH]; intros i; [reflexivity|]. cbn [where_stores seq map]. f_equal.
  replace (Z.of_nat i + 1) with (Z.of_nat (S i)) by lia. apply (IH (S i)).
Qed.

Theorem where_ok {A} (cond : tensor Z) (l r : tensor A) : wf cond -> wf l -> wf r ->
  positive_shape (t_shape cond) -> positive_shape (t_shape l) -> positive_shape (t_shape r) ->
  t_dtype l = t_dtype r -> tile_supports (t_dtype l) = true ->
  match where_run cond l r with
  | SOk m => exists out, m = filled out /\ wf out /\ t_dtype out = t_dtype l /\
      broadcast_of [t_shape cond; t_shape l; t_shape r] (t_shape out) /\
      forall c, inside (t_shape out) c ->
        exists b a a', elt cond (shown (t_shape cond) c) = Some b /\
          elt l (shown (t_shape l) c) = Some a /\ elt r (shown (t_shape r) c) = Some a' /\
          elt out c = Some (if as_boolean (t_dtype cond) b then a else a')
  | SErr => forall o, ~ broadcast_of [t_shape cond; t_shape l; t_shape r] o
  | SUndef => False
  end.
Proof.
  intros Wc Wl Wr Pc Pl Pr Hd Su. unfold where_run. rewrite Hd, Z.eqb_refl. rewrite Hd in Su. rewrite Su. cbn [negb].
  pose proof (where_reduce_ok _ _ _ Pc Pl Pr) as R.
  destruct (where_reduce (t_shape cond) (t_shape l) (t_shape r)) as [[[[[cs ls] rs] o] b]|]; [|exact R].
  cbv zeta in R. destruct R as (Po & Ec & El & Er & Hb & Fc & Fl & Fr & Hs).
  rewrite prod_elements.
  assert (exists d0 : A, True) as [d0 _].
  { pose proof (elements_pos _ Pl). destruct Wl as [_ Dl]. destruct (t_data l) as [|d0 ?]; [cbn in Dl; lia|now exists d0]. }
  set (cv := fun c => match elt cond (shown (t_shape cond) c) with Some v => as_boolean (t_dtype cond) v | None => false end).
  set (lv := fun c => match elt l (shown (t_shape l) c) with Some v => v | None => d0 end).
  set (rv := fun c => match elt r (shown (t_shape r) c) with Some v => v | None => d0 end).
  assert (Hin : forall c, inside o c ->
    (inside (t_shape cond) (shown (t_shape cond) c)) /\ inside (t_shape l) (shown (t_shape l) c) /\ inside (t_shape r) (shown (t_shape r) c)).
  { intros c Hc. rewrite Ec in Fc. rewrite El in Fl. rewrite Er in Fr.
    split; [apply (shown_in _ _ _ _ Fc Hc)|]. split; [apply (shown_in _ _ _ _ Fl Hc)|apply (shown_in _ _ _ _ Fr Hc)]. }
  set (dc := map (as_boolean (t_dtype cond)) (t_data cond)).
  assert (Lc : forall c, inside o c -> load dc (position (t_shape cond) (shown (t_shape cond) c)) = SOk (cv c)).
  { intros c Hc. destruct (Hin c Hc) as (Ic & _ & _). destruct (elt_some cond _ Wc Ic) as (v & Ev).
    unfold cv. rewrite Ev. pose proof (position_bound _ _ Ic) as B. destruct (load_ok dc (position (t_shape cond) (shown (t_shape cond) c))) as (w & Hw & Hn).
    { unfold dc. rewrite map_length, (proj2 Wc). exact B. }
    rewrite Hw. f_equal. unfold dc in Hn. rewrite nth_error_map in Hn. unfold elt in Ev. rewrite Ev in Hn. now injection Hn. }
  assert (Ll : forall c, inside o c -> load (t_data l) (position (t_shape l) (shown (t_shape l) c)) = SOk (lv c)).
  { intros c Hc. destruct (Hin c Hc) as (_ & Ic & _). destruct (elt_some l _ Wl Ic) as (v & Ev). unfold lv. rewrite Ev. now apply load_elt. }
  assert (Lr : forall c, inside o c -> load (t_data r) (position (t_shape r) (shown (t_shape r) c)) = SOk (rv c)).
  { intros c Hc. destruct (Hin c Hc) as (_ & _ & Ic). destruct (elt_some r _ Wr Ic) as (v & Ev). unfold rv. rewrite Ev. now apply load_elt. }
  set (v := fun c => if cv c then lv c else rv c).
  assert (E : exec (fresh (elements o)) (if b then where_stores dc (t_data l) (t_data r) cs ls rs o (Z.to_nat (elements o)) 0 (start o)
      else where_same dc (t_data l) (t_data r) (elements o)) = SOk (map Some (map (fun p => v (coordinate o (Z.to_nat p))) (upto (elements o))))).
  { destruct b.
    - pose proof (where_stores_walk dc (t_data l) (t_data r) cs ls rs o (Z.to_nat (elements o)) 0) as E. cbn [Z.of_nat] in E.
      change (coordinate o 0) with (start o) in E. rewrite E. clear E.
      apply (walk_exec v (fun c => select (mod_load dc cs c) (mod_load (t_data l) ls c) (mod_load (t_data r) rs c)) o Po).
      intros c Hc. rewrite Ec, El, Er in *.
      rewrite (mod_load_shown dc (length o) (t_shape cond) o c Fc Hc), (mod_load_shown (t_data l) (length o) (t_shape l) o c Fl Hc), (mod_load_shown (t_data r) (length o) (t_shape r) o c Fr Hc).
      rewrite Lc, Ll, Lr by exact Hc. reflexivity.
    - destruct (Hs eq_refl) as (Q1 & Q2 & Q3).
      assert (Hpos : forall s, cfits (aligned (length o) s) o -> aligned (length o) s = o -> forall c, inside o c -> position s (shown s c) = position o c).
      { intros s F Es c Hc. destruct (shown_in _ _ _ _ F Hc) as [_ P]. rewrite Es in P. rewrite <- P. destruct (src_position o o c) as [_ P2]; [apply nth_cfits; auto|exact Hc|].
        rewrite <- P2. apply src_refl; [exact Po|]. now apply position_bound. }
      assert (Pc' : forall c, inside o c -> position (t_shape cond) (shown (t_shape cond) c) = position o c) by (apply Hpos; congruence).
      assert (Pl' : forall c, inside o c -> position (t_shape l) (shown (t_shape l) c) = position o c) by (apply Hpos; congruence).
      assert (Pr' : forall c, inside o c -> position (t_shape r) (shown (t_shape r) c) = position o c) by (apply Hpos; congruence).
      unfold where_same. apply (exec_all (fun p => v (coordinate o (Z.to_nat p)))).
      + intros d w Hd'. apply in_map_iff in Hd'. destruct Hd' as (p & [= <- <-] & Hp). apply In_upto in Hp. split; [exact Hp|].
        destruct (coordinate_at o (Z.to_nat p) Po) as [I P]; [lia|]. rewrite Z2Nat.id in P by lia.
        set (c := coordinate o (Z.to_nat p)) in *. rewrite <- P.
        rewrite <- (Pc' c I) at 1. rewrite (Lc c I). rewrite <- (Pl' c I) at 1. rewrite (Ll c I). rewrite <- (Pr' c I). rewrite (Lr c I).
        unfold v. destruct (cv c); reflexivity.
      + intros d Hd'. apply in_map_iff. eexists (d, _). split; [reflexivity|]. apply in_map_iff. exists d. split; [reflexivity|]. now apply In_upto. }
  rewrite E. exists (Tn (t_dtype r) o (map (fun p => v (coordinate o (Z.to_nat p))) (upto (elements o)))).
  split; [reflexivity|]. split; [apply wf_map; eapply Forall_impl; [|exact Po]; cbn; lia|]. split; [reflexivity|]. split; [exact Hb|].
  cbn [t_shape]. intros c Hc. destruct (Hin c Hc) as (I1 & I2 & I3).
  destruct (elt_some cond _ Wc I1) as (x1 & E1). destruct (elt_some l _ Wl I2) as (x2 & E2). destruct (elt_some r _ Wr I3) as (x3 & E3).
  exists x1, x2, x3. split; [exact E1|]. split; [exact E2|]. split; [exact E3|].
  rewrite elt_map by exact Hc. rewrite coordinate_position by assumption. unfold v, cv, lv, rv. now rewrite E1, E2, E3.
Qed.

(** * broadcast *)
Lemma broadcast_axes_ok x : forall y, length x = length y -> positive_shape x -> positive_shape y ->
  match broadcast_axes x y with
  | Some o => same_rank_broadcast x y o /\ positive_shape o
  | None => forall o, ~ same_rank_broadcast x y o
  end.
Proof.
  induction x as [|a x IH]; intros [|b y] L Px Py; try discriminate; [split; constructor|].
  inversion Px as [|? ? Ha Px']; subst. inversion Py as [|? ? Hb Py']; subst.
  specialize (IH y ltac:(now injection L) Px' Py'). cbn [broadcast_axes].
  destruct (negb (a =? b) && negb (a =? 1) && negb (b =? 1)) eqn:E.
  - intros o H. inversion H as [|? ? ? ? ? ? Hab _]; subst. rewrite !andb_true_iff, !negb_true_iff, !Z.eqb_neq in E.
    unfold axis_broadcast in Hab. lia.
  - rewrite !andb_false_iff, !negb_false_iff, !Z.eqb_eq in E. destruct (broadcast_axes x y) as [o|].
    + destruct IH as [I1 I2]. split; [|constructor; [lia|exact I2]]. constructor; [|exact I1]. unfold axis_broadcast. lia.
    + intros o H. inversion H; subst. eapply IH; eauto.
Qed.

Lemma In_memset levels : forall N i, In i (memset_order levels N) <-> 0 <= i < N.
Proof.
  induction levels as [|k IH]; intros N i; cbn [memset_order]; [apply In_upto|].
  destruct (Z.ltb_spec 1 N).
  - rewrite !in_app_iff, in_flat_map. split.
    + intros [H1|[(j & Hj & H1)|H1]].
      * cbn [In] in H1. lia.
      * apply IH in Hj. cbn [In] in H1. pose proof (Z.mul_div_le (N - 2) 2 ltac:(lia)). lia.
      * destruct (Z.eqb_spec (N mod 2) 0); cbn [In] in H1; lia.
    + intros H1. pose proof (Z.div_mod (N - 2) 2 ltac:(lia)). pose proof (Z.mod_pos_bound (N - 2) 2 ltac:(lia)).
      assert (Em : N mod 2 = (N - 2) mod 2) by (replace N with (N - 2 + 1 * 2) at 1 by lia; apply Z.mod_add; lia).
      destruct (Z_lt_dec i 2); [left; cbn [In]; lia|]. destruct (Z_lt_dec i (2 + 2 * ((N - 2) / 2))).
      * right; left. exists ((i - 2) / 2). rewrite IH. pose proof (Z.div_mod (i - 2) 2 ltac:(lia)). pose proof (Z.mod_pos_bound (i - 2) 2 ltac:(lia)).
        split; [lia|]. cbn [In]. lia.
      * right; right. destruct (Z.eqb_spec (N mod 2) 0); cbn [In]; lia.
  - destruct (Z.ltb_spec 0 N); cbn; lia.
Qed.

Lemma spread_stores_walk {A} (x : list A) xs o n : forall i,
  spread_stores x xs o n (Z.of_nat i) (coordinate o i) =
  map (fun j => (Z.of_nat j, mod_load x xs (coordinate o j))) (seq i n).
Proof.
  induction n as [|n IH]; intros i; [reflexivity|]. cbn [spread_stores seq map]. f_equal.
  replace (Z.of_nat i + 1) with (Z.of_nat (S i)) by lia. apply (IH (S i)).
Qed.

Definition spread_kernel {A} (levels : nat) (x : list A) (xs os : list Z) : list (event A) :=
  if is_scalar xs then spread_scalar levels x (prod os)
  else match is_bias os xs with
       | Some dim => spread_bias levels x os dim
       | None => spread_stores x xs os (Z.to_nat (prod os)) 0 (start os)
       end.

Lemma spread_kernel_ok {A} levels (x : list A) xs os d0 : cfits xs os -> positive_shape os -> positive_shape xs ->
  Z.of_nat (length x) = elements xs ->
  exec (fresh (elements os)) (spread_kernel levels x xs os) =
  SOk (map Some (map (fun p => nth (Z.to_nat (src xs os p)) x d0) (upto (elements os)))).
Proof.
  intros F Po Px Lx.
  assert (Ld : forall p, 0 <= p < elements os -> load x (src xs os p) = SOk (nth (Z.to_nat (src xs os p)) x d0)).
  { intros p Hp. destruct (load_ok x (src xs os p)) as (a & Ha & Hn); [rewrite Lx; now apply src_bound|].
    rewrite Ha. now rewrite (nth_error_nth _ _ d0 Hn). }
  unfold spread_kernel. destruct (is_scalar xs) eqn:Sc.
  { unfold is_scalar in Sc. rewrite prod_elements in Sc. apply Z.eqb_eq in Sc. pose proof (elements_one_ones _ Px Sc) as On.
    unfold spread_scalar. rewrite prod_elements. apply exec_all.
    - intros d v Hin. apply in_map_iff in Hin. destruct Hin as (i & [= <- <-] & Hi). apply In_memset in Hi. split; [exact Hi|].
      rewrite <- (Ld i Hi). now rewrite (src_all_ones xs os i On).
    - intros d Hd. apply in_map_iff. eexists (d, _). split; [reflexivity|]. apply in_map_iff. exists d. split; [reflexivity|]. now apply In_memset. }
  destruct (is_bias os xs) as [dim|] eqn:Bi.
  { unfold is_bias in Bi. rewrite prod_elements in Bi. apply is_bias_from_spec in Bi.
    destruct Bi as (o1 & o2 & b1 & b2 & Eo & Ex & L & ->). cbn [Nat.add].
    pose proof (elements_pos _ Px) as Ep.
    destruct (bias_split xs (elements xs) ltac:(lia) Px b1 b2 Ex eq_refl) as [O1 O2].
    remember (elements xs) as ch eqn:Ech. rewrite Eo in Po. pose proof Po as P. apply Forall_app in P as [P1 P2]. inversion P2 as [|? ? Pc P3]; subst x0 l.
    pose proof (elements_pos _ P1) as E1. pose proof (elements_pos _ P3) as E2.
    assert (En : elements os = elements o1 * ch * elements o2) by (rewrite Eo, elements_app; cbn [elements]; ring).
    unfold spread_bias. rewrite Eo. rewrite <- L. rewrite firstn_mid, skipn_mid, nth_mid, !prod_elements. rewrite <- Eo.
    assert (Sb : forall n c i, 0 <= n < elements o1 -> 0 <= c < ch -> 0 <= i < elements o2 ->
      0 <= (n * ch + c) * elements o2 + i < elements os /\ src xs os ((n * ch + c) * elements o2 + i) = c).
    { intros n c i Hn Hc Hi. split; [rewrite En; assert (0 <= n * ch + c < elements o1 * ch) by nia; nia|].
      rewrite Ex, Eo. now apply src_bias. }
    assert (Cov : forall d, 0 <= d < elements os -> exists n c i, 0 <= n < elements o1 /\ 0 <= c < ch /\ 0 <= i < elements o2 /\
      d = (n * ch + c) * elements o2 + i).
    { intros d Hd. set (q := d / elements o2). exists (q / ch), (q mod ch), (d mod elements o2).
      pose proof (Z.div_mod d (elements o2) ltac:(lia)). pose proof (Z.mod_pos_bound d (elements o2) ltac:(lia)). fold q in H.
      pose proof (Z.div_mod q ch ltac:(lia)). pose proof (Z.mod_pos_bound q ch ltac:(lia)).
      assert (0 <= q < elements o1 * ch) by nia. assert (0 <= q / ch < elements o1) by nia.
      split; [lia|]. split; [lia|]. split; [lia|]. nia. }
    destruct (Z.eqb_spec (elements o2) 1) as [E|E].
    - apply exec_all.
      + intros d v Hin. apply in_flat_map in Hin. destruct Hin as (n & Hn & Hin). apply In_upto in Hn.
        apply in_map_iff in Hin. destruct Hin as (c & [= <- <-] & Hc). apply In_upto in Hc.
        destruct (Sb n c 0 Hn Hc ltac:(lia)) as [B S']. replace ((n * ch + c) * elements o2 + 0) with (n * ch + c) in * by (rewrite E; ring).
        split; [exact B|]. rewrite <- (Ld _ B). now rewrite S'.
      + intros d Hd. destruct (Cov d Hd) as (n & c & i & Hn & Hc & Hi & ->). replace ((n * ch + c) * elements o2 + i) with (n * ch + c) by nia.
        apply in_map_iff. eexists (_, _). split; [reflexivity|]. apply in_flat_map. exists n. rewrite In_upto. split; [exact Hn|].
        apply in_map_iff. exists c. rewrite In_upto. split; [reflexivity|exact Hc].
    - apply exec_all.
      + intros d v Hin. apply in_flat_map in Hin. destruct Hin as (n & Hn & Hin). apply In_upto in Hn.
        apply in_flat_map in Hin. destruct Hin as (c & Hc & Hin). apply In_upto in Hc.
        apply in_map_iff in Hin. destruct Hin as (i & [= <- <-] & Hi). apply In_memset in Hi.
        destruct (Sb n c i Hn Hc Hi) as [B S']. split; [exact B|]. rewrite <- (Ld _ B). now rewrite S'.
      + intros d Hd. destruct (Cov d Hd) as (n & c & i & Hn & Hc & Hi & ->).
        apply in_map_iff. eexists (_, _). split; [reflexivity|]. apply in_flat_map. exists n. rewrite In_upto. split; [exact Hn|].
        apply in_flat_map. exists c. rewrite In_upto. split; [exact Hc|]. apply in_map_iff. exists i. rewrite In_memset. split; [reflexivity|exact Hi]. }
  rewrite prod_elements. pose proof (spread_stores_walk x xs os (Z.to_nat (elements os)) 0) as E. cbn [Z.of_nat] in E.
  change (coordinate os 0) with (start os) in E. rewrite E. clear E.
  rewrite (walk_exec (fun c => nth (Z.to_nat (src xs os (position os c))) x d0) (mod_load x xs) os Po).
  - do 2 f_equal. apply map_ext_in. intros p Hp. apply In_upto in Hp. destruct (coordinate_at os (Z.to_nat p) Po) as [_ P]; [lia|].
    rewrite P, Z2Nat.id by lia. reflexivity.
  - intros c Hc. unfold mod_load. rewrite (mod_coordinate_ok os xs c F Hc). destruct (src_position xs os c F Hc) as [I E].
    pose proof (inside_length _ _ I) as L. rewrite to_index_ok by lia. rewrite L, Nat.sub_diag. cbn [skipn]. rewrite <- E.
    apply Ld. now apply position_bound.
Qed.

Lemma memset_levels_some bytes : In bytes [1; 2; 4; 8] -> exists k, memset_levels bytes = Some k.
Proof. intros [<-|[<-|[<-|[<-|[]]]]]; eexists; reflexivity. Qed.

Theorem broadcast_op_ok {A} bytes (x : tensor A) shape : wf x -> positive_shape (t_shape x) -> positive_shape shape ->
  In bytes [1; 2; 4; 8] ->
  match broadcast_op_run bytes x shape with
  | SOk m => exists out, m = filled out /\ wf out /\ spread x shape out
  | SErr => forall o, ~ broadcast_of [t_shape x; shape] o
  | SUndef => False
  end.
Proof.
  intros Wx Px Ps Hb. unfold broadcast_op_run.
  set (n := Nat.max (length (t_shape x)) (length shape)).
  assert (Ex : front_append_ones (t_shape x) (length shape - length (t_shape x)) = aligned n (t_shape x)) by (unfold front_append_ones, aligned; do 2 f_equal; lia).
  assert (Ey : front_append_ones shape (length (t_shape x) - length shape) = aligned n shape) by (unfold front_append_ones, aligned; do 2 f_equal; lia).
  rewrite Ex, Ey. clear Ex Ey.
  assert (Lx : length (aligned n (t_shape x)) = n) by (apply aligned_length; lia).
  assert (Ls : length (aligned n shape) = n) by (apply aligned_length; lia).
  pose proof (aligned_positive n _ Px) as Pax. pose proof (aligned_positive n _ Ps) as Pas.
  assert (Fin : forall o data, same_rank_broadcast (aligned n (t_shape x)) (aligned n shape) o -> Z.of_nat (length data) = elements o -> positive_shape o ->
    (forall p, 0 <= p < elements o -> nth_error data (Z.to_nat p) = nth_error (t_data x) (Z.to_nat (src (aligned n (t_shape x)) o p))) ->
    wf (Tn (t_dtype x) o data) /\ spread x shape (Tn (t_dtype x) o data)).
  { intros o data Hs Ld Po Hp. split; [split; [eapply Forall_impl; [|exact Po]; cbn; lia|exact Ld]|].
    split; [reflexivity|]. split; [now apply broadcast_two|]. cbn [t_shape]. intros c Hc.
    destruct (srb_fits _ _ _ Hs) as [F _]. destruct (shown_in _ _ _ _ F Hc) as [I P]. split; [exact I|].
    unfold elt. cbn [t_shape t_data]. rewrite Hp by (now apply position_bound).
    destruct (src_position _ _ c F Hc) as [_ E]. now rewrite E, P. }
  destruct (shape_eqb (aligned n (t_shape x)) (aligned n shape)) eqn:E.
  { apply shape_eqb_eq in E. exists (Tn (t_dtype x) (aligned n shape) (t_data x)). split; [reflexivity|]. apply Fin.
    - rewrite E. apply srb_refl.
    - rewrite <- E, aligned_elements. apply Wx.
    - exact Pas.
    - intros p Hp. rewrite E. now rewrite src_refl. }
  pose proof (broadcast_axes_ok _ _ (eq_trans Lx (eq_sym Ls)) Pax Pas) as B.
  destruct (broadcast_axes _ _) as [o|]; [|intros o Ho; apply broadcast_two in Ho; exact (B o Ho)].
  destruct B as [B Po]. pose proof (reduce_shape_ok (length o) _ _ o (srb_sym _ _ _ B) (le_n _)) as R.
  destruct (reduce_shape (length o) (aligned n shape) (aligned n (t_shape x)) o) as [[ys xs] os].
  destruct R as (Hs2 & _ & (R1 & R2 & R3)). destruct (R3 Po) as [Po2 R4].
  destruct (memset_levels_some bytes Hb) as (k & ->).
  fold (spread_kernel k (t_data x) xs os). rewrite prod_elements, <- R2.
  assert (exists d0 : A, True) as [d0 _].
  { pose proof (elements_pos _ Px). destruct Wx as [_ Dl]. destruct (t_data x) as [|d0 ?]; [cbn in Dl; lia|now exists d0]. }
  destruct (srb_fits _ _ _ Hs2) as [_ F2]. pose proof (srb_positive _ _ _ (srb_sym _ _ _ Hs2) Po2) as Px2.
  assert (Dx : Z.of_nat (length (t_data x)) = elements xs) by (rewrite R1, aligned_elements; apply Wx).
  rewrite (spread_kernel_ok k (t_data x) xs os d0 F2 Po2 Px2 Dx).
  exists (Tn (t_dtype x) o (map (fun p => nth (Z.to_nat (src xs os p)) (t_data x) d0) (upto (elements os)))). split; [reflexivity|]. apply Fin.
  - exact B.
  - rewrite map_length, length_upto, R2. pose proof (elements_pos _ Po). lia.
  - exact Po.
  - intros p Hp. rewrite nth_error_map, nth_error_upto by lia. cbn [option_map]. rewrite R4 by lia.
    symmetry. apply nth_error_nth'. rewrite <- (R4 p Hp). rewrite <- R2 in Hp. pose proof (src_bound xs os p F2 Po2 Hp). lia.
Qed.

(** * range *)
Lemma int32_ok v : - 2147483648 <= v <= 2147483647 -> int32 v = SOk v.
Proof. intros H. unfold int32. destruct (Z.leb_spec (-2147483648) v), (Z.leb_spec v 2147483647); cbn; auto; lia. Qed.

Lemma range_values_ok first delta is : Forall (fun i => - 2147483648 <= i * delta <= 2147483647 /\ - 2147483648 <= first + i * delta <= 2147483647) is ->
  range_values first delta is = SOk (map (fun i => first + i * delta) is).
Proof.
  induction 1 as [|i is [H1 H2] H IH]; [reflexivity|]. cbn [range_values map]. rewrite int32_ok by exact H1. cbn [then_].
  rewrite int32_ok by exact H2. cbn [then_]. now rewrite IH.
Qed.

Definition fits32 (v : Z) : Prop := - 2147483648 <= v <= 2147483647.

Lemma range_list first delta n limit : 0 <= n ->
  (forall i, 0 <= i -> (i < n <-> before delta (first + i * delta) limit)) ->
  is_range first limit delta (map (fun i => first + i * delta) (upto n)).
Proof.
  intros Hn H i. destruct (Z_lt_dec (Z.of_nat i) n) as [Hi|Hi].
  - left. split; [|apply H; lia]. rewrite nth_error_map.
    replace i with (Z.to_nat (Z.of_nat i)) at 1 by lia. rewrite nth_error_upto by lia. reflexivity.
  - right. split; [|intros B; apply H in B; lia]. apply nth_error_None. rewrite map_length, length_upto. lia.
Qed.

Lemma range_run_steps first limit delta n : range_steps first limit delta = SOk n -> 0 <= n -> fits32 first ->
  (forall i, 0 <= i < n -> fits32 (i * delta) /\ fits32 (first + i * delta)) ->
  range_run first limit delta = SOk (Tn 5 [n] (map (fun i => first + i * delta) (upto n))).
Proof.
  intros E Hn Hf H. unfold range_run. rewrite E. cbn [then_]. destruct (Z.ltb_spec n 0); [lia|].
  rewrite range_values_ok; [reflexivity|]. apply Forall_forall. intros i Hi. apply In_upto in Hi. now apply H.
Qed.

Lemma range_steps_value first limit delta : fits32 first -> fits32 limit -> fits32 delta -> delta <> 0 ->
  - 2147483648 < limit - first <= 2147483647 ->
  range_steps first limit delta = let q := Z.quot (limit - first) delta in
    if q * delta + first <? limit then SOk (q + 1) else SOk q.
Proof.
  intros Hf Hl Hd Nz Hs. unfold range_steps, fits32 in *. rewrite int32_ok by lia. cbn [then_].
  destruct (Z.eqb_spec delta 0); [lia|]. set (q := Z.quot (limit - first) delta).
  pose proof (Z.quot_rem' (limit - first) delta) as Q. fold q in Q.
  assert (Aq : Z.abs q <= Z.abs (limit - first)).
  { unfold q. rewrite <- Z.quot_abs by exact Nz. apply Z.quot_le_upper_bound; [lia|]. nia. }
  assert (At : Z.abs (q * delta) <= Z.abs (limit - first) /\ (q * delta) * (limit - first) >= 0).
  { pose proof (Z.rem_bound_abs (limit - first) delta Nz). pose proof (Z.rem_sign_mul (limit - first) delta Nz).
    assert (Hm : Z.abs (Z.rem (limit - first) delta) <= Z.abs (limit - first)).
    { rewrite <- Z.rem_abs by exact Nz. apply Z.rem_le; lia. }
    set (r := Z.rem (limit - first) delta) in *. assert (q * delta = limit - first - r) by lia.
    rewrite H1. split; [nia|nia]. }
  rewrite int32_ok by lia. cbn [then_]. rewrite int32_ok by lia. cbn [then_].
  assert (Hb : - 2147483648 <= q * delta + first <= 2147483647) by nia.
  rewrite int32_ok by exact Hb. cbn [then_]. cbv zeta.
  destruct (Z.ltb_spec (q * delta + first) limit) as [L|L]; [|reflexivity].
  apply int32_ok.
  destruct (Z_le_dec (q + 1) 2147483647); [lia|]. exfalso.
  assert (q = 2147483647) by lia. assert (limit - first = 2147483647 \/ limit - first = - 2147483647) by lia. nia.
Qed.

Theorem range_up first limit delta : fits32 first -> fits32 limit -> fits32 delta -> 0 < delta ->
  - delta < limit - first <= 2147483647 ->
  exists l, range_run first limit delta = SOk (Tn 5 [Z.of_nat (length l)] l) /\ is_range first limit delta l.
Proof.
  intros Hf Hl Hd Pd Hs.
  assert (Hst : exists n, range_steps first limit delta = SOk n /\ 0 <= n /\
    forall i, 0 <= i -> (i < n <-> before delta (first + i * delta) limit)).
  { rewrite range_steps_value; try assumption; try lia; [|unfold fits32 in *; lia]. cbv zeta.
    set (q := Z.quot (limit - first) delta). pose proof (Z.quot_rem' (limit - first) delta) as Q. fold q in Q.
    pose proof (Z.rem_bound_abs (limit - first) delta ltac:(lia)) as R.
    assert (Rs : 0 <= (limit - first) * Z.rem (limit - first) delta) by (rewrite Z.mul_comm; apply Z.rem_sign_mul; lia).
    set (r := Z.rem (limit - first) delta) in *.
    assert (0 <= q) by nia.
    destruct (Z.ltb_spec (q * delta + first) limit) as [L|L].
    - exists (q + 1). split; [reflexivity|]. split; [lia|]. intros i Hi. unfold before.
      split; [intros H1; left; split; [lia|nia]|]. intros [[_ H1]|[H1 _]]; [nia|lia].
    - exists q. split; [reflexivity|]. split; [lia|]. intros i Hi. unfold before.
      split; [intros H1; left; split; [lia|nia]|]. intros [[_ H1]|[H1 _]]; [nia|lia]. }
  destruct Hst as (n & E & Hn & B). pose proof (range_list first delta n limit Hn B) as Rl.
  exists (map (fun i => first + i * delta) (upto n)). rewrite map_length, length_upto, Z2Nat.id by lia. split; [|exact Rl].
  apply range_run_steps; auto. intros i Hi. assert (Hb : before delta (first + i * delta) limit) by (apply B; lia).
  unfold before, fits32 in *. destruct Hb as [[_ Hb]|[Hb _]]; [|lia]. split; nia.
Qed.

Lemma down_steps first limit delta : fits32 first -> fits32 limit -> fits32 delta -> delta < 0 ->
  - 2147483648 < limit - first <= 0 -> range_steps first limit delta = SOk ((first - limit) / (- delta)) /\
  0 <= (first - limit) / (- delta).
Proof.
  intros Hf Hl Hd Pd Hs. rewrite range_steps_value; try assumption; try lia. cbv zeta.
  assert (E : Z.quot (limit - first) delta = (first - limit) / - delta).
  { rewrite <- Z.quot_opp_opp by lia. replace (- (limit - first)) with (first - limit) by lia. apply Z.quot_div_nonneg; lia. }
  rewrite E. pose proof (Z.mul_div_le (first - limit) (- delta) ltac:(lia)).
  assert (0 <= (first - limit) / - delta) by (apply Z.div_pos; lia).
  set (q := (first - limit) / - delta) in *.
  destruct (Z.ltb_spec (q * delta + first) limit); [nia|]. auto.
Qed.

Theorem range_down first limit delta : fits32 first -> fits32 limit -> fits32 delta -> delta < 0 ->
  - 2147483648 < limit - first <= 0 -> (delta | limit - first) ->
  exists l, range_run first limit delta = SOk (Tn 5 [Z.of_nat (length l)] l) /\ is_range first limit delta l.
Proof.
  intros Hf Hl Hd Pd Hs (k & Hk). destruct (down_steps first limit delta Hf Hl Hd Pd Hs) as [E Hn].
  assert (Eq : (first - limit) / - delta = k) by (replace (first - limit) with (k * - delta) by lia; apply Z.div_mul; lia).
  rewrite Eq in *.
  assert (B : forall i, 0 <= i -> (i < k <-> before delta (first + i * delta) limit)).
  { intros i Hi. unfold before. split; [intros H; right; split; [lia|nia]|]. intros [[H _]|[_ H]]; [lia|nia]. }
  pose proof (range_list first delta k limit Hn B) as Rl.
  exists (map (fun i => first + i * delta) (upto k)). rewrite map_length, length_upto, Z2Nat.id by lia. split; [|exact Rl].
  apply range_run_steps; auto. intros i Hi. assert (Hb : before delta (first + i * delta) limit) by (apply B; lia).
  unfold before, fits32 in *. destruct Hb as [[Hb _]|[_ Hb]]; [lia|]. split; nia.
Qed.

Theorem range_down_short first limit delta : fits32 first -> fits32 limit -> fits32 delta -> delta < 0 ->
  - 2147483648 < limit - first < 0 -> ~ (delta | limit - first) ->
  exists l last, range_run first limit delta = SOk (Tn 5 [Z.of_nat (length l)] l) /\ is_range first limit delta (l ++ [last]).
Proof.
  intros Hf Hl Hd Pd Hs Nd. destruct (down_steps first limit delta Hf Hl Hd Pd) as [E Hn]; [lia|].
  set (k := (first - limit) / - delta) in *.
  pose proof (Z.div_mod (first - limit) (- delta) ltac:(lia)) as Dm. fold k in Dm.
  pose proof (Z.mod_pos_bound (first - limit) (- delta) ltac:(lia)) as Bm.
  assert (Nz : (first - limit) mod - delta <> 0) by (intros Z0; apply Nd; exists k; lia).
  set (r := (first - limit) mod - delta) in *.
  assert (B : forall i, 0 <= i -> (i < k + 1 <-> before delta (first + i * delta) limit)).
  { intros i Hi. unfold before. split; [intros H; right; split; [lia|nia]|]. intros [[H _]|[_ H]]; [lia|nia]. }
  pose proof (range_list first delta (k + 1) limit ltac:(lia) B) as Rl.
  exists (map (fun i => first + i * delta) (upto k)), (first + k * delta).
  rewrite map_length, length_upto, Z2Nat.id by lia. split.
  - apply range_run_steps; auto. intros i Hi. assert (Hb : before delta (first + i * delta) limit) by (apply B; lia).
    unfold before, fits32 in *. destruct Hb as [[Hb _]|[_ Hb]]; [lia|]. split; nia.
  - replace (upto (k + 1)) with (upto k ++ [k]) in Rl; [now rewrite map_app in Rl|].
    unfold upto. rewrite Z2Nat.inj_add by lia. change (Z.to_nat 1) with 1%nat. rewrite Nat.add_1_r, seq_S, map_app. cbn [map Nat.add].
    rewrite Z2Nat.id by lia. reflexivity.
Qed.
