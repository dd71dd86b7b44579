From Coq Require Import List ZArith Bool Lia.
From Verif Require Import ShapeModel ShapeSpec ShapeProofs KernelBase KernelSpec KernelProofs ConcatModel ConcatSpec.
Import ListNotations.
Local Open Scope Z_scope.

(** * Blocks *)
Lemma In_blocks {A} (x : list A) (D S : Z -> Z) P n d v : 0 <= n ->
  In (d, v) (flat_map (fun j => memcpy (D j) x (S j) n) (upto P)) <->
  exists j k, 0 <= j < P /\ 0 <= k < n /\ d = D j + k /\ v = load x (S j + k).
Proof.
  intros Hn. rewrite in_flat_map. split.
  - intros (j & Hj & H). apply In_upto in Hj. apply In_memcpy in H; [|exact Hn].
    destruct H as (k & Hk & H). exists j, k. tauto.
  - intros (j & k & Hj & Hk & H). exists j. rewrite In_upto. split; [exact Hj|].
    apply In_memcpy; [exact Hn|]. exists k. tauto.
Qed.

Lemma length_blocks {A} (x : list A) (D S : Z -> Z) P n : 0 <= n -> 0 <= P ->
  Z.of_nat (length (flat_map (fun j => memcpy (D j) x (S j) n) (upto P))) = P * n.
Proof.
  intros Hn HP. rewrite (length_flat_map_const _ _ (Z.to_nat n)).
  - rewrite length_upto. nia.
  - intros a _. now apply length_memcpy.
Qed.

(** * Shapes with one distinguished axis *)
Lemma nth_mid (a : list Z) d b : nth (length a) (a ++ d :: b) 0 = d.
Proof. rewrite app_nth2 by lia. now rewrite Nat.sub_diag. Qed.

Lemma set_nth_mid {A} (a : list A) d b e : set_nth (length a) e (a ++ d :: b) = a ++ e :: b.
Proof. induction a; simpl; [reflexivity|]. now rewrite IHa. Qed.

Lemma firstn_mid {A} (a b : list A) : firstn (length a) (a ++ b) = a.
Proof. induction a; simpl; [reflexivity|]. now rewrite IHa. Qed.

Lemma skipn_mid {A} (a : list A) d b : skipn (S (length a)) (a ++ d :: b) = b.
Proof. induction a; [reflexivity|]. exact IHa. Qed.

Lemma same_but_mid (a b : list Z) d s : same_but (length a) (a ++ d :: b) s -> exists e, s = a ++ e :: b.
Proof.
  intros [L H]. exists (nth (length a) s 0).
  rewrite app_length in L. cbn [length] in L.
  apply (nth_ext _ _ 0 0).
  - rewrite app_length. cbn [length]. lia.
  - intros j Hj. destruct (Nat.eq_dec j (length a)) as [->|Hj'].
    + now rewrite nth_mid.
    + rewrite <- (H j Hj'). destruct (Nat.lt_ge_cases j (length a)).
      * now rewrite !app_nth1 by assumption.
      * rewrite !app_nth2 by lia. destruct (j - length a)%nat eqn:E; [lia|reflexivity].
Qed.

Lemma mid_same_but (a b : list Z) d e : same_but (length a) (a ++ d :: b) (a ++ e :: b).
Proof.
  split; [now rewrite !app_length|]. intros j Hj. destruct (Nat.lt_ge_cases j (length a)).
  - now rewrite !app_nth1 by assumption.
  - rewrite !app_nth2 by lia. destruct (j - length a)%nat eqn:E; [lia|reflexivity].
Qed.

Lemma same_but_sym axis s s' : same_but axis s s' -> same_but axis s' s.
Proof. intros [L H]. split; [auto|]. intros j Hj. symmetry. auto. Qed.

Lemma same_but_trans axis s s' s'' : same_but axis s s' -> same_but axis s' s'' -> same_but axis s s''.
Proof. intros [L H] [L' H']. split; [congruence|]. intros j Hj. rewrite H by auto. auto. Qed.

(** * The checks of concat *)
Lemma same_sizes_iff s : forall s' j fixed, length s = length s' ->
  same_sizes j fixed s s' = true <-> forall k, j + Z.of_nat k <> fixed -> nth k s 0 = nth k s' 0.
Proof.
  induction s as [|x s IH]; intros [|y s'] j fixed L; try discriminate.
  - simpl. split; [|reflexivity]. intros _ [|k] _; reflexivity.
  - cbn [same_sizes]. rewrite andb_true_iff, IH by (injection L; auto). split.
    + intros [H1 H2] [|k] Hk.
      * destruct (Z.eqb_spec j fixed); [lia|]. apply Z.eqb_eq in H1. exact H1.
      * cbn. apply H2. lia.
    + intros H. split.
      * destruct (Z.eqb_spec j fixed); [reflexivity|]. apply Z.eqb_eq. apply (H 0%nat). lia.
      * intros k Hk. apply (H (S k)). lia.
Qed.

Lemma concat_sizes_ok {A} axis s (xs : list (tensor A)) : forall acc,
  match concat_sizes (Z.of_nat axis) s acc xs with
  | SOk n => n = acc + total (map (size_at axis) xs) /\ forall x, In x xs -> same_but axis (t_shape x) s
  | SErr => exists x, In x xs /\ ~ same_but axis (t_shape x) s
  | SUndef => False
  end.
Proof.
  induction xs as [|x xs IH]; intros acc; cbn [concat_sizes].
  - split; [simpl; lia|intros ? []].
  - destruct (Nat.eqb_spec (length (t_shape x)) (length s)) as [L|L]; cbn [negb].
    2:{ exists x. split; [now left|]. intros [H _]. contradiction. }
    destruct (same_sizes 0 (Z.of_nat axis) (t_shape x) s) eqn:E; cbn [negb].
    2:{ exists x. split; [now left|]. intros [_ H].
        assert (same_sizes 0 (Z.of_nat axis) (t_shape x) s = true); [|congruence].
        apply same_sizes_iff; [exact L|]. intros k Hk. apply H. lia. }
    assert (B : same_but axis (t_shape x) s).
    { split; [exact L|]. intros j Hj. rewrite same_sizes_iff in E by exact L. apply E. lia. }
    rewrite Nat2Z.id. specialize (IH (acc + nth axis (t_shape x) 0)).
    destruct (concat_sizes _ _ _ _).
    + destruct IH as [-> IH]. split; [cbn [map total]; unfold size_at; lia|].
      intros y [<-|Hy]; auto.
    + destruct IH as (y & Hy & H). exists y. split; [now right|exact H].
    + exact IH.
Qed.

Lemma fix_dim_axis dim n : 
  if (fix_dim dim (Z.of_nat n) <? 0) || (Z.of_nat n <=? fix_dim dim (Z.of_nat n))
  then forall axis, ~ axis_of dim n axis
  else exists axis, fix_dim dim (Z.of_nat n) = Z.of_nat axis /\ axis_of dim n axis.
Proof.
  unfold fix_dim, axis_of. destruct (Z.leb_spec 0 dim).
  - destruct (Z.ltb_spec dim 0); [lia|]. cbn [orb]. destruct (Z.leb_spec (Z.of_nat n) dim).
    + intros axis. lia.
    + exists (Z.to_nat dim). lia.
  - destruct (Z.ltb_spec (Z.of_nat n + dim) 0).
    + cbn [orb]. intros axis. lia.
    + cbn [orb]. destruct (Z.leb_spec (Z.of_nat n) (Z.of_nat n + dim)); [intros; lia|].
      exists (Z.to_nat (Z.of_nat n + dim)). lia.
Qed.

Lemma axis_of_inj dim n a b : axis_of dim n a -> axis_of dim n b -> a = b.
Proof. unfold axis_of. lia. Qed.

(** * The kernel of concat *)
Lemma total_nonneg l : Forall (fun d => 0 <= d) l -> 0 <= total l.
Proof. induction 1; simpl; lia. Qed.

Lemma total_app a b : total (a ++ b) = total a + total b.
Proof. induction a; simpl; lia. Qed.

Lemma offset_cons {A} axis (x : tensor A) xs i : offset axis (x :: xs) (S i) = size_at axis x + offset axis xs i.
Proof. reflexivity. Qed.

Lemma offset_0 {A} axis (xs : list (tensor A)) : offset axis xs 0 = 0.
Proof. reflexivity. Qed.

Lemma In_concat_stores {A} axis P W oa (xs : list (tensor A)) : 0 <= W ->
  (forall x, In x xs -> 0 <= size_at axis x) -> forall off d v,
  In (d, v) (concat_stores axis P W oa off xs) <->
  exists i x j k, nth_error xs i = Some x /\ 0 <= j < P /\ 0 <= k < size_at axis x * W /\
    d = (j * oa + (off + offset axis xs i)) * W + k /\ v = load (t_data x) (j * size_at axis x * W + k).
Proof.
  intros HW. induction xs as [|x xs IH]; intros Hs off d v.
  - cbn. split; [intros []|]. intros (i & x & ? & ? & H & _). destruct i; discriminate.
  - cbn [concat_stores]. rewrite in_app_iff, In_blocks, IH; clear IH.
    + fold (size_at axis x). split.
      * intros [(j & k & Hj & Hk & -> & ->)|(i & y & j & k & Hi & Hj & Hk & -> & ->)].
        -- exists 0%nat, x, j, k. rewrite offset_0. split; [reflexivity|]. split; [exact Hj|].
           split; [exact Hk|]. split; [lia|reflexivity].
        -- exists (S i), y, j, k. rewrite offset_cons. split; [exact Hi|]. split; [exact Hj|].
           split; [exact Hk|]. split; [lia|reflexivity].
      * intros (i & y & j & k & Hi & Hj & Hk & -> & ->). destruct i as [|i].
        -- left. cbn in Hi. injection Hi as <-. exists j, k. rewrite offset_0.
           split; [exact Hj|]. split; [exact Hk|]. split; [lia|reflexivity].
        -- right. exists i, y, j, k. rewrite offset_cons. split; [exact Hi|]. split; [exact Hj|].
           split; [exact Hk|]. split; [lia|reflexivity].
    + intros; apply Hs; now right.
    + assert (0 <= size_at axis x) by (apply Hs; now left). unfold size_at in H. nia.
Qed.

Lemma length_concat_stores {A} axis P W oa (xs : list (tensor A)) : 0 <= W -> 0 <= P ->
  (forall x, In x xs -> 0 <= size_at axis x) -> forall off,
  Z.of_nat (length (concat_stores axis P W oa off xs)) = P * total (map (size_at axis) xs) * W.
Proof.
  intros HW HP. induction xs as [|x xs IH]; intros Hs off; [cbn; lia|].
  cbn [concat_stores]. rewrite app_length, Nat2Z.inj_add, IH by (intros; apply Hs; now right).
  rewrite length_blocks; [|assert (0 <= size_at axis x) by (apply Hs; now left); unfold size_at in *; nia|exact HP].
  cbn [map total]. unfold size_at. nia.
Qed.

(** the piece that covers an index of the axis *)
Lemma find_piece {A} axis (xs : list (tensor A)) : (forall x, In x xs -> 0 <= size_at axis x) ->
  forall a, 0 <= a < total (map (size_at axis) xs) ->
  exists i x, nth_error xs i = Some x /\ offset axis xs i <= a < offset axis xs i + size_at axis x.
Proof.
  induction xs as [|x xs IH]; intros Hs a Ha; [cbn in Ha; lia|].
  cbn [map total] in Ha. destruct (Z.lt_ge_cases a (size_at axis x)).
  - exists 0%nat, x. rewrite offset_0. split; [reflexivity|lia].
  - destruct (IH (fun y Hy => Hs y (or_intror Hy)) (a - size_at axis x)) as (i & y & Hi & H1); [lia|].
    exists (S i), y. rewrite offset_cons. split; [exact Hi|lia].
Qed.

Lemma offset_bound {A} axis (xs : list (tensor A)) : (forall x, In x xs -> 0 <= size_at axis x) ->
  forall i x, nth_error xs i = Some x ->
  0 <= offset axis xs i /\ offset axis xs i + size_at axis x <= total (map (size_at axis) xs).
Proof.
  induction xs as [|x xs IH]; intros Hs i y Hi; [destruct i; discriminate|].
  assert (0 <= total (map (size_at axis) xs)).
  { apply total_nonneg. apply Forall_map, Forall_forall. intros; apply Hs; now right. }
  destruct i as [|i].
  - cbn in Hi. injection Hi as <-. rewrite offset_0. cbn [map total]. lia.
  - rewrite offset_cons. cbn [map total]. destruct (IH (fun y Hy => Hs y (or_intror Hy)) i y Hi).
    assert (0 <= size_at axis x) by (apply Hs; now left). lia.
Qed.

Section Kernel.
  Context {A : Type} (pre post : list Z) (xs : list (tensor A)).
  Hypothesis wfs : Forall wf xs.
  Hypothesis shapes : forall x, In x xs -> exists d, t_shape x = pre ++ d :: post.
  Hypothesis nonempty : xs <> [].

  Let axis := length pre.
  Let oa := total (map (size_at axis) xs).
  Let P := elements pre.
  Let W := elements post.

  Lemma shape_of x : In x xs -> t_shape x = pre ++ size_at axis x :: post.
  Proof.
    intros H. destruct (shapes x H) as [d E]. unfold size_at, axis. rewrite E, nth_mid. reflexivity.
  Qed.

  Lemma pre_post_nonneg : Forall (fun d => 0 <= d) pre /\ Forall (fun d => 0 <= d) post.
  Proof.
    destruct xs as [|x r] eqn:E; [contradiction|].
    assert (Hx : In x (x :: r)) by now left. rewrite <- E in *.
    apply (proj1 (Forall_forall _ _) wfs) in Hx as [N _]. rewrite shape_of in N by (rewrite E; now left).
    apply Forall_app in N as [N1 N2]. split; [exact N1|]. now inversion N2.
  Qed.

  Lemma size_nonneg x : In x xs -> 0 <= size_at axis x.
  Proof.
    intros H. pose proof H as H'. apply (proj1 (Forall_forall _ _) wfs) in H as [N _].
    rewrite shape_of in N by exact H'. apply Forall_app in N as [_ N]. now inversion N.
  Qed.

  Lemma data_length x : In x xs -> Z.of_nat (length (t_data x)) = P * size_at axis x * W.
  Proof.
    intros H. pose proof H as H'. apply (proj1 (Forall_forall _ _) wfs) in H as [_ N].
    rewrite N, shape_of, elements_app by exact H'. cbn [elements]. unfold P, W. lia.
  Qed.

  Lemma concat_exec :
    let tr := concat_stores axis P W oa 0 xs in
    NoDup (map fst tr) /\
    exists data, exec (fresh (P * oa * W)) tr = SOk (map Some data) /\
      length data = Z.to_nat (P * oa * W) /\
      forall i x c, nth_error xs i = Some x -> inside (t_shape x) c ->
        nth_error data (Z.to_nat (position (pre ++ oa :: post) (at_axis axis (fun k => offset axis xs i + k) c)))
        = elt x c.
  Proof.
    intros tr. destruct pre_post_nonneg as [N1 N2].
    pose proof (elements_nonneg _ N1) as HP. pose proof (elements_nonneg _ N2) as HW. fold P in HP. fold W in HW.
    assert (Hoa : 0 <= oa).
    { apply total_nonneg. apply Forall_map, Forall_forall. apply size_nonneg. }
    pose proof (In_concat_stores axis P W oa xs HW size_nonneg 0) as HIn. fold tr in HIn.
    destruct (exec_once (P * oa * W) tr) as (ND & data & E & L & H).
    - pose proof (length_concat_stores axis P W oa xs HW HP size_nonneg 0) as Hl. fold tr oa in Hl. lia.
    - intros d v Hd. apply HIn in Hd. destruct Hd as (i & x & j & k & Hi & Hj & Hk & -> & ->).
      destruct (offset_bound axis xs size_nonneg i x Hi) as [B1 B2]. fold oa in B2.
      pose proof (nth_error_In _ _ Hi) as Hx. pose proof (size_nonneg x Hx).
      split.
      + assert (j * oa + oa <= P * oa) by nia.
        assert ((j * oa + (0 + offset axis xs i)) * W + k < (j * oa + oa) * W) by nia. nia.
      + destruct (load_ok (t_data x) (j * size_at axis x * W + k)) as (a & Ha & _); [|eauto].
        rewrite data_length by exact Hx. split; [nia|].
        assert ((j + 1) * (size_at axis x * W) <= P * (size_at axis x * W)) by nia. nia.
    - intros d Hd. assert (0 < oa /\ 0 < W) as [Ho Hw] by nia.
      assert (Hq : 0 < oa * W) by nia.
      pose proof (Z.div_mod d (oa * W) ltac:(lia)) as D1. pose proof (Z.mod_pos_bound d (oa * W) Hq) as D2.
      set (j := d / (oa * W)) in *. set (r := d mod (oa * W)) in *.
      pose proof (Z.div_mod r W ltac:(lia)) as R1. pose proof (Z.mod_pos_bound r W Hw) as R2.
      set (a := r / W) in *. set (q := r mod W) in *.
      assert (0 <= a < oa).
      { split; [apply Z.div_pos; lia|]. apply Z.div_lt_upper_bound; lia. }
      assert (0 <= j < P).
      { split; [apply Z.div_pos; lia|]. apply Z.div_lt_upper_bound; lia. }
      destruct (find_piece axis xs size_nonneg a) as (i & x & Hi & Ha); [exact H|].
      apply in_map_iff. exists (d, load (t_data x) (j * size_at axis x * W + ((a - offset axis xs i) * W + q))).
      split; [reflexivity|]. apply HIn.
      exists i, x, j, ((a - offset axis xs i) * W + q). split; [exact Hi|]. split; [lia|].
      split; [nia|]. split; [nia|reflexivity].
    - split; [exact ND|]. exists data. split; [exact E|]. split; [exact L|].
      intros i x c Hi Hc. pose proof (nth_error_In _ _ Hi) as Hx.
      pose proof Hc as Hc'. rewrite shape_of in Hc by exact Hx. apply inside_app_inv in Hc.
      destruct Hc as (cx & cy & -> & Hcx & Hcy). inversion Hcy as [|? k ? cy' Hk Hcy' E1 E2]; subst.
      pose proof (inside_length _ _ Hcx) as Lx.
      destruct (elt_some x (cx ++ k :: cy')) as [a Ha]; [now apply (proj1 (Forall_forall _ _) wfs)|exact Hc'|].
      rewrite Ha. rewrite at_axis_app by (unfold axis; auto).
      rewrite position_mid by exact Lx. unfold elt in Ha. rewrite shape_of in Ha by exact Hx.
      rewrite position_mid in Ha by exact Lx.
      pose proof (position_bound _ _ Hcx). pose proof (position_bound _ _ Hcy').
      fold P in H0. fold W in H1. fold W in Ha.
      apply H. apply HIn. exists i, x, (position pre cx), (k * W + position post cy').
      split; [exact Hi|]. split; [exact H0|]. split; [nia|]. split; [cbv beta; fold W; ring|].
      symmetry. apply load_inv. assert (0 <= position pre cx * size_at axis x) by nia. split; [nia|].
      rewrite <- Ha. f_equal. f_equal. lia.
  Qed.
End Kernel.

(** * concat *)
Theorem concat_spec {A} dim (xs : list (tensor A)) : Forall wf xs ->
  match concat_run dim xs with
  | SOk r => exists axis out, axis_of dim (length (t_shape out)) axis /\ joinable axis xs /\
               r = filled out /\ wf out /\ joined axis xs out
  | SErr => forall axis x, In x xs -> axis_of dim (length (t_shape x)) axis -> ~ joinable axis xs
  | SUndef => False
  end.
Proof.
  intros Hwf. unfold concat_run.
  destruct xs as [|x0 rest] eqn:Exs.
  { cbn. intros axis x []. }
  rewrite <- Exs in *.
  assert (Hx0 : In x0 xs) by (rewrite Exs; now left).
  (* the outcome of infer *)
  assert (HI : match concat_infer dim xs with
     | SOk (dt, s) => forall axis, axis_of dim (length (t_shape x0)) axis -> joinable axis xs /\ dt = t_dtype x0 /\
          s = set_nth axis (total (map (size_at axis) xs)) (t_shape x0)
     | SErr => forall axis x, In x xs -> axis_of dim (length (t_shape x)) axis -> ~ joinable axis xs
     | SUndef => False end).
  { rewrite Exs. destruct rest as [|x1 rest].
    - cbn [concat_infer]. intros axis Ha. split; [|split; [reflexivity|]].
      + split; [discriminate|]. intros x y [<-|[]] [<-|[]]. split; [reflexivity|]. split; [split; auto|apply Ha].
      + cbn [map total]. unfold size_at. destruct (nth_error (t_shape x0) axis) eqn:E.
        2:{ apply nth_error_None in E. destruct Ha. lia. }
        rewrite (nth_error_nth _ _ 0 E), Z.add_0_r. apply nth_error_ext. intros i.
        destruct (Nat.eq_dec axis i) as [<-|Hi].
        * rewrite set_nth_same by (destruct Ha; lia). exact E.
        * now rewrite set_nth_other.
    - unfold concat_infer. set (r := x1 :: rest) in *.
      destruct (forallb (fun y => t_dtype y =? t_dtype x0) r) eqn:F; cbn [negb].
      2:{ intros axis x Hin Ha [_ J]. assert (forallb (fun y => t_dtype y =? t_dtype x0) r = true); [|congruence].
          apply forallb_forall. intros y Hy. apply Z.eqb_eq. apply J; [now right|now left]. }
      pose proof (fix_dim_axis dim (length (t_shape x0))) as FD. unfold dims_of.
      destruct ((fix_dim dim (Z.of_nat (length (t_shape x0))) <? 0) || _).
      { intros axis x Hin Ha [_ J]. specialize (J x x0 Hin (or_introl eq_refl)).
        destruct J as (_ & [J _] & _). rewrite J in Ha. exact (FD axis Ha). }
      destruct FD as (ax & Efd & Hax). rewrite Efd.
      pose proof (concat_sizes_ok ax (t_shape x0) r (nth (Z.to_nat (Z.of_nat ax)) (t_shape x0) 0)) as CS.
      destruct (concat_sizes _ _ _ r) as [n| |].
      + destruct CS as [-> CS]. intros axis Ha.
        assert (axis = ax) as -> by (eapply axis_of_inj; eauto).
        assert (SB : forall x, In x (x0 :: r) -> same_but ax (t_shape x) (t_shape x0)).
        { intros x [<-|Hin]; [split; auto|auto]. }
        split; [|split; [reflexivity|]].
        * split; [discriminate|]. intros x y Hxi Hyi. split; [|split].
          -- rewrite forallb_forall in F. assert (Q : forall z, In z (x0 :: r) -> t_dtype z = t_dtype x0).
             { intros z [<-|Hz]; [reflexivity|]. apply Z.eqb_eq. auto. }
             rewrite (Q x), (Q y); auto.
          -- eapply same_but_trans; [apply SB; exact Hxi|]. apply same_but_sym, SB. exact Hyi.
          -- rewrite (proj1 (SB x Hxi)). apply Ha.
        * cbn [map total]. rewrite Nat2Z.id. unfold size_at at 3. reflexivity.
      + destruct CS as (y & Hy & CS). intros axis x Hin Ha [_ J].
        assert (axis = ax) as ->.
        { eapply axis_of_inj; [exact Ha|]. destruct (J x x0 Hin (or_introl eq_refl)) as (_ & [L _] & _).
          rewrite L. exact Hax. }
        apply CS. apply J; [now right|now left].
      + exact CS. }
  destruct (concat_infer dim xs) as [[dt s]| |]; [|exact HI|exact HI].
  rewrite Exs. rewrite <- Exs.
  pose proof (fix_dim_axis dim (length (t_shape x0))) as FD. unfold dims_of.
  destruct ((fix_dim dim (Z.of_nat (length (t_shape x0))) <? 0) || _).
  { intros axis x Hin Ha [_ J]. specialize (J x x0 Hin Hx0).
    destruct J as (_ & [J _] & _). rewrite J in Ha. exact (FD axis Ha). }
  destruct FD as (axis & -> & Hax). destruct (HI axis Hax) as (J & -> & ->). rewrite Nat2Z.id.
  (* the shape, cut at the axis *)
  destruct (nth_error (t_shape x0) axis) as [d0|] eqn:Ed.
  2:{ apply nth_error_None in Ed. destruct Hax. lia. }
  pose proof (axis_split _ _ _ Ed) as Es.
  set (pre := firstn axis (t_shape x0)) in *. set (post := skipn (S axis) (t_shape x0)) in *.
  assert (Lp : length pre = axis). { unfold pre. apply firstn_length_le. destruct Hax. lia. }
  assert (Hsh : forall x, In x xs -> exists d, t_shape x = pre ++ d :: post).
  { intros x Hin. destruct J as [_ J]. destruct (J x0 x Hx0 Hin) as (_ & SB & _).
    rewrite Es, <- Lp in SB. apply same_but_mid in SB. exact SB. }
  assert (NE : xs <> []) by (rewrite Exs; discriminate).
  pose proof (concat_exec pre post xs Hwf Hsh NE) as CE. cbn zeta in CE. rewrite Lp in CE.
  set (oa := total (map (size_at axis) xs)) in *.
  assert (Eout : set_nth axis oa (t_shape x0) = pre ++ oa :: post).
  { rewrite Es, <- Lp. apply set_nth_mid. }
  rewrite Eout. unfold concat_kernel. fold pre post.
  rewrite !prod_elements.
  replace (nth axis (pre ++ oa :: post) 0) with oa by (rewrite <- Lp at 1; symmetry; apply nth_mid).
  replace (elements (pre ++ oa :: post)) with (elements pre * oa * elements post)
    by (rewrite elements_app; cbn [elements]; lia).
  destruct CE as (_ & data & E & L & H). rewrite E.
  exists axis, (Tn (t_dtype x0) (pre ++ oa :: post) data). cbn [t_shape t_dtype].
  assert (Lsh : length (pre ++ oa :: post) = length (t_shape x0)).
  { rewrite Es, !app_length. reflexivity. }
  split; [rewrite Lsh; exact Hax|]. split; [exact J|]. split; [reflexivity|].
  destruct (pre_post_nonneg pre post xs Hwf Hsh NE) as [N1 N2].
  assert (Hoa : 0 <= oa).
  { apply total_nonneg. apply Forall_map, Forall_forall. intros x Hin. rewrite <- Lp.
    now apply (size_nonneg pre post xs Hwf Hsh). }
  split.
  { split; cbn [t_shape t_data].
    - apply Forall_app. split; [exact N1|]. constructor; assumption.
    - rewrite L, elements_app. cbn [elements]. pose proof (elements_nonneg _ N1). pose proof (elements_nonneg _ N2).
      assert (0 <= elements pre * (oa * elements post)) by (apply Z.mul_nonneg_nonneg; [lia|apply Z.mul_nonneg_nonneg; lia]).
      rewrite Z2Nat.id; [ring|]. rewrite <- Z.mul_assoc. assumption. }
  split; [|split].
  - intros x Hin. cbn [t_shape t_dtype]. split; [apply J; auto|]. destruct (Hsh x Hin) as [d ->]. rewrite <- Lp. apply mid_same_but.
  - unfold size_at at 1. cbn [t_shape]. rewrite <- Lp at 1. apply nth_mid.
  - intros i x c Hi Hc. exact (H i x c Hi Hc).
Qed.

(** every store of a successful concat goes to a different place *)
Theorem concat_once {A} (axis : nat) (x0 : tensor A) rest :
  let xs := x0 :: rest in
  Forall wf xs -> joinable axis xs ->
  NoDup (map fst (concat_kernel axis (t_shape x0) (at_axis axis (fun _ => total (map (size_at axis) xs)) (t_shape x0)) xs)).
Proof.
  intros xs Hwf J. assert (Hx0 : In x0 xs) by now left.
  destruct J as [NE J]. destruct (J x0 x0 Hx0 Hx0) as (_ & _ & Hlt).
  destruct (nth_error (t_shape x0) axis) as [d0|] eqn:Ed.
  2:{ apply nth_error_None in Ed. lia. }
  pose proof (axis_split _ _ _ Ed) as Es.
  set (pre := firstn axis (t_shape x0)) in *. set (post := skipn (S axis) (t_shape x0)) in *.
  assert (Lp : length pre = axis). { unfold pre. apply firstn_length_le. lia. }
  assert (Hsh : forall x, In x xs -> exists d, t_shape x = pre ++ d :: post).
  { intros x Hin. destruct (J x0 x Hx0 Hin) as (_ & SB & _).
    rewrite Es, <- Lp in SB. apply same_but_mid in SB. exact SB. }
  pose proof (concat_exec pre post xs Hwf Hsh NE) as CE. cbn zeta in CE. rewrite Lp in CE.
  unfold concat_kernel. fold pre post. rewrite !prod_elements. rewrite Es at 1.
  rewrite at_axis_app by exact Lp.
  set (oa := total (map (size_at axis) xs)) in *.
  replace (nth axis (pre ++ oa :: post) 0) with oa by (rewrite <- Lp at 1; symmetry; apply nth_mid). apply CE.
Qed.

(** there is at most one such tensor *)
Theorem joined_unique {A} axis (xs : list (tensor A)) o o' :
  Forall wf xs -> joinable axis xs -> wf o -> wf o' -> joined axis xs o -> joined axis xs o' -> o = o'.
Proof.
  intros Hwf [NE J] Wo Wo' (S1 & T1 & E1) (S2 & T2 & E2).
  destruct xs as [|x0 rest] eqn:Exs; [contradiction|]. rewrite <- Exs in *.
  assert (Hx0 : In x0 xs) by (rewrite Exs; now left).
  destruct (S1 x0 Hx0) as [D1 B1]. destruct (S2 x0 Hx0) as [D2 B2].
  destruct (J x0 x0 Hx0 Hx0) as (_ & _ & Hlt).
  assert (Esh : t_shape o = t_shape o').
  { apply (nth_ext _ _ 0 0); [rewrite (proj1 B1), (proj1 B2); reflexivity|].
    intros j _. destruct (Nat.eq_dec j axis) as [->|Hj].
    - unfold size_at in T1, T2. congruence.
    - rewrite (proj2 B1 j Hj), (proj2 B2 j Hj). reflexivity. }
  apply tensor_ext; auto; [congruence|].
  intros c Hc.
  destruct (nth_error (t_shape o) axis) as [d0|] eqn:Ed.
  2:{ apply nth_error_None in Ed. rewrite (proj1 B1) in Ed. lia. }
  pose proof (axis_split _ _ _ Ed) as Es.
  set (pre := firstn axis (t_shape o)) in *. set (post := skipn (S axis) (t_shape o)) in *.
  assert (Lp : length pre = axis).
  { unfold pre. apply firstn_length_le. rewrite (proj1 B1). lia. }
  rewrite Es in Hc. apply inside_app_inv in Hc. destruct Hc as (cx & cy & -> & Hcx & Hcy).
  inversion Hcy as [|d1 k ds1 cy1 Hk Hcy1 E3 E4]; subst cy d1 ds1.
  assert (Ed0 : d0 = total (map (size_at axis) xs)).
  { rewrite <- T1. unfold size_at. symmetry. apply nth_error_nth. exact Ed. }
  assert (Hsh : forall x, In x xs -> t_shape x = pre ++ size_at axis x :: post).
  { intros x Hin. destruct (S1 x Hin) as [_ SB]. rewrite Es, <- Lp in SB. apply same_but_mid in SB.
    destruct SB as [e Ee]. unfold size_at. rewrite Ee, <- Lp, nth_mid. reflexivity. }
  assert (Hnn : forall x, In x xs -> 0 <= size_at axis x).
  { intros x Hin. pose proof Hin as Hin'. apply (proj1 (Forall_forall _ _) Hwf) in Hin as [N _].
    rewrite Hsh in N by exact Hin'. apply Forall_app in N as [_ N]. now inversion N. }
  rewrite Ed0 in Hk. destruct (find_piece axis xs Hnn k Hk) as (i & x & Hi & Hr).
  assert (Ein : inside (t_shape x) (cx ++ (k - offset axis xs i) :: cy1)).
  { rewrite Hsh by (eapply nth_error_In; eauto). apply inside_app; [exact Hcx|]. constructor; [lia|exact Hcy1]. }
  specialize (E1 i x _ Hi Ein). specialize (E2 i x _ Hi Ein).
  assert (Lx : length cx = axis) by (rewrite <- Lp; symmetry; eapply inside_length; eauto).
  rewrite at_axis_app in E1, E2 by exact Lx.
  replace (offset axis xs i + (k - offset axis xs i)) with k in E1, E2 by lia. congruence.
Qed.
