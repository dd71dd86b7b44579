From Coq Require Import List ZArith Bool Lia.
From Verif Require Import ShapeModel ShapeSpec ShapeProofs KernelBase KernelSpec KernelProofs ConcatProofs CoordProofs GatherModel GatherSpec.
Import ListNotations.
Local Open Scope Z_scope.

Lemma to_index_2 a b i j : to_index [a; b] [i; j] = SOk (i * b + j).
Proof. cbn. f_equal. lia. Qed.

Lemma gather_axis_ok x axis : match gather_axis x axis with
  | SOk n => axis_of axis (length x) n
  | SErr => forall n, ~ axis_of axis (length x) n
  | SUndef => False
  end.
Proof.
  unfold gather_axis, axis_of. destruct (Z.ltb_spec (Z.of_nat (length x)) 1); [intros n; lia|].
  destruct (Z.leb_spec (- Z.of_nat (length x)) axis); cbn [andb negb]; [|intros n; lia].
  destruct (Z.ltb_spec axis (Z.of_nat (length x))); cbn [negb]; [|intros n; lia].
  destruct (Z.ltb_spec axis 0); lia.
Qed.

Lemma fix_indices_ok x axis idx : 0 <= axis \/ Forall (fun i => 0 <= i) idx ->
  fix_indices x axis idx = SOk (map (fun i => if i <? 0 then i + nth (Z.to_nat axis) x 0 else i) idx).
Proof.
  induction idx as [|i idx IH]; intros H; [reflexivity|]. cbn [fix_indices map].
  rewrite IH by (destruct H as [H|H]; [now left|right; now inversion H]).
  destruct (Z.ltb_spec i 0); [|reflexivity]. destruct (Z.ltb_spec axis 0); [|reflexivity].
  exfalso. destruct H as [H|H]; [lia|]. inversion H; subst. lia.
Qed.

Section Kernel.
  Context {A : Type} (data : list A) (pre post : list Z) (size : Z) (idx : list Z).
  Hypothesis Npre : nonneg_shape pre.
  Hypothesis Npost : nonneg_shape post.
  Hypothesis Hsize : 0 <= size.
  Hypothesis Hd : Z.of_nat (length data) = elements (pre ++ size :: post).
  Hypothesis Hidx : Forall (fun i => 0 <= i < size) idx.

  Let N := elements pre.
  Let W := elements post.
  Let I := Z.of_nat (length idx).
  Let tr := gather_stores data (pre ++ size :: post) (length pre) idx.

  Lemma nonneg_all : 0 <= N /\ 0 <= W /\ 0 <= I.
  Proof. unfold N, W, I. pose proof (elements_nonneg _ Npre). pose proof (elements_nonneg _ Npost). lia. Qed.

  Lemma In_gather d v : In (d, v) tr <-> exists i n k, 0 <= i < I /\ 0 <= n < N /\ 0 <= k < W /\
    d = (n * I + i) * W + k /\ v = load data ((n * size + nth (Z.to_nat i) idx 0) * W + k).
  Proof using A Npost Npre data idx post pre size.
    destruct nonneg_all as (HN & HW & HI).
    unfold tr, gather_stores. rewrite firstn_mid, skipn_mid, nth_mid, !prod_elements. fold N W I.
    rewrite in_flat_map. split.
    - intros (i & Hi & H). apply In_upto in Hi. apply in_flat_map in H. destruct H as (n & Hn & H). apply In_upto in Hn.
      rewrite !to_index_2 in H. unfold memcpy in H. destruct (Z.ltb_spec W 0); [lia|].
      apply in_map_iff in H. destruct H as (k & [= <- <-] & Hk). apply In_upto in Hk. exists i, n, k. auto.
    - intros (i & n & k & Hi & Hn & Hk & -> & ->). exists i. rewrite In_upto. split; [exact Hi|].
      apply in_flat_map. exists n. rewrite In_upto. split; [exact Hn|]. rewrite !to_index_2.
      unfold memcpy. destruct (Z.ltb_spec W 0); [lia|]. apply in_map_iff. exists k. rewrite In_upto. auto.
  Qed.

  Lemma length_gather : Z.of_nat (length tr) = N * I * W.
  Proof using A Npost Npre data idx post pre size.
    destruct nonneg_all as (HN & HW & HI).
    unfold tr, gather_stores. rewrite firstn_mid, skipn_mid, nth_mid, !prod_elements. fold N W I.
    rewrite (length_flat_map_const _ _ (Z.to_nat (N * W))).
    - rewrite length_upto. rewrite Nat2Z.inj_mul, !Z2Nat.id by nia. ring.
    - intros i Hi. rewrite (length_flat_map_const _ _ (Z.to_nat W)).
      + rewrite length_upto. rewrite Z2Nat.inj_mul; lia.
      + intros n Hn. rewrite !to_index_2. unfold memcpy. destruct (Z.ltb_spec W 0); [lia|].
        now rewrite map_length, length_upto.
  Qed.

  Theorem gather_exec : NoDup (map fst tr) /\
    exists out, exec (fresh (N * I * W)) tr = SOk (map Some out) /\ Z.of_nat (length out) = N * I * W /\
    forall i n k, 0 <= i < I -> 0 <= n < N -> 0 <= k < W ->
      nth_error out (Z.to_nat ((n * I + i) * W + k)) =
      nth_error data (Z.to_nat ((n * size + nth (Z.to_nat i) idx 0) * W + k)).
  Proof.
    destruct nonneg_all as (HN & HW & HI).
    assert (HNI : 0 <= N * I) by nia. assert (HT : 0 <= N * I * W) by nia.
    assert (Hld : forall i n k, 0 <= i < I -> 0 <= n < N -> 0 <= k < W ->
      exists a, load data ((n * size + nth (Z.to_nat i) idx 0) * W + k) = SOk a /\
        nth_error data (Z.to_nat ((n * size + nth (Z.to_nat i) idx 0) * W + k)) = Some a).
    { intros i n k Hi Hn Hk. apply load_ok. rewrite Hd, elements_app. cbn [elements]. fold N W.
      assert (0 <= nth (Z.to_nat i) idx 0 < size).
      { apply (proj1 (Forall_forall _ _) Hidx). apply nth_In. unfold I in Hi. lia. }
      set (j := nth (Z.to_nat i) idx 0) in *. assert (0 <= n * size + j < N * size) by nia. nia. }
    destruct (exec_once (N * I * W) tr) as (ND & out & E & L & H).
    - pose proof length_gather. lia.
    - intros d v Hin. apply In_gather in Hin. destruct Hin as (i & n & k & Hi & Hn & Hk & -> & ->). split.
      + assert (0 <= n * I + i < N * I) by nia. nia.
      + destruct (Hld i n k Hi Hn Hk) as (a & Ha & _). eauto.
    - intros d Hdr. assert (0 < W /\ 0 < I) as [PW PI] by nia.
      pose proof (Z.div_mod d W ltac:(lia)). pose proof (Z.mod_pos_bound d W PW).
      set (q := d / W) in *. assert (0 <= q < N * I) by nia.
      pose proof (Z.div_mod q I ltac:(lia)). pose proof (Z.mod_pos_bound q I PI).
      assert (0 <= q / I < N) by nia.
      apply in_map_iff. exists (d, load data ((q / I * size + nth (Z.to_nat (q mod I)) idx 0) * W + d mod W)).
      split; [reflexivity|]. apply In_gather. exists (q mod I), (q / I), (d mod W).
      split; [lia|]. split; [lia|]. split; [lia|]. split; [|reflexivity]. nia.
    - split; [exact ND|]. exists out. split; [exact E|]. split; [lia|]. intros i n k Hi Hn Hk.
      destruct (Hld i n k Hi Hn Hk) as (a & Ha & ->). apply H. apply In_gather. exists i, n, k. rewrite Ha. auto.
  Qed.
End Kernel.

Theorem gather_ok {A} m_axis axis (x : tensor A) (indices : tensor Z) : wf x -> wf indices ->
  axis_of m_axis (length (t_shape x)) axis ->
  (forall k, In k (t_data indices) -> 0 <= from_end (nth axis (t_shape x) 0) k < nth axis (t_shape x) 0) ->
  0 <= m_axis \/ Forall (fun k => 0 <= k) (t_data indices) ->
  exists out, gather_run m_axis x indices = SOk (filled out) /\ wf out /\ gathered axis x indices out.
Proof.
  intros [Nx Dx] [Ni Di] Ha Hr Hneg. unfold gather_run. pose proof (gather_axis_ok (t_shape x) m_axis) as G.
  destruct (gather_axis (t_shape x) m_axis) as [n| |]; [|exfalso; exact (G _ Ha)|destruct G].
  rewrite (axis_of_inj _ _ _ _ G Ha). clear G n.
  rewrite fix_indices_ok by exact Hneg.
  assert (La : (axis < length (t_shape x))%nat) by apply Ha.
  assert (Sp : t_shape x = firstn axis (t_shape x) ++ nth axis (t_shape x) 0 :: skipn (S axis) (t_shape x)).
  { apply axis_split. now apply nth_error_nth'. }
  remember (firstn axis (t_shape x)) as pre eqn:Ep. remember (skipn (S axis) (t_shape x)) as post eqn:Eq.
  remember (nth axis (t_shape x) 0) as size eqn:Ez.
  assert (Lp : length pre = axis) by (subst pre; rewrite firstn_length; lia).
  assert (Nall : nonneg_shape pre /\ 0 <= size /\ nonneg_shape post).
  { rewrite Sp in Nx. apply Forall_app in Nx. destruct Nx as [N1 N2]. inversion N2; subst. auto. }
  destruct Nall as (N1 & N2 & N3).
  set (idx := map (fun i => if i <? 0 then i + nth (Z.to_nat m_axis) (t_shape x) 0 else i) (t_data indices)).
  assert (Eidx : idx = map (from_end size) (t_data indices)).
  { unfold idx. apply map_ext_in. intros k Hk. unfold from_end. destruct (Z.ltb_spec k 0); [|reflexivity].
    destruct Hneg as [Hm|Hm]; [|rewrite Forall_forall in Hm; specialize (Hm k Hk); lia].
    f_equal. rewrite Ez. f_equal. destruct Ha as [_ [Ha|Ha]]; lia. }
  rewrite Eidx. clear idx Eidx. set (idx := map (from_end size) (t_data indices)).
  assert (LI : Z.of_nat (length idx) = elements (t_shape indices)) by (unfold idx; rewrite map_length; exact Di).
  replace (gather_stores (t_data x) (t_shape x) axis idx) with (gather_stores (t_data x) (pre ++ size :: post) (length pre) idx)
    by (rewrite <- Sp, Lp; reflexivity).
  destruct (gather_exec (t_data x) pre post size idx N1 N3) as (_ & out & E & L & H).
  - exact N2.
  - rewrite <- Sp. exact Dx.
  - unfold idx. apply Forall_map. apply Forall_forall. intros k Hk. now apply Hr.
  - assert (Eo : prod (pre ++ t_shape indices ++ post) = elements pre * Z.of_nat (length idx) * elements post).
    { rewrite prod_elements, !elements_app. rewrite LI. ring. }
    rewrite Eo, E. exists (Tn (t_dtype x) (pre ++ t_shape indices ++ post) out). split; [reflexivity|]. split.
    + split; [cbn [t_shape]; apply Forall_app; split; [exact N1|apply Forall_app; auto]|].
      cbn [t_shape t_data]. rewrite L, <- Eo. apply prod_elements.
    + split; [reflexivity|]. exists pre, size, post. split; [exact Sp|]. split; [exact Lp|]. split; [reflexivity|].
      intros p i q k Hp Hi Hq Hk. unfold elt in *. cbn [t_shape t_data]. rewrite Sp.
      rewrite position_app by (apply (inside_length _ _ Hp)). rewrite position_app by (apply (inside_length _ _ Hi)).
      rewrite position_app by (apply (inside_length _ _ Hp)). rewrite elements_app. cbn [elements position].
      pose proof (position_bound _ _ Hp). pose proof (position_bound _ _ Hi). pose proof (position_bound _ _ Hq).
      specialize (H (position (t_shape indices) i) (position pre p) (position post q)).
      rewrite LI in H. specialize (H ltac:(lia) ltac:(lia) ltac:(lia)).
      assert (En : nth (Z.to_nat (position (t_shape indices) i)) idx 0 = from_end size k).
      { apply nth_error_nth. unfold idx. rewrite nth_error_map, Hk. reflexivity. }
      rewrite En in H.
      replace (position pre p * (elements (t_shape indices) * elements post) +
        (position (t_shape indices) i * elements post + position post q))
        with ((position pre p * elements (t_shape indices) + position (t_shape indices) i) * elements post + position post q) by ring.
      rewrite H. f_equal. f_equal. ring.
Qed.

Theorem gather_out_of_range {A} m_axis axis (x : tensor A) (indices : tensor Z) k : wf x -> 0 <= m_axis ->
  axis_of m_axis (length (t_shape x)) axis -> 0 < elements (t_shape x) ->
  In k (t_data indices) -> ~ (0 <= from_end (nth axis (t_shape x) 0) k < nth axis (t_shape x) 0) ->
  gather_run m_axis x indices = SUndef.
Proof.
  intros [Nx Dx] Hm Ha Pe Hk Hr. unfold gather_run. pose proof (gather_axis_ok (t_shape x) m_axis) as G.
  destruct (gather_axis (t_shape x) m_axis) as [n| |]; [|exfalso; exact (G _ Ha)|destruct G].
  rewrite (axis_of_inj _ _ _ _ G Ha). clear G n. rewrite fix_indices_ok by (now left).
  assert (La : (axis < length (t_shape x))%nat) by apply Ha.
  assert (Sp : t_shape x = firstn axis (t_shape x) ++ nth axis (t_shape x) 0 :: skipn (S axis) (t_shape x)).
  { apply axis_split. now apply nth_error_nth'. }
  assert (Em : nth (Z.to_nat m_axis) (t_shape x) 0 = nth axis (t_shape x) 0) by (f_equal; destruct Ha as [_ [Ha|Ha]]; lia).
  rewrite Em. set (size := nth axis (t_shape x) 0) in *. 
  change (fun i => if i <? 0 then i + size else i) with (from_end size).
  set (idx := map (from_end size) (t_data indices)).
  assert (Hk' : In (from_end size k) idx) by (now apply in_map).
  apply In_nth with (d := 0) in Hk'. destruct Hk' as (i & Hi & Ei).
  unfold gather_stores. fold size. rewrite !prod_elements.
  rewrite Sp in Pe. rewrite elements_app in Pe. cbn [elements] in Pe.
  assert (Nall : nonneg_shape (firstn axis (t_shape x)) /\ 0 <= size /\ nonneg_shape (skipn (S axis) (t_shape x))).
  { rewrite Sp in Nx. apply Forall_app in Nx. destruct Nx as [N1 N2]. inversion N2; subst. auto. }
  destruct Nall as (N1 & N2 & N3). pose proof (elements_nonneg _ N1). pose proof (elements_nonneg _ N3).
  assert (Hd : Z.of_nat (length (t_data x)) = elements (firstn axis (t_shape x)) * (size * elements (skipn (S axis) (t_shape x)))).
  { rewrite Dx. rewrite Sp at 1. rewrite elements_app. reflexivity. }
  set (N := elements (firstn axis (t_shape x))) in *. set (W := elements (skipn (S axis) (t_shape x))) in *.
  assert (0 < N /\ 0 < W) as [PN PW] by nia.
  rewrite exec_undef; [reflexivity| |].
  - intros d v Hin. apply in_flat_map in Hin. destruct Hin as (i' & _ & Hin). apply in_flat_map in Hin.
    destruct Hin as (n & _ & Hin). rewrite !to_index_2 in Hin. unfold memcpy in Hin.
    destruct (Z.ltb_spec W 0); [lia|]. apply in_map_iff in Hin. destruct Hin as (q & [= <- <-] & _).
    unfold load. destruct (_ <? 0); [discriminate|]. destruct (nth_error _ _); discriminate.
  - set (n := if from_end size k <? 0 then 0 else N - 1).
    exists ((n * Z.of_nat (length idx) + Z.of_nat i) * W + 0).
    apply in_flat_map. exists (Z.of_nat i). rewrite In_upto. split; [lia|].
    apply in_flat_map. exists n. rewrite In_upto. split; [unfold n; destruct (_ <? 0); lia|].
    rewrite !to_index_2. unfold memcpy. destruct (Z.ltb_spec W 0); [lia|].
    apply in_map_iff. exists 0. rewrite In_upto. split; [|lia]. f_equal.
    rewrite Nat2Z.id, Ei. apply load_out. rewrite Hd. unfold n.
    destruct (Z.ltb_spec (from_end size k) 0).
    + cbn. nia.
    + assert (size <= from_end size k) by lia. set (j := from_end size k) in *. 
      assert (N * size <= (N - 1) * size + j) by nia.
      assert (N * size * W <= ((N - 1) * size + j) * W) by nia. nia.
Qed.
