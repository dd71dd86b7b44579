From Coq Require Import List ZArith Bool Lia.
From Verif Require Import ShapeModel ShapeSpec ShapeProofs KernelBase KernelSpec KernelProofs ConcatProofs CoordProofs
  GatherModel GatherProofs GatherNdModel GatherNdSpec.
Import ListNotations.
Local Open Scope Z_scope.

(** * gatherv2 *)
Lemma index_row_length idx a rank i : (a <= rank)%nat -> length (index_row idx a rank i) = rank.
Proof. intros H. unfold index_row. rewrite app_length, map_length, length_upto, repeat_length. lia. Qed.

Lemma position_zeros s : forall n, position s (repeat 0 n) = 0.
Proof. induction s as [|d s IH]; intros [|n]; cbn [repeat position]; auto. rewrite IH. lia. Qed.

Section Nd.
  Context {A : Type} (x : tensor A) (indices : tensor Z) (lead post many : list Z).
  Hypothesis Wx : wf x.
  Hypothesis Wi : wf indices.
  Hypothesis Sx : t_shape x = lead ++ post.
  Hypothesis Si : t_shape indices = many ++ [Z.of_nat (length lead)].
  Hypothesis Nlead : lead ++ post <> [].
  Hypothesis Range : forall i, inside many i -> exists js, inside lead js /\ row_at indices i js.

  Let a := length lead.
  Let W := elements post.
  Let N := elements many.

  Lemma nd_nonneg : nonneg_shape lead /\ nonneg_shape post /\ nonneg_shape many.
  Proof using A Si Sx Wi Wx indices lead many post x.
    destruct Wx as [H _]. rewrite Sx in H. apply Forall_app in H. destruct Wi as [H' _]. rewrite Si in H'. apply Forall_app in H'. tauto.
  Qed.

  Lemma row_position i js : inside many i -> length js = a -> row_at indices i js ->
    index_row (t_data indices) a (length (lead ++ post)) (position many i) = js ++ repeat 0 (length post).
  Proof using Si Wi.
    intros Hi Hjs Hr. unfold index_row. f_equal.
    - apply (nth_ext _ _ 0 0); [now rewrite map_length, length_upto, Nat2Z.id|].
      intros k Hk. rewrite map_length, length_upto, Nat2Z.id in Hk.
      specialize (Hr k ltac:(lia)). unfold elt in Hr. rewrite Si in Hr.
      rewrite position_app in Hr by (apply (inside_length _ _ Hi)). cbn [elements position] in Hr.
      rewrite (nth_indep _ 0 (nth (Z.to_nat (position many i * Z.of_nat a + 0)) (t_data indices) 0)) by (rewrite map_length, length_upto; lia).
      rewrite (map_nth (fun k => nth (Z.to_nat (position many i * Z.of_nat a + k)) (t_data indices) 0)).
      assert (Ek : nth k (upto (Z.of_nat a)) 0 = Z.of_nat k).
      { apply nth_error_nth. rewrite <- (Nat2Z.id k) at 1. apply nth_error_upto. lia. }
      rewrite Ek. apply nth_error_nth.
      replace (position many i * Z.of_nat a + Z.of_nat k) with (position many i * (Z.of_nat (length lead) * 1) + (Z.of_nat k * 1 + 0)) by (unfold a; ring).
      exact Hr.
    - f_equal. rewrite app_length. unfold a. lia.
  Qed.

  Theorem nd_exec : exists out, gathernd_run x indices = SOk (filled out) /\ wf out /\ gathered_nd x indices out.
  Proof using A Nlead Range Si Sx Wi Wx indices lead many post x.
    destruct nd_nonneg as (N1 & N2 & N3). pose proof (elements_nonneg _ N2) as HW. pose proof (elements_nonneg _ N3) as HN.
    fold W in HW. fold N in HN.
    unfold gathernd_run, gathernd_infer. rewrite Si, Sx.
    destruct (Nat.eqb_spec (length (lead ++ post)) 0) as [E|_]; [apply length_zero_iff_nil in E; contradiction|].
    rewrite (app_length many). cbn [length]. rewrite Nat.add_1_r. cbn [Nat.eqb orb]. rewrite last_last, removelast_last.
    destruct (Z.ltb_spec (Z.of_nat (length (lead ++ post))) (Z.of_nat (length lead))) as [H|_]; [rewrite app_length in H; lia|].
    rewrite Nat2Z.id.
    assert (Sk : skipn (length lead) (lead ++ post) = post) by (rewrite skipn_app, skipn_all, Nat.sub_diag; reflexivity).
    rewrite Sk. unfold gathernd_stores. rewrite removelast_last, Sk, !prod_elements. fold W N.
    set (S' := fun i => position (lead ++ post) (index_row (t_data indices) (length lead) (length (lead ++ post)) i)).
    assert (Etr : flat_map (fun i => match to_index (lead ++ post) (index_row (t_data indices) (length lead) (length (lead ++ post)) i) with
       | SOk index => memcpy (i * W) (t_data x) index W | _ => [(0, SUndef)] end) (upto N)
       = flat_map (fun j => memcpy ((fun i => i * W) j) (t_data x) (S' j) W) (upto N)).
    { apply flat_map_ext. intros i. rewrite to_index_ok by (rewrite index_row_length; rewrite ?app_length; lia).
      rewrite index_row_length by (rewrite app_length; lia). rewrite Nat.sub_diag. reflexivity. }
    rewrite Etr. clear Etr. rewrite elements_app. fold N W.
    assert (Src : forall i, inside many i -> exists js, inside lead js /\ row_at indices i js /\ S' (position many i) = position lead js * W).
    { intros i Hi. destruct (Range i Hi) as (js & Hj & Hr). exists js. split; [exact Hj|]. split; [exact Hr|].
      unfold S'. fold a. rewrite (row_position i js) by (auto; symmetry; apply (inside_length _ _ Hj)).
      rewrite position_app by (apply (inside_length _ _ Hj)). rewrite position_zeros. fold W. lia. }
    assert (Hld : forall j k, 0 <= j < N -> 0 <= k < W -> exists v, load (t_data x) (S' j + k) = SOk v /\ nth_error (t_data x) (Z.to_nat (S' j + k)) = Some v).
    { intros j k Hj Hk. destruct (coordinate_of many j N3 Hj) as (i & Hi & <-). destruct (Src i Hi) as (js & I1 & _ & ->).
      apply load_ok. destruct Wx as [_ D]. rewrite D, Sx, elements_app. fold W. pose proof (position_bound _ _ I1). nia. }
    destruct (exec_once (N * W) (flat_map (fun j => memcpy ((fun i => i * W) j) (t_data x) (S' j) W) (upto N))) as (_ & out & E & L & H).
    - pose proof (length_blocks (t_data x) (fun i => i * W) S' N W HW HN) as Hl. lia.
    - intros d v Hin. apply In_blocks in Hin; [|exact HW]. destruct Hin as (j & k & Hj & Hk & -> & ->). cbv beta. split; [nia|].
      destruct (Hld j k Hj Hk) as (v & Hv & _). eauto.
    - intros d Hd. assert (PW : 0 < W) by nia. pose proof (Z.div_mod d W ltac:(lia)). pose proof (Z.mod_pos_bound d W PW).
      apply in_map_iff. exists (d, load (t_data x) (S' (d / W) + d mod W)). split; [reflexivity|].
      apply In_blocks; [exact HW|]. exists (d / W), (d mod W). split; [nia|]. split; [lia|]. cbv beta. split; [nia|reflexivity].
    - cbv beta in E |- *. rewrite E. exists (Tn (t_dtype x) (many ++ post) out). split; [reflexivity|]. split.
      + split; [cbn [t_shape]; apply Forall_app; auto|]. cbn [t_shape t_data]. rewrite elements_app. fold N W. nia.
      + split; [reflexivity|]. exists lead, post, many. split; [exact Sx|]. split; [exact Si|]. split; [reflexivity|].
        intros i js q Hi Hjs Hr Hq. destruct (Src i Hi) as (js' & I1 & R1 & Es).
        assert (js' = js).
        { apply (nth_ext _ _ 0 0); [rewrite Hjs; symmetry; apply (inside_length _ _ I1)|].
          intros k Hk. pose proof (inside_length _ _ I1) as Ll. specialize (R1 k Hk). specialize (Hr k ltac:(lia)). congruence. }
        subst js'. pose proof (position_bound _ _ Hi) as B1. pose proof (position_bound _ _ Hq) as B2. fold N in B1. fold W in B2.
        destruct (Hld (position many i) (position post q) B1 B2) as (v & Hv & Hn).
        unfold elt. cbn [t_shape t_data]. rewrite Sx.
        rewrite position_app by (apply (inside_length _ _ Hi)). rewrite position_app by (symmetry; exact Hjs). fold W.
        rewrite <- Es. rewrite Hn. apply H. apply In_blocks; [exact HW|].
        exists (position many i), (position post q). rewrite Hv. auto.
  Qed.
End Nd.

(** * gather_elements, when the index tensor has size one on the axis *)
Theorem take_along_ok {A} m_axis (x : tensor A) (indices : tensor Z) pre size post : wf x -> wf indices ->
  t_shape x = pre ++ size :: post -> m_axis = Z.of_nat (length pre) -> t_shape indices = pre ++ 1 :: post ->
  (forall k, In k (t_data indices) -> - size <= k < size) ->
  exists out, gather_elements_run m_axis x indices = SOk (filled out) /\ wf out /\ taken_along (length pre) x indices out.
Proof.
  intros [Nx Dx] [Ni Di] Sx Em Si Hr. unfold gather_elements_run.
  pose proof (gather_axis_ok (t_shape x) m_axis) as G.
  assert (Ha : axis_of m_axis (length (t_shape x)) (length pre)).
  { rewrite Sx, app_length. cbn [length]. split; lia. }
  destruct (gather_axis (t_shape x) m_axis) as [n| |]; [|exfalso; exact (G _ Ha)|destruct G].
  rewrite (axis_of_inj _ _ _ _ G Ha). clear G n Ha.
  unfold fix_all. destruct (Z.ltb_spec m_axis 0); [lia|]. rewrite Em, Nat2Z.id, Sx, nth_mid.
  set (f := fun v => if v <? 0 then v + size else v). set (idx := map f (t_data indices)).
  rewrite Sx in Nx. apply Forall_app in Nx. destruct Nx as [N1 N2].
  assert (Hz : 0 <= size) by now inversion N2.
  assert (N3 : nonneg_shape post) by now inversion N2.
  pose proof (elements_nonneg _ N1) as HN. pose proof (elements_nonneg _ N3) as HW.
  unfold elements_stores. rewrite firstn_mid, skipn_mid, nth_mid, !prod_elements.
  rewrite Si, elements_app in Di |- *. cbn [elements] in Di |- *. rewrite Z.mul_1_l in Di |- *.
  rewrite Sx, elements_app in Dx. cbn [elements] in Dx.
  set (N := elements pre) in *. set (W := elements post) in *.
  set (g := fun n i => match load idx (n * W + i) with SOk j => load (t_data x) ((n * size + j) * W + i) | _ => SUndef end).
  assert (Etr : flat_map (fun n => map (fun i => match to_index [N; W] [n; i] with
      | SOk o => (o, match load idx o with SOk j => match to_index [N; size; W] [n; j; i] with SOk k => load (t_data x) k | _ => SUndef end | _ => SUndef end)
      | _ => (0, SUndef) end) (upto W)) (upto N) = flat_map (fun n => map (fun i => (n * W + i, g n i)) (upto W)) (upto N)).
  { apply flat_map_ext. intros n. apply map_ext. intros i. rewrite to_index_2. unfold g. destruct (load idx (n * W + i)); try reflexivity.
    rewrite to_index_ok by (cbn; lia). cbn [length Nat.sub skipn position elements].
    match goal with |- (_, load _ ?u) = (_, load _ ?v) => replace u with v by ring end. reflexivity. }
  rewrite Etr. clear Etr. set (tr := flat_map _ _).
  assert (Hin : forall d v, In (d, v) tr <-> exists n i, 0 <= n < N /\ 0 <= i < W /\ d = n * W + i /\ v = g n i).
  { intros d v. unfold tr. rewrite in_flat_map. split.
    - intros (n & Hn & H1). apply in_map_iff in H1. destruct H1 as (i & [= <- <-] & Hi). rewrite In_upto in Hn, Hi. eauto 6.
    - intros (n & i & Hn & Hi & -> & ->). exists n. rewrite In_upto. split; [exact Hn|]. apply in_map_iff. exists i. now rewrite In_upto. }
  assert (Hg : forall n i, 0 <= n < N -> 0 <= i < W -> exists k v, nth_error (t_data indices) (Z.to_nat (n * W + i)) = Some k /\
     g n i = SOk v /\ nth_error (t_data x) (Z.to_nat ((n * size + f k) * W + i)) = Some v).
  { intros n i Hn Hi. destruct (load_ok idx (n * W + i)) as (j & Hj & Hj'); [unfold idx; rewrite map_length, Di; nia|].
    unfold idx in Hj'. rewrite nth_error_map in Hj'. destruct (nth_error (t_data indices) (Z.to_nat (n * W + i))) as [k|] eqn:Ek; [|discriminate].
    cbn in Hj'. injection Hj' as <-. pose proof (nth_error_In _ _ Ek) as Hk. specialize (Hr k Hk).
    assert (Hf : 0 <= f k < size) by (unfold f; destruct (Z.ltb_spec k 0); lia).
    destruct (load_ok (t_data x) ((n * size + f k) * W + i)) as (v & Hv & Hv').
    { rewrite Dx. assert (0 <= n * size + f k < N * size) by nia. nia. }
    exists k, v. split; [reflexivity|]. split; [|exact Hv']. unfold g. rewrite Hj. exact Hv. }
  destruct (exec_once (N * W) tr) as (_ & out & E & L & H1).
  - unfold tr. rewrite (length_flat_map_const _ _ (Z.to_nat W)).
    + rewrite length_upto, Z2Nat.inj_mul; lia.
    + intros n _. now rewrite map_length, length_upto.
  - intros d v Hd. apply Hin in Hd. destruct Hd as (n & i & Hn & Hi & -> & ->). split; [nia|].
    destruct (Hg n i Hn Hi) as (k & v & _ & Hv & _). eauto.
  - intros d Hd. assert (PW : 0 < W) by nia. pose proof (Z.div_mod d W ltac:(lia)). pose proof (Z.mod_pos_bound d W PW).
    apply in_map_iff. exists (d, g (d / W) (d mod W)). split; [reflexivity|]. apply Hin. exists (d / W), (d mod W).
    split; [nia|]. split; [lia|]. split; [nia|reflexivity].
  - rewrite E. exists (Tn (t_dtype x) (pre ++ 1 :: post) out). split; [reflexivity|]. split.
    + split; [cbn [t_shape]; rewrite <- Si; exact Ni|]. cbn [t_shape t_data]. rewrite elements_app. cbn [elements]. fold N W. nia.
    + split; [reflexivity|]. split; [cbn [t_shape]; now rewrite Si|]. intros p i q k Lp Hi Hk. rewrite Si in Hi.
      apply inside_app_inv in Hi. destruct Hi as (p' & q' & Epq & Hp & Hq).
      assert (p = p' /\ i :: q = q') as [<- <-].
      { assert (Lpp : length p = length p') by (rewrite Lp; apply (inside_length _ _ Hp)).
        clear - Epq Lpp. revert p' Epq Lpp. induction p as [|u p IH]; intros [|u' p'] Epq Lpp; try discriminate.
        - cbn in *. auto.
        - cbn in Epq. injection Epq as -> Epq. destruct (IH p' Epq ltac:(now injection Lpp)) as [-> ->]. auto. }
      inversion Hq as [|? ? ? ? Hi0 Hq']; subst. assert (i = 0) by lia. subst i.
      pose proof (position_bound _ _ Hp) as B1. pose proof (position_bound _ _ Hq') as B2. fold N in B1. fold W in B2.
      destruct (Hg (position pre p) (position post q) B1 B2) as (k' & v & Hk' & Hv & Hn).
      unfold elt in *. cbn [t_shape t_data]. rewrite Sx. rewrite Si in Hk.
      rewrite nth_mid.
      rewrite position_app in Hk |- * by (symmetry; exact Lp). rewrite position_app by (symmetry; exact Lp).
      cbn [position elements] in Hk |- *. fold W in Hk |- *. rewrite Z.mul_1_l in Hk |- *.
      rewrite Z.mul_0_l, Z.add_0_l in Hk |- *. rewrite Hk in Hk'. injection Hk' as <-.
      replace (position pre p * (size * W) + ((if k <? 0 then k + size else k) * W + position post q))
        with ((position pre p * size + f k) * W + position post q) by (unfold f; ring).
      rewrite Hn. apply H1. apply Hin. exists (position pre p), (position post q). rewrite Hv. auto.
Qed.

(** * scatter_nd *)
Lemma memcpy_exec {A} (x : list A) dst src n (m : list (option A)) : 0 <= n -> 0 <= dst -> dst + n <= Z.of_nat (length m) ->
  0 <= src -> src + n <= Z.of_nat (length x) ->
  exists m', exec m (memcpy dst x src n) = SOk m' /\ length m' = length m /\
    (forall k, 0 <= k < n -> nth_error m' (Z.to_nat (dst + k)) = option_map Some (nth_error x (Z.to_nat (src + k)))) /\
    (forall p, ~ (dst <= Z.of_nat p < dst + n) -> nth_error m' p = nth_error m p).
Proof.
  intros H1 H2 H3 H4 H5. unfold memcpy. destruct (Z.ltb_spec n 0); [lia|].
  destruct (exec_nodup (map (fun k => (dst + k, load x (src + k))) (upto n)) m) as (m' & E & L & K1 & K2).
  - rewrite map_map. cbn [fst]. assert (G : forall l, NoDup l -> NoDup (map (fun k => dst + k) l)).
    { induction 1 as [|a l Hn ND IH]; [constructor|]. cbn. constructor; [|exact IH]. intros Hin. apply in_map_iff in Hin.
      destruct Hin as (b & Hb & Hin). assert (b = a) by lia. subst. contradiction. }
    apply G, NoDup_upto.
  - intros d v Hin. apply in_map_iff in Hin. destruct Hin as (k & [= <- <-] & Hk). apply In_upto in Hk. split; [lia|].
    destruct (load_ok x (src + k)) as (a & Ha & _); [lia|eauto].
  - exists m'. split; [exact E|]. split; [exact L|]. split.
    + intros k Hk. destruct (load_ok x (src + k)) as (a & Ha & ->); [lia|]. cbn. apply K1. apply in_map_iff.
      exists k. rewrite Ha, In_upto. auto.
    + intros p Hp. apply K2. rewrite map_map. cbn [fst]. intros Hin. apply in_map_iff in Hin.
      destruct Hin as (k & Hk & Hin). apply In_upto in Hin. lia.
Qed.

Lemma exec_app {A} tr1 : forall (m m' : list (option A)) tr2, exec m tr1 = SOk m' -> exec m (tr1 ++ tr2) = exec m' tr2.
Proof.
  induction tr1 as [|[d v] tr1 IH]; intros m m' tr2 H.
  - cbn in H. injection H as ->. reflexivity.
  - cbn [app exec] in *. destruct v as [a| |]; try discriminate. destruct (store m d a); try discriminate. now apply IH.
Qed.

Lemma scatter_exec {A} (updates : list A) W D : 0 <= W -> forall idx i0 (m : list (option A)),
  0 <= i0 -> (i0 + Z.of_nat (length idx)) * W <= Z.of_nat (length updates) -> Z.of_nat (length m) = D * W ->
  Forall (fun r => 0 <= r < D) idx ->
  exists m', exec m (scatter_stores updates W i0 idx) = SOk m' /\ length m' = length m /\
    forall r k, 0 <= r < D -> 0 <= k < W ->
      (forall j, nth_error idx j = Some r -> (forall j', (j < j')%nat -> nth_error idx j' <> Some r) ->
         nth_error m' (Z.to_nat (r * W + k)) = option_map Some (nth_error updates (Z.to_nat ((i0 + Z.of_nat j) * W + k)))) /\
      (~ In r idx -> nth_error m' (Z.to_nat (r * W + k)) = nth_error m (Z.to_nat (r * W + k))).
Proof.
  intros HW. induction idx as [|r0 idx IH]; intros i0 m Hi Hu Hm Hr.
  - exists m. split; [reflexivity|]. split; [reflexivity|]. intros r k _ _. split; [|reflexivity]. intros [|j]; discriminate.
  - inversion Hr as [|? ? Hr0 Hr']; subst. cbn [length] in Hu. cbn [scatter_stores].
    destruct (memcpy_exec updates (r0 * W) (i0 * W) W m HW) as (m1 & E1 & L1 & K1 & K2); [nia|nia|nia|nia|].
    rewrite (exec_app _ _ _ _ E1).
    destruct (IH (i0 + 1) m1) as (m' & E & L & K); [lia|lia|lia|exact Hr'|].
    exists m'. split; [exact E|]. split; [congruence|]. intros r k Hrr Hk. destruct (K r k Hrr Hk) as [Ka Kb]. split.
    + intros [|j] Hj Hlast.
      * cbn in Hj. injection Hj as ->. rewrite Kb.
        -- rewrite K1 by exact Hk. f_equal. f_equal. f_equal. lia.
        -- intros Hin. apply In_nth_error in Hin as [j' Hj']. apply (Hlast (S j')); [lia|exact Hj'].
      * cbn in Hj. rewrite (Ka j Hj).
        -- f_equal. f_equal. f_equal. lia.
        -- intros j' Hj' Hc. apply (Hlast (S j')); [lia|exact Hc].
    + intros Hn. rewrite Kb by (intros Hin; apply Hn; now right). apply K2. rewrite Z2Nat.id by nia.
      assert (r <> r0) by (intros ->; apply Hn; now left). nia.
Qed.

Lemma all_some {A} (m : list (option A)) : (forall p, (p < length m)%nat -> exists a, nth_error m p = Some (Some a)) ->
  exists out, m = map Some out.
Proof.
  induction m as [|o m IH]; intros H; [exists []; reflexivity|].
  destruct (H 0%nat) as [a Ha]; [cbn; lia|]. cbn in Ha. injection Ha as ->.
  destruct IH as [out ->]. { intros p Hp. destruct (H (S p)) as [b Hb]; [cbn; lia|]. eauto. }
  exists (a :: out). reflexivity.
Qed.

Lemma exec_keeps_some {A} tr : forall (m m' : list (option A)), exec m tr = SOk m' ->
  forall p a, nth_error m p = Some (Some a) -> exists b, nth_error m' p = Some (Some b).
Proof.
  induction tr as [|[d v] tr IH]; intros m m' H p a Hp; cbn in H.
  - injection H as <-. eauto.
  - destruct v as [b| |]; try discriminate. unfold store in H. destruct (_ || _) eqn:Eo; [discriminate|].
    apply orb_false_iff in Eo as [E1 E2]. apply Z.ltb_ge in E1. apply Z.leb_gt in E2.
    destruct (Nat.eq_dec (Z.to_nat d) p) as [<-|Hne].
    + apply (IH _ _ H _ b). apply set_nth_same. lia.
    + apply (IH _ _ H _ a). rewrite set_nth_other by exact Hne. exact Hp.
Qed.

Theorem scatter_ok {A} (x updates : tensor A) (indices : tensor Z) d rest n ones : wf x -> wf updates -> wf indices ->
  t_dtype x = t_dtype updates -> t_shape x = d :: rest -> t_shape updates = n :: rest ->
  t_shape indices = n :: ones -> elements ones = 1 ->
  Forall (fun r => 0 <= r < d) (t_data indices) ->
  exists out, scatter_run x indices updates = SOk (filled out) /\ wf out /\ scattered x (t_data indices) updates out.
Proof.
  intros [Nx Dx] [Nu Du] [Ni Di] Ed Sx Su Si E1 Hr. unfold scatter_run. rewrite Ed, Z.eqb_refl, Si, Su. cbn [negb].
  rewrite Si in Di. cbn [elements] in Di. rewrite E1, Z.mul_1_r in Di.
  destruct (Z.ltb_spec (Z.of_nat (length (t_data indices))) n); [lia|].
  rewrite firstn_all2 by lia. rewrite Sx, !prod_elements.
  rewrite Sx in Nx, Dx. rewrite Su in Nu, Du. cbn [elements] in *.
  assert (Nr : nonneg_shape rest) by now inversion Nx. assert (Hd : 0 <= d) by now inversion Nx.
  pose proof (elements_nonneg _ Nr) as HW. set (W := elements rest) in *.
  destruct (memcpy_exec (t_data x) 0 0 (d * W) (fresh (d * W))) as (m0 & E0 & L0 & K0 & _);
    [nia|lia|unfold fresh; rewrite repeat_length; nia|lia|lia|].
  unfold fresh in L0. rewrite repeat_length in L0.
  rewrite (exec_app _ _ _ _ E0).
  destruct (scatter_exec (t_data updates) W d HW (t_data indices) 0 m0) as (m' & E & L & K); [lia|lia|nia|exact Hr|].
  rewrite E.
  assert (Hsome : exists out, m' = map Some out).
  { apply all_some. intros p Hp. rewrite L, L0 in Hp.
    assert (Hx : nth_error m0 p = option_map Some (nth_error (t_data x) p)).
    { specialize (K0 (Z.of_nat p) ltac:(lia)). rewrite !Z.add_0_l, !Nat2Z.id in K0. exact K0. }
    destruct (nth_error (t_data x) p) as [a|] eqn:Ea; [|apply nth_error_None in Ea; lia].
    exact (exec_keeps_some _ _ _ E p a Hx). }
  destruct Hsome as [out ->]. rewrite map_length in L.
  exists (Tn (t_dtype updates) (d :: rest) out). split; [reflexivity|]. split.
  - split; [exact Nx|]. cbn [t_shape t_data elements]. fold W. nia.
  - split; [cbn [t_dtype]; now rewrite Ed|]. split; [cbn [t_shape]; now rewrite Sx|]. intros r q Hi. rewrite Sx in Hi.
    inversion Hi as [|? ? ? ? Hr0 Hq]; subst. pose proof (position_bound _ _ Hq) as B. fold W in B.
    destruct (K r (position rest q) Hr0 B) as [Ka Kb]. unfold elt. rewrite Sx, Su. cbn [t_shape t_data position]. fold W. split.
    + intros i H1 H2. specialize (Ka i H1 H2). rewrite nth_error_map in Ka. rewrite Z.add_0_l in Ka.
      destruct (nth_error out _), (nth_error (t_data updates) _); cbn in Ka; congruence.
    + intros Hn. specialize (Kb Hn). rewrite nth_error_map in Kb.
      specialize (K0 (r * W + position rest q) ltac:(nia)). rewrite !Z.add_0_l in K0. rewrite K0 in Kb.
      destruct (nth_error out _), (nth_error (t_data x) _); cbn in Kb; congruence.
Qed.
