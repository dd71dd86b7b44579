From Coq Require Import List ZArith Bool Lia.
From Verif Require Import ShapeModel ShapeSpec ShapeProofs BinsModel BinsSpec BinsProofs
  KernelBase KernelSpec KernelProofs ConcatModel ConcatSpec ConcatProofs.
Import ListNotations.
Local Open Scope Z_scope.

(** the stores that fill one piece *)
Definition piece_stores {A} (x : list A) (P W oa off s : Z) : list (event A) :=
  flat_map (fun j => memcpy (j * s * W) x ((j * oa + off) * W) (s * W)) (upto P).

Section Piece.
  Context {A : Type} (pre post : list Z) (d : Z) (x : tensor A).
  Hypothesis wfx : wf x.
  Hypothesis Hshape : t_shape x = pre ++ d :: post.

  Let axis := length pre.
  Let P := elements pre.
  Let W := elements post.

  Lemma pn : Forall (fun d => 0 <= d) pre /\ Forall (fun d => 0 <= d) post /\ 0 <= d.
  Proof.
    destruct wfx as [N _]. rewrite Hshape in N. apply Forall_app in N as [N1 N2].
    split; [exact N1|]. inversion N2; auto.
  Qed.

  Lemma piece_exec off s : 0 <= off -> 0 <= s -> off + s <= d ->
    exists data, exec (fresh (elements (pre ++ s :: post))) (piece_stores (t_data x) P W d off s) = SOk (map Some data) /\
      wf (Tn (t_dtype x) (pre ++ s :: post) data) /\
      forall c, inside (pre ++ s :: post) c ->
        elt (Tn (t_dtype x) (pre ++ s :: post) data) c = elt x (at_axis axis (fun k => off + k) c).
  Proof.
    intros Hoff Hs Hd. destruct pn as (N1 & N2 & Hd0).
    pose proof (elements_nonneg _ N1) as HP. pose proof (elements_nonneg _ N2) as HW. fold P in HP. fold W in HW.
    assert (Eel : elements (pre ++ s :: post) = P * (s * W)).
    { rewrite elements_app. cbn [elements]. reflexivity. }
    assert (HsW : 0 <= s * W) by nia.
    assert (HPs : 0 <= P * (s * W)) by (apply Z.mul_nonneg_nonneg; lia).
    assert (Ldata : Z.of_nat (length (t_data x)) = P * (d * W)).
    { destruct wfx as [_ E]. rewrite E, Hshape, elements_app. cbn [elements]. reflexivity. }
    pose proof (fun dd v => In_blocks (t_data x) (fun j => j * s * W) (fun j => (j * d + off) * W) P (s * W) dd v HsW) as HIn.
    fold (piece_stores (t_data x) P W d off s) in HIn.
    rewrite Eel.
    destruct (exec_once (P * (s * W)) (piece_stores (t_data x) P W d off s)) as (_ & data & E & L & H).
    - pose proof (length_blocks (t_data x) (fun j => j * s * W) (fun j => (j * d + off) * W) P (s * W) HsW HP) as Hl.
      unfold piece_stores. lia.
    - intros dd v Hin. apply HIn in Hin. destruct Hin as (j & k & Hj & Hk & -> & ->). split.
      + assert ((j + 1) * (s * W) <= P * (s * W)) by nia. nia.
      + destruct (load_ok (t_data x) ((j * d + off) * W + k)) as (a & Ha & _); [|eauto].
        rewrite Ldata. assert (0 <= j * d) by nia. split; [nia|].
        assert ((j * d + off) * W + k < (j * d + d) * W) by nia.
        assert ((j + 1) * (d * W) <= P * (d * W)) by (apply Z.mul_le_mono_nonneg_r; nia). nia.
    - intros dd Hdd. assert (0 < s * W) by nia.
      apply in_map_iff. exists (dd, load (t_data x) ((dd / (s * W) * d + off) * W + dd mod (s * W))).
      split; [reflexivity|]. apply HIn. exists (dd / (s * W)), (dd mod (s * W)).
      pose proof (Z.div_mod dd (s * W) ltac:(lia)). pose proof (Z.mod_pos_bound dd (s * W) ltac:(lia)).
      split; [split; [apply Z.div_pos; lia|apply Z.div_lt_upper_bound; lia]|].
      split; [lia|]. split; [lia|reflexivity].
    - exists data. split; [exact E|]. split.
      + split; cbn [t_shape t_data].
        * apply Forall_app. split; [exact N1|]. constructor; assumption.
        * rewrite L, Eel. lia.
      + intros c Hc. apply inside_app_inv in Hc. destruct Hc as (cx & cy & -> & Hcx & Hcy).
        inversion Hcy as [|d1 k ds1 cy1 Hk Hcy1 E3 E4]; subst cy d1 ds1.
        pose proof (inside_length _ _ Hcx) as Lx.
        rewrite at_axis_app by (unfold axis; auto).
        assert (Hin : inside (t_shape x) (cx ++ (off + k) :: cy1)).
        { rewrite Hshape. apply inside_app; [exact Hcx|]. constructor; [lia|exact Hcy1]. }
        destruct (elt_some x _ wfx Hin) as [a Ha]. rewrite Ha.
        unfold elt in Ha |- *. cbn [t_shape t_data]. rewrite Hshape in Ha.
        rewrite position_mid in Ha by exact Lx. rewrite position_mid by exact Lx.
        pose proof (position_bound _ _ Hcx) as B1. pose proof (position_bound _ _ Hcy1) as B2.
        fold P in B1. fold W in B2, Ha |- *.
        apply H. apply HIn. exists (position pre cx), (k * W + position post cy1).
        split; [exact B1|]. split; [nia|]. split; [ring|].
        symmetry. apply load_inv. assert (0 <= position pre cx * d) by nia. split; [nia|].
        rewrite <- Ha. f_equal. f_equal. ring.
  Qed.

  (** all pieces, for sizes that fit *)
  Definition is_piece (off s : Z) (out : tensor A) : Prop :=
    wf out /\ t_dtype out = t_dtype x /\ t_shape out = pre ++ s :: post /\
    forall c, inside (pre ++ s :: post) c -> elt out c = elt x (at_axis axis (fun k => off + k) c).

  Fixpoint are_pieces (off : Z) (sizes : list Z) (outs : list (tensor A)) : Prop :=
    match sizes, outs with
    | [], [] => True
    | s :: sizes', o :: outs' => is_piece off s o /\ are_pieces (off + s) sizes' outs'
    | _, _ => False
    end.

  Lemma chunk_outputs_ok sizes : forall off, 0 <= off -> Forall (fun s => 0 <= s) sizes -> off + total sizes <= d ->
    exists outs, chunk_outputs (t_dtype x) (t_data x) axis P W d off (map (fun s => pre ++ s :: post) sizes)
      = SOk (map filled outs) /\ are_pieces off sizes outs.
  Proof.
    induction sizes as [|s sizes IH]; intros off Hoff Hs Ht.
    - exists []. split; reflexivity.
    - inversion Hs as [|? ? Hs1 Hs2]; subst. cbn [total] in Ht. pose proof (total_nonneg _ Hs2).
      destruct (piece_exec off s) as (data & E & W1 & H1); try lia.
      destruct (IH (off + s)) as (outs & E2 & H2); try lia; [exact Hs2|].
      cbn [map chunk_outputs].
      replace (nth axis (pre ++ s :: post) 0) with s by (symmetry; apply nth_mid). rewrite prod_elements.
      unfold piece_stores in E. rewrite E, E2.
      exists (Tn (t_dtype x) (pre ++ s :: post) data :: outs). split; [reflexivity|].
      cbn [are_pieces]. split; [|exact H2]. split; [exact W1|]. split; [reflexivity|]. split; [reflexivity|].
      exact H1.
  Qed.

  Lemma are_pieces_nth sizes : forall off outs i o, are_pieces off sizes outs -> nth_error outs i = Some o ->
    exists s, nth_error sizes i = Some s /\ is_piece (off + offset axis outs i) s o.
  Proof.
    induction sizes as [|s sizes IH]; intros off [|o outs] i o' H Hi; try (destruct i; discriminate); try destruct H.
    destruct i as [|i].
    - cbn in Hi. injection Hi as <-. exists s. rewrite offset_0, Z.add_0_r. split; [reflexivity|assumption].
    - rewrite offset_cons. cbn in Hi. destruct (IH _ _ _ _ H0 Hi) as (s' & Hs' & Hp).
      exists s'. split; [exact Hs'|]. unfold size_at. destruct H as (_ & _ & E & _). rewrite E. unfold axis at 1.
      rewrite nth_mid. replace (off + (s + offset axis outs i)) with (off + s + offset axis outs i) by lia. exact Hp.
  Qed.

  Lemma are_pieces_sizes sizes : forall off outs, are_pieces off sizes outs -> map (size_at axis) outs = sizes.
  Proof.
    induction sizes as [|s sizes IH]; intros off [|o outs] H; try reflexivity; try destruct H.
    cbn [map]. rewrite (IH _ _ H0). f_equal. destruct H as (_ & _ & E & _). unfold size_at. rewrite E. apply nth_mid.
  Qed.

  Lemma are_pieces_In sizes : forall off outs o, are_pieces off sizes outs -> In o outs ->
    wf o /\ t_dtype o = t_dtype x /\ exists s, In s sizes /\ t_shape o = pre ++ s :: post.
  Proof.
    induction sizes as [|s sizes IH]; intros off [|o' outs] o H Hin; try destruct H; [destruct Hin|].
    destruct Hin as [<-|Hin].
    - destruct H as (H1 & H2 & H3 & _). split; [exact H1|]. split; [exact H2|]. exists s. split; [now left|exact H3].
    - destruct (IH _ _ _ H0 Hin) as (H1 & H2 & s' & H3 & H4). split; [exact H1|]. split; [exact H2|].
      exists s'. split; [now right|exact H4].
  Qed.

  (** all the pieces together are the tensor *)
  Lemma are_pieces_joined sizes outs : sizes <> [] -> total sizes = d -> are_pieces 0 sizes outs ->
    Forall wf outs /\ joinable axis outs /\ joined axis outs x.
  Proof.
    intros NE Ht H.
    assert (Hin : forall o, In o outs -> wf o /\ t_dtype o = t_dtype x /\ exists s, In s sizes /\ t_shape o = pre ++ s :: post).
    { intros o Ho. eapply are_pieces_In; eauto. }
    split; [apply Forall_forall; intros o Ho; now apply Hin|].
    split; [split|split; [|split]].
    - destruct sizes, outs; try destruct H; try discriminate. contradiction.
    - intros a b Ha Hb. destruct (Hin a Ha) as (_ & D1 & s1 & _ & E1). destruct (Hin b Hb) as (_ & D2 & s2 & _ & E2).
      split; [congruence|]. rewrite E1, E2. split; [apply mid_same_but|]. rewrite app_length. cbn [length]. unfold axis. lia.
    - intros a Ha. destruct (Hin a Ha) as (_ & D1 & s1 & _ & E1). split; [congruence|].
      rewrite Hshape, E1. apply mid_same_but.
    - rewrite (are_pieces_sizes _ _ _ H), Ht. unfold size_at. rewrite Hshape. apply nth_mid.
    - intros i o c Hi Hc. destruct (are_pieces_nth _ _ _ _ _ H Hi) as (s & _ & (_ & _ & E & He)).
      rewrite E in Hc. rewrite (He c Hc). reflexivity.
  Qed.
End Piece.

(** * split_bins, as sizes *)
Definition bin_sizes (l : list (Z * Z)) : list Z := map (fun p => snd p - fst p) l.

Lemma bins_total l a b : a <= b -> Forall (fun p => fst p < snd p) l -> indices l = range a b -> total (bin_sizes l) = b - a.
Proof.
  intros Hab Hl H. assert (L : Z.of_nat (length (indices l)) = total (bin_sizes l)).
  { clear H. induction Hl as [|p l Hp Hl IH]; [reflexivity|].
    rewrite indices_cons, app_length, Nat2Z.inj_add, IH. cbn [bin_sizes map total].
    unfold range. rewrite map_length, seq_length. fold (bin_sizes l). lia. }
  rewrite <- L, H. unfold range. rewrite map_length, seq_length. lia.
Qed.

Lemma total_repeat l size : Forall (fun s => s = size) l -> total l = Z.of_nat (length l) * size.
Proof. induction 1; cbn [total length]; [lia|]. subst. lia. Qed.

Lemma ceil_div_unique d s n : 0 < s -> (n - 1) * s < d <= n * s -> ceil_div d s = n.
Proof. intros Hs H. unfold ceil_div. symmetry. apply Z.div_unique with (r := d + s - 1 - n * s); lia. Qed.

Lemma bins_count d chunks : 0 < d -> 1 <= chunks -> d - 1 + ceil_div d chunks <= int_max ->
  exists l, split_bins 0 d chunks = BOk l /\ Forall (fun s => 0 < s) (bin_sizes l) /\ total (bin_sizes l) = d /\
    Z.of_nat (length l) = ceil_div d (ceil_div d chunks) /\ Z.of_nat (length l) <= chunks /\
    Forall (fun s => s = ceil_div d chunks) (removelast (bin_sizes l)).
Proof.
  intros Hd Hc Hm.
  destruct (Z.eq_dec chunks 1) as [->|Hc1].
  { exists [(0, d)]. unfold split_bins. destruct (Z.leb_spec d 0); [lia|]. cbn. rewrite Z.sub_0_r.
    unfold ceil_div. rewrite Z.div_1_r. replace (d + 1 - 1) with d by lia.
    replace ((d + d - 1) / d) with 1 by (apply Z.div_unique with (r := d - 1); lia).
    split; [reflexivity|]. split; [repeat constructor; lia|]. split; [lia|]. split; [reflexivity|].
    split; [lia|constructor]. }
  destruct (split_bins_spec' 0 d chunks) as (l & E & Hi & Hp & Hle & H12); try lia.
  { rewrite Z.sub_0_r. exact Hm. }
  destruct H12 as [H1 H2]; [lia|].
  assert (Ez : d - 0 = d) by lia. rewrite Ez in H1, H2. clear Ez.
  exists l. split; [exact E|].
  assert (B : Forall (fun s => 0 < s) (bin_sizes l)).
  { unfold bin_sizes. apply Forall_map. eapply Forall_impl; [|exact Hp]. cbn. intros; lia. }
  assert (T : total (bin_sizes l) = d).
  { rewrite (bins_total l 0 d); auto; lia. }
  split; [exact B|]. split; [exact T|].
  assert (R : Forall (fun s => s = ceil_div d chunks) (removelast (bin_sizes l))).
  { unfold bin_sizes. clear - H2. induction l as [|p l IH]; [constructor|].
    destruct l as [|q l]; [constructor|]. cbn [map removelast] in *. inversion H2; subst.
    constructor; [assumption|]. apply IH. assumption. }
  split; [|split; [exact Hle|exact R]].
  symmetry. 
  assert (Hstep : 0 < ceil_div d chunks).
  { unfold ceil_div. apply Z.div_str_pos. lia. }
  apply ceil_div_unique; [exact Hstep|].
  assert (Lb : length (bin_sizes l) = length l) by (unfold bin_sizes; apply map_length).
  assert (NE : bin_sizes l <> []) by (intros F; rewrite F in T; cbn in T; lia).
  rewrite (app_removelast_last 0 NE) in T, Lb, B. rewrite total_app, (total_repeat _ _ R) in T.
  rewrite app_length in Lb. cbn [length total] in T, Lb.
  assert (Hlast : 0 < last (bin_sizes l) 0 <= ceil_div d chunks).
  { apply Forall_app in B as [_ B]. split; [now inversion B|].
    assert (Hin : In (last (bin_sizes l) 0) (bin_sizes l)).
    { rewrite (app_removelast_last 0 NE) at 2. apply in_or_app. right. now left. }
    unfold bin_sizes in Hin at 2. apply in_map_iff in Hin. destruct Hin as (p & Ep & Hin). rewrite <- Ep.
    exact (proj1 (Forall_forall _ _) H1 _ Hin). }
  nia.
Qed.

Lemma chunk_shapes_ok pre d post l : 
  chunk_shapes (pre ++ d :: post) (length pre) (length l) l = SOk (map (fun s => pre ++ s :: post) (bin_sizes l)).
Proof.
  induction l as [|[b e] l IH]; [reflexivity|]. cbn [length chunk_shapes]. rewrite IH, set_nth_mid. reflexivity.
Qed.

Lemma chunk_shapes_undef s axis l : forall n, (length l < n)%nat -> chunk_shapes s axis n l = SUndef.
Proof.
  induction l as [|[b e] l IH]; intros [|n] H; try (cbn in H; lia); [reflexivity|].
  cbn [chunk_shapes]. rewrite IH by (cbn in H; lia). reflexivity.
Qed.

Theorem chunk_spec {A} chunks dim (x : tensor A) : wf x -> Forall (fun s => s <= 1073741824) (t_shape x) ->
  match chunk_run chunks dim x with
  | SOk rs => exists axis outs, axis_of dim (length (t_shape x)) axis /\ rs = map filled outs /\
      Z.of_nat (length outs) = chunks /\ Forall wf outs /\ joinable axis outs /\ joined axis outs x /\
      Forall (fun o => 0 < size_at axis o) outs /\
      Forall (fun o => size_at axis o = ceil_div (size_at axis x) chunks) (removelast outs)
  | SErr => chunks <= 0 \/ forall axis, axis_of dim (length (t_shape x)) axis -> size_at axis x < chunks
  | SUndef => exists axis, axis_of dim (length (t_shape x)) axis /\ 0 < chunks <= size_at axis x /\
      ceil_div (size_at axis x) (ceil_div (size_at axis x) chunks) < chunks
  end.
Proof.
  intros Hwf Hsmall. unfold chunk_run, chunk_infer.
  destruct (Z.leb_spec chunks 0) as [Hc|Hc]; [now left|].
  pose proof (fix_dim_axis dim (length (t_shape x))) as FD. unfold dims_of.
  destruct ((fix_dim dim (Z.of_nat (length (t_shape x))) <? 0) || _).
  { right. intros axis Ha. destruct (FD axis Ha). }
  destruct FD as (axis & -> & Hax). rewrite Nat2Z.id.
  destruct (Z.ltb_spec (nth axis (t_shape x) 0) chunks) as [Hlt|Hge].
  { right. intros axis' Ha. rewrite (axis_of_inj _ _ _ _ Ha Hax). exact Hlt. }
  destruct (nth_error (t_shape x) axis) as [d|] eqn:Ed.
  2:{ apply nth_error_None in Ed. destruct Hax. lia. }
  assert (End : nth axis (t_shape x) 0 = d) by (apply nth_error_nth; exact Ed).
  assert (Hd : d <= 1073741824) by (eapply (proj1 (Forall_forall _ _) Hsmall), nth_error_In; eauto).
  rewrite End in *. pose proof (axis_split _ _ _ Ed) as Es.
  remember (firstn axis (t_shape x)) as pre eqn:Epre. remember (skipn (S axis) (t_shape x)) as post eqn:Epost.
  assert (Lp : length pre = axis). { rewrite Epre. apply firstn_length_le. destruct Hax. lia. }
  destruct (bins_count d chunks) as (l & E & B & T & N & Le & R); try lia.
  { rewrite <- (Z.sub_0_r d) at 2. rewrite <- bin_step_ceil by lia. apply small_enough; lia. }
  rewrite E.
  destruct (Z.eq_dec (Z.of_nat (length l)) chunks) as [Hl|Hl].
  - replace (Z.to_nat chunks) with (length l) by lia. rewrite Es, <- Lp, chunk_shapes_ok.
    destruct (bin_sizes l) as [|s0 ss] eqn:Eb.
    { cbn in T. lia. }
    cbn [map]. rewrite Nat2Z.id, firstn_mid, skipn_mid, nth_mid, !prod_elements.
    change ((pre ++ s0 :: post) :: map (fun s => pre ++ s :: post) ss) with (map (fun s => pre ++ s :: post) (s0 :: ss)).
    rewrite <- Eb in *.
    destruct (chunk_outputs_ok pre post d x Hwf Es (bin_sizes l) 0) as (outs & E2 & H2); try lia.
    { eapply Forall_impl; [|exact B]. cbn. intros; lia. }
    rewrite E2. rewrite <- Es. exists axis, outs.
    destruct (are_pieces_joined pre post d x Es (bin_sizes l) outs) as (W1 & J1 & J2); auto.
    { intros F. rewrite F in T. cbn in T. lia. }
    rewrite Lp in J1, J2.
    pose proof (are_pieces_sizes pre post x (bin_sizes l) 0 outs H2) as Esz. rewrite Lp in Esz.
    split; [exact Hax|]. split; [reflexivity|]. split.
    { rewrite <- Hl, <- (map_length (size_at axis)), Esz. unfold bin_sizes. now rewrite map_length. }
    split; [exact W1|]. split; [exact J1|]. split; [exact J2|]. rewrite <- Esz in B, R. split.
    + apply (proj1 (Forall_map _ _ _) B).
    + unfold size_at at 2. rewrite End. clear - R. induction outs as [|o outs IH]; [constructor|].
      destruct outs as [|o' outs]; [constructor|]. cbn [map removelast] in *. inversion R; subst.
      constructor; [assumption|]. apply IH. assumption.
  - rewrite chunk_shapes_undef by lia. exists axis. unfold size_at. rewrite End. split; [exact Hax|]. lia.
Qed.

(** * split *)
Definition proj {A} (b : nat) (tr : list (nat * event A)) : list (event A) :=
  map snd (filter (fun e => Nat.eqb (fst e) b) tr).

Lemma proj_app {A} b (t t' : list (nat * event A)) : proj b (t ++ t') = proj b t ++ proj b t'.
Proof. unfold proj. rewrite filter_app. apply map_app. Qed.

Lemma proj_same {A} b (t : list (event A)) : proj b (map (fun ev => (b, ev)) t) = t.
Proof. induction t; [reflexivity|]. unfold proj in *. cbn. rewrite Nat.eqb_refl. cbn. now rewrite IHt. Qed.

Lemma proj_other {A} b i (t : list (event A)) : i <> b -> proj b (map (fun ev => (i, ev)) t) = [].
Proof. intros H. induction t; [reflexivity|]. unfold proj in *. cbn. destruct (Nat.eqb_spec i b); [contradiction|]. exact IHt. Qed.

Lemma set_nth_nth {A} b (m : A) l : nth_error l b = Some m -> set_nth b m l = l.
Proof. revert b. induction l; intros [|b] H; try discriminate; cbn in *; [congruence|]. f_equal. auto. Qed.

Lemma exec_many_ok {A} tr : forall (ms ms' : list (list (option A))),
  length ms = length ms' -> (forall b ev, In (b, ev) tr -> (b < length ms)%nat) ->
  (forall b m m', nth_error ms b = Some m -> nth_error ms' b = Some m' -> exec m (proj b tr) = SOk m') ->
  exec_many ms tr = SOk ms'.
Proof.
  induction tr as [|[b [i v]] tr IH]; intros ms ms' L Hb H.
  - cbn. f_equal. apply nth_error_ext. intros k. destruct (nth_error ms k) eqn:E1, (nth_error ms' k) eqn:E2; auto.
    + specialize (H _ _ _ E1 E2). cbn in H. congruence.
    + apply nth_error_None in E2. assert (nth_error ms k <> None) by congruence. apply nth_error_Some in H0. lia.
    + apply nth_error_None in E1. assert (nth_error ms' k <> None) by congruence. apply nth_error_Some in H0. lia.
  - assert (Hlt : (b < length ms)%nat) by (eapply Hb; now left).
    cbn [exec_many]. destruct (nth_error ms b) as [m|] eqn:Em.
    2:{ apply nth_error_None in Em. lia. }
    destruct (nth_error ms' b) as [m'|] eqn:Em'.
    2:{ apply nth_error_None in Em'. lia. }
    pose proof (H _ _ _ Em Em') as Hm. unfold proj in Hm. cbn [filter fst] in Hm. rewrite Nat.eqb_refl in Hm.
    cbn [map snd exec] in Hm. destruct v as [a| |]; try discriminate.
    destruct (store m i a) as [m1| |] eqn:Es; try discriminate.
    apply IH.
    + now rewrite set_nth_length.
    + intros b' ev Hin. rewrite set_nth_length. eapply Hb. right. exact Hin.
    + intros b' m2 m2' E1 E2. destruct (Nat.eq_dec b b') as [<-|Hne].
      * rewrite set_nth_same in E1 by exact Hlt. injection E1 as <-. assert (m2' = m') by congruence. subst. exact Hm.
      * rewrite set_nth_other in E1 by exact Hne. specialize (H _ _ _ E1 E2). unfold proj in H. cbn [filter fst] in H.
        destruct (Nat.eqb_spec b b'); [contradiction|]. exact H.
Qed.

Lemma split_row_ok {A} (x : list A) W split : forall i tos from, length tos = length split ->
  let '(tr, tos', from') := split_row x W i split tos from in
  from' = from + total split * W /\ length tos' = length split /\
  (forall b ev, In (b, ev) tr -> (i <= b < i + length split)%nat) /\
  (forall k s t, nth_error split k = Some s -> nth_error tos k = Some t ->
     nth_error tos' k = Some (t + s * W) /\
     proj (i + k) tr = memcpy t x (from + total (firstn k split) * W) (s * W)) /\
  forall b, (b < i)%nat -> proj b tr = [].
Proof.
  induction split as [|s split IH]; intros i [|t tos] from L; try discriminate; cbn [split_row].
  - split; [cbn; lia|]. split; [reflexivity|]. split; [intros ? ? []|]. split; [intros [|k]; discriminate|reflexivity].
  - specialize (IH (S i) tos (from + s * W) ltac:(injection L; auto)).
    destruct (split_row x W (S i) split tos (from + s * W)) as [[tr tos'] from'].
    destruct IH as (E1 & E2 & E3 & E4 & E5).
    split; [cbn [total]; lia|]. split; [cbn; lia|]. split; [|split].
    + intros b ev Hin. apply in_app_or in Hin. destruct Hin as [Hin|Hin].
      * apply in_map_iff in Hin. destruct Hin as (? & [= <- _] & _). cbn. lia.
      * apply E3 in Hin. cbn. lia.
    + intros [|k] s' t' H1 H2; cbn in H1, H2.
      * injection H1 as <-. injection H2 as <-. split; [reflexivity|].
        rewrite Nat.add_0_r, proj_app, proj_same, E5 by lia. rewrite app_nil_r. cbn [firstn total]. f_equal. lia.
      * destruct (E4 _ _ _ H1 H2) as [H3 H4]. split; [exact H3|].
        rewrite proj_app, proj_other by lia. replace (i + S k)%nat with (S i + k)%nat by lia. cbn [app].
        rewrite H4. cbn [firstn total]. f_equal. lia.
    + intros b Hb. rewrite proj_app, proj_other by lia. apply E5. lia.
Qed.

Lemma split_rows_ok {A} (x : list A) W split n : forall tos from, length tos = length split ->
  (forall b ev, In (b, ev) (split_rows x W n split tos from) -> (b < length split)%nat) /\
  forall k s t, nth_error split k = Some s -> nth_error tos k = Some t ->
    proj k (split_rows x W n split tos from) =
    flat_map (fun j => memcpy (t + Z.of_nat j * (s * W)) x
                         (from + (Z.of_nat j * total split + total (firstn k split)) * W) (s * W)) (seq 0 n).
Proof.
  induction n as [|n IH]; intros tos from L; cbn [split_rows].
  - split; [intros ? ? []|reflexivity].
  - pose proof (split_row_ok x W split 0 tos from L) as R.
    destruct (split_row x W 0 split tos from) as [[tr tos'] from'].
    destruct R as (E1 & E2 & E3 & E4 & _). destruct (IH tos' from' E2) as [I1 I2]. split.
    + intros b ev Hin. apply in_app_or in Hin. destruct Hin as [Hin|Hin]; [apply E3 in Hin; lia|eauto].
    + intros k s t H1 H2. destruct (E4 _ _ _ H1 H2) as [H3 H4]. cbn [Nat.add] in H4.
      rewrite proj_app, H4, (I2 _ _ _ H1 H3). cbn [seq flat_map]. f_equal.
      * f_equal; lia.
      * rewrite <- seq_shift. rewrite flat_map_concat_map, flat_map_concat_map, map_map. f_equal.
        apply map_ext. intros j. rewrite E1. f_equal; lia.
Qed.

Lemma total_firstn_pieces axis {A} (outs : list (tensor A)) k : offset axis outs k = total (firstn k (map (size_at axis) outs)).
Proof. unfold offset. now rewrite firstn_map. Qed.

Theorem split_spec {A} dim (x : tensor A) split : wf x ->
  Forall (fun s => 0 <= s) split -> split <> [] ->
  match split_run dim x split with
  | SErr => forall axis, ~ axis_of dim (length (t_shape x)) axis
  | SOk rs => forall axis, axis_of dim (length (t_shape x)) axis -> total split = size_at axis x ->
      exists outs, rs = map filled outs /\ Forall wf outs /\ map (size_at axis) outs = split /\
        joinable axis outs /\ joined axis outs x
  | SUndef => exists axis, axis_of dim (length (t_shape x)) axis /\ total split <> size_at axis x
  end.
Proof.
  intros Hwf Hs NE. unfold split_run. unfold dims_of.
  replace (if dim <? 0 then dim + Z.of_nat (length (t_shape x)) else dim) with (fix_dim dim (Z.of_nat (length (t_shape x))))
    by (unfold fix_dim; destruct (Z.leb_spec 0 dim), (Z.ltb_spec dim 0); lia).
  pose proof (fix_dim_axis dim (length (t_shape x))) as FD.
  destruct ((fix_dim dim (Z.of_nat (length (t_shape x))) <? 0) || _); [exact FD|].
  destruct FD as (axis & -> & Hax). rewrite Nat2Z.id.
  destruct (nth_error (t_shape x) axis) as [d|] eqn:Ed.
  2:{ apply nth_error_None in Ed. destruct Hax. lia. }
  assert (End : size_at axis x = d) by (apply nth_error_nth; exact Ed).
  pose proof (axis_split _ _ _ Ed) as Es.
  remember (firstn axis (t_shape x)) as pre eqn:Epre. remember (skipn (S axis) (t_shape x)) as post eqn:Epost.
  assert (Lp : length pre = axis). { rewrite Epre. apply firstn_length_le. destruct Hax. lia. }
  rewrite !prod_elements.
  assert (Esh : map (fun size => set_nth axis size (t_shape x)) split = map (fun s => pre ++ s :: post) split).
  { apply map_ext. intros s. rewrite Es, <- Lp. apply set_nth_mid. }
  rewrite Esh.
  destruct (Z.eq_dec (total split) d) as [Ht|Ht].
  2:{ match goal with |- match match ?e with _ => _ end with _ => _ end => destruct e eqn:Ee end.
      - intros axis' Ha. rewrite (axis_of_inj _ _ _ _ Ha Hax). congruence.
      - exfalso. clear - Ee. revert Ee.
        generalize (map (fun s => fresh (A:=A) (prod s)) (map (fun s => pre ++ s :: post) split)).
        generalize (split_rows (t_data x) (elements post) (Z.to_nat (elements pre)) split (map (fun _ => 0) split) 0).
        intros tr. induction tr as [|[b [i v]] tr IH]; intros ms; cbn [exec_many]; [discriminate|].
        destruct (nth_error ms b); [|discriminate]. destruct v; try discriminate.
        unfold store. destruct (_ || _); [discriminate|]. apply IH.
      - exists axis. split; [exact Hax|]. congruence. }
  pose proof (split_rows_ok (t_data x) (elements post) split (Z.to_nat (elements pre)) (map (fun _ => 0) split) 0
    ltac:(apply map_length)) as [R1 R2].
  set (tr := split_rows _ _ _ _ _ _) in *.
  (* the pieces, one by one *)
  destruct (chunk_outputs_ok pre post d x Hwf Es split 0) as (outs & _ & H2); try lia; [exact Hs|].
  assert (Hpt : forall k s o, nth_error split k = Some s -> nth_error outs k = Some o ->
     exec (fresh (prod (pre ++ s :: post))) (proj k tr) = SOk (map Some (t_data o))).
  { intros k s o H3 H4. rewrite (R2 k s 0 H3) by (rewrite nth_error_map, H3; reflexivity).
    destruct (are_pieces_nth pre post x _ _ _ _ _ H2 H4) as (s' & E1 & P1).
    assert (s' = s) by congruence. subst s'.
    rewrite total_firstn_pieces, (are_pieces_sizes _ _ _ _ _ _ H2) in P1. rewrite Z.add_0_l in P1.
    destruct (piece_exec pre post d x Hwf Es (total (firstn k split)) s) as (data & E2 & W2 & H5).
    - apply total_nonneg. clear - Hs. revert k. induction Hs; intros [|k]; constructor; auto. 
    - eapply (proj1 (Forall_forall _ _) Hs), nth_error_In; eauto.
    - rewrite <- Ht. pose proof (firstn_skipn k split) as F. apply (f_equal total) in F. rewrite total_app in F.
      assert (s + total (skipn (S k) split) = total (skipn k split)).
      { clear - H3. revert k H3. induction split; intros [|k] H; try discriminate.
        - cbn in H. injection H as ->. reflexivity.
        - cbn [skipn]. rewrite <- IHsplit by exact H. reflexivity. }
      assert (0 <= total (skipn (S k) split)).
      { apply total_nonneg. clear - Hs. revert Hs. generalize (S k). intros n Hs. revert n.
        induction Hs; intros [|n]; cbn [skipn]; [constructor..|constructor; auto|auto]. }
      lia.
    - rewrite prod_elements.
      assert (Edata : data = t_data o).
      { destruct P1 as (Wo & Do & So & Eo).
        assert (Tn (t_dtype x) (pre ++ s :: post) data = o).
        { apply tensor_ext; auto; cbn [t_shape]; auto. intros c Hc. rewrite (H5 c Hc), <- (Eo c Hc). reflexivity. }
        subst o. reflexivity. }
      rewrite <- Edata, <- E2. f_equal. unfold piece_stores.
      rewrite !flat_map_concat_map. f_equal. unfold upto. rewrite map_map. apply map_ext. intros j.
      rewrite Ht. f_equal; ring. }
  assert (Lo : length outs = length split).
  { rewrite <- (are_pieces_sizes _ _ _ _ _ _ H2). now rewrite map_length. }
  rewrite (exec_many_ok tr _ (map (fun o => map Some (t_data o)) outs)).
  - intros axis' Ha _. assert (axis' = axis) as -> by (eapply axis_of_inj; eauto).
    exists outs. destruct (are_pieces_joined pre post d x Es split outs) as (W1 & J1 & J2); auto.
    rewrite Lp in J1, J2. split; [|split; [exact W1|split; [|split; [exact J1|exact J2]]]].
    + apply nth_error_ext. intros i. rewrite !nth_error_map.
      destruct (nth_error outs i) as [o|] eqn:Eo.
      * destruct (are_pieces_nth pre post x _ _ _ _ _ H2 Eo) as (s & E1 & (Wo & Do & So & _)).
        assert (Ec : nth_error (combine (map (fun s => pre ++ s :: post) split) (map (fun o => map Some (t_data o)) outs)) i
          = Some (pre ++ s :: post, map Some (t_data o))).
        { clear - E1 Eo. revert outs i E1 Eo. induction split as [|s0 split IH]; intros [|o0 outs] [|i] E1 Eo; try discriminate.
          - cbn in *. injection E1 as ->. injection Eo as ->. reflexivity.
          - cbn in *. now apply IH. }
        rewrite Ec. cbn. unfold filled. rewrite Do, So. reflexivity.
      * apply nth_error_None in Eo.
        assert (Ec : nth_error (combine (map (fun s => pre ++ s :: post) split) (map (fun o => map Some (t_data o)) outs)) i = None).
        { apply nth_error_None. rewrite combine_length, !map_length. lia. }
        rewrite Ec. reflexivity.
    + rewrite <- Lp. apply (are_pieces_sizes _ _ _ _ _ _ H2).
  - rewrite !map_length. lia.
  - intros b ev Hin. rewrite !map_length. eauto.
  - intros b m m' E1 E2. rewrite !nth_error_map in E1. rewrite nth_error_map in E2.
    destruct (nth_error split b) as [s|] eqn:Esb; [|discriminate]. cbn in E1. injection E1 as <-.
    destruct (nth_error outs b) as [o|] eqn:Eob; [|discriminate]. cbn in E2. injection E2 as <-.
    apply Hpt; auto.
Qed.

(** chunk, then concat *)
Theorem chunk_concat {A} chunks dim (x : tensor A) rs : wf x -> Forall (fun s => s <= 1073741824) (t_shape x) ->
  chunk_run chunks dim x = SOk rs ->
  exists outs, rs = map filled outs /\ concat_run dim outs = SOk (filled x).
Proof.
  intros Hwf Hsm E. pose proof (chunk_spec chunks dim x Hwf Hsm) as C. rewrite E in C.
  destruct C as (axis & outs & Hax & -> & _ & W1 & J1 & J2 & _). exists outs. split; [reflexivity|].
  pose proof (concat_spec dim outs W1) as S. 
  destruct outs as [|o outs'] eqn:Eo; [destruct J1; contradiction|]. rewrite <- Eo in *.
  assert (Ho : In o outs) by (rewrite Eo; now left).
  assert (Lo : length (t_shape x) = length (t_shape o)).
  { destruct J2 as (J2 & _). destruct (J2 o Ho) as [_ [L _]]. exact L. }
  destruct (concat_run dim outs) as [r| |].
  - destruct S as (axis' & out & Hax' & J1' & -> & Wo & J2').
    assert (axis' = axis).
    { eapply axis_of_inj; [exact Hax'|]. destruct J2' as (J2' & _). destruct (J2' o Ho) as [_ [L _]]. rewrite L, <- Lo. exact Hax. }
    subst axis'. f_equal. f_equal. eapply joined_unique; eauto.
  - exfalso. eapply S; eauto. rewrite <- Lo. exact Hax.
  - destruct S.
Qed.

Theorem split_concat {A} dim axis (x : tensor A) split rs : wf x -> Forall (fun s => 0 <= s) split -> split <> [] ->
  axis_of dim (length (t_shape x)) axis -> total split = size_at axis x ->
  split_run dim x split = SOk rs ->
  exists outs, rs = map filled outs /\ concat_run dim outs = SOk (filled x).
Proof.
  intros Hwf Hs NE Hax Ht E. pose proof (split_spec dim x split Hwf Hs NE) as C. rewrite E in C.
  destruct (C axis Hax Ht) as (outs & -> & W1 & _ & J1 & J2). exists outs. split; [reflexivity|].
  pose proof (concat_spec dim outs W1) as S. 
  destruct outs as [|o outs'] eqn:Eo; [destruct J1; contradiction|]. rewrite <- Eo in *.
  assert (Ho : In o outs) by (rewrite Eo; now left).
  assert (Lo : length (t_shape x) = length (t_shape o)).
  { destruct J2 as (J2 & _). destruct (J2 o Ho) as [_ [L _]]. exact L. }
  destruct (concat_run dim outs) as [r| |].
  - destruct S as (axis' & out & Hax' & J1' & -> & Wo & J2').
    assert (axis' = axis).
    { eapply axis_of_inj; [exact Hax'|]. destruct J2' as (J2' & _). destruct (J2' o Ho) as [_ [L _]]. rewrite L, <- Lo. exact Hax. }
    subst axis'. f_equal. f_equal. eapply joined_unique; eauto.
  - exfalso. eapply S; eauto. rewrite <- Lo. exact Hax.
  - destruct S.
Qed.
