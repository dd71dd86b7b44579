(** C89: convolution. *)
From Coq Require Import List ZArith Bool Lia Ring.
From Verif Require Import ShapeModel ShapeSpec ShapeProofs KernelBase KernelSpec KernelProofs EltwiseModel
  GemmModel GemmSpec GemmProofs ConvModel ConvSpec ConvProofs.
Import ListNotations.
Local Open Scope Z_scope.

Section Props.
Context {R : Type} (rO rI : R) (radd rmul : R -> R -> R).
Hypothesis Rth : semi_ring_theory rO rI radd rmul eq.
Variable near : R -> R -> bool.
Hypothesis near_refl : forall x, near x x = true.

Lemma load_value (t : tensor R) c : wf t -> inside (t_shape t) c -> load (t_data t) (position (t_shape t) c) = SOk (value rO t c).
Proof.
  intros W H. destruct (elt_some t c W H) as (v & E). unfold value. rewrite E. apply load_inv. split; [now apply position_bound|exact E].
Qed.

Lemma conv_main (x w w' : tensor R) padding stride dilation pv (packed : bool) n c h wd outs kh kw pt pb pl pr sh sw dh dw :
  wf x -> wf w -> t_dtype x = 10 -> t_dtype w' = 10 -> t_shape x = [n; c; h; wd] -> t_shape w = [outs; c; kh; kw] -> t_shape w' = [outs; c; kh; kw] ->
  padding = [0; 0; 0; 0; pt; pb; pl; pr] -> stride = [1; 1; sh; sw] -> dilation = [1; 1; dh; dw] ->
  1 <= sh -> 1 <= sw -> dh * (kh - 1) + 1 <= h + pt + pb -> dw * (kw - 1) + 1 <= wd + pl + pr ->
  (if packed then exec (fresh (outs * (c * kh * kw))) (pack8_A outs (c * kh * kw) (load (t_data w)) (c * kh * kw)) = SOk (map Some (t_data w'))
   else w' = w) ->
  exists out, conv2d rO rI radd rmul near true padding stride dilation pv packed x w' = SOk (filled out) /\ wf out /\
    t_dtype out = 10 /\
    t_shape out = [n; outs; (h + pt + pb - (dh * (kh - 1) + 1)) / sh + 1; (wd + pl + pr - (dw * (kw - 1) + 1)) / sw + 1] /\
    forall b o i j, inside (t_shape out) [b; o; i; j] ->
      elt out [b; o; i; j] = Some (convolution rO radd rmul x w c h wd kh kw pv pt pl sh sw dh dw b o i j).
Proof using Rth near_refl.
  intros Wx Ww Tx Tw Sx Sw Sw' -> -> -> Hsh Hsw Hfh Hfw Hp.
  assert (Nx : 0 <= n /\ 0 <= c /\ 0 <= h /\ 0 <= wd).
  { destruct Wx as [F _]. rewrite Sx in F. inversion F as [|? ? F1 Fa]; subst. inversion Fa as [|? ? F2 Fb]; subst. inversion Fb as [|? ? F3 Fc]; subst. inversion Fc; subst. auto. }
  assert (Nw : 0 <= outs /\ 0 <= kh /\ 0 <= kw).
  { destruct Ww as [F _]. rewrite Sw in F. inversion F as [|? ? F1 Fa]; subst. inversion Fa as [|? ? F2 Fb]; subst. inversion Fb as [|? ? F3 Fc]; subst. inversion Fc; subst. auto. }
  destruct Nx as (Hn & Hc & Hh & Hwd), Nw as (Ho & Hkh & Hkw).
  set (oh := (h + pt + pb - (dh * (kh - 1) + 1)) / sh + 1). set (ow := (wd + pl + pr - (dw * (kw - 1) + 1)) / sw + 1).
  set (win := Window pt pb pl pr sh sw dh dw).
  assert (Hoh : 0 <= oh) by (unfold oh; assert (0 <= (h + pt + pb - (dh * (kh - 1) + 1)) / sh) by (apply Z.div_pos; lia); lia).
  assert (How : 0 <= ow) by (unfold ow; assert (0 <= (wd + pl + pr - (dw * (kw - 1) + 1)) / sw) by (apply Z.div_pos; lia); lia).
  assert (Ef : forward win h wd kh kw = SOk (oh, ow)).
  { unfold forward, conv_size, win. cbn [top bottom left_ right_ stride_h stride_w dil_h dil_w].
    destruct (Z.eqb_spec sh 0); [lia|]. destruct (Z.eqb_spec sw 0); [lia|]. cbn [bind]. unfold oh, ow.
    rewrite !Z.quot_div_nonneg by lia. reflexivity. }
  assert (HK : 0 <= c * kh * kw) by (repeat apply Z.mul_nonneg_nonneg; assumption).
  set (A := fun o k => nth (Z.to_nat (o * (c * kh * kw) + k)) (t_data w) rO).
  assert (HA : forall o k, 0 <= o < outs -> 0 <= k < c * kh * kw -> load (t_data w) (o * (c * kh * kw) + k) = SOk (A o k)).
  { intros o k Ho' Hk. apply load_inv. split; [nia|]. unfold A. apply nth_error_nth'. destruct Ww as [_ L]. rewrite Sw in L. cbn [elements] in L.
    replace (outs * (c * (kh * (kw * 1)))) with (outs * (c * kh * kw)) in L by ring. nia. }
  destruct (conv_run_ok rO rI radd rmul Rth near near_refl (t_data x) (t_data w') n c h wd outs kh kw oh ow win pv packed
     (fun b ch a1 a2 => value rO x [b; ch; a1; a2]) A) as (stores & out & E1 & E2 & L & P); auto.
  { intros b ch i j Hb Hch Hi Hj. rewrite <- (load_value x [b; ch; i; j] Wx) by (rewrite Sx; repeat (constructor; [lia|]); constructor).
    f_equal. rewrite Sx. cbn [position elements]. ring. }
  { destruct packed; cbn [negb].
    - destruct (pack_A_ok rO rI radd rmul Rth outs (c * kh * kw) (c * kh * kw) (load (t_data w)) A Ho HK HA) as (da & Ea & Pa).
      rewrite Ea in Hp. injection Hp as Hp. rewrite Hp in Pa. destruct Pa as [P1 P2].
      assert (Hrd : forall (l : list R) i v, read (map Some l) i = SOk v -> load l i = SOk v).
      { intros l i v. unfold read. destruct (load (map Some l) i) as [[y|]| |] eqn:E; try discriminate. intros Ex. injection Ex as ->.
        apply load_inv in E. destruct E as [E0 E]. apply load_inv. split; [exact E0|]. rewrite nth_error_map in E.
        destruct (nth_error l (Z.to_nat i)); cbn in E; congruence. }
      split; intros; apply Hrd; [now apply P1|now apply P2].
    - subst w'. exact HA. }
  exists (Tn 10 [n; outs; oh; ow] out). split; [|split; [split; [repeat constructor; assumption|exact L]|split; [reflexivity|split; [reflexivity|]]]].
  - unfold conv2d, conv_init. cbn [length Nat.eqb andb negb nth Z.eqb]. rewrite Sx, Sw', Tx, Tw. cbn [Z.eqb Pos.eqb negb orb].
    fold win. rewrite Z.eqb_refl. cbn [negb andb]. rewrite Ef. cbn [bind].
    destruct (Z.ltb_spec oh 0); [lia|]. destruct (Z.ltb_spec ow 0); [lia|]. cbn [orb].
    rewrite E1. cbn [bind]. rewrite E2. reflexivity.
  - intros b o i j Hin. cbn [t_shape] in Hin. inversion Hin as [|? ? ? ? Hb Hi1]; subst. inversion Hi1 as [|? ? ? ? Ho' Hi2]; subst.
    inversion Hi2 as [|? ? ? ? Hi Hi3]; subst. inversion Hi3 as [|? ? ? ? Hj Hi4]; subst.
    unfold elt. cbn [t_shape t_data]. rewrite (P b o i j) by assumption. f_equal. unfold conv_at, convolution.
    apply sum_ext. intros ch Hch. apply sum_ext. intros p Hp'. apply sum_ext. intros q Hq. cbn [win stride_h stride_w dil_h dil_w top left_].
    f_equal. unfold A. pose proof (load_value w [o; ch; p; q] Ww) as Lv. rewrite Sw in Lv.
    assert (I : inside [outs; c; kh; kw] [o; ch; p; q]) by (repeat (constructor; [lia|]); constructor). specialize (Lv I).
    apply load_inv in Lv. destruct Lv as [_ Lv]. apply nth_error_nth. rewrite <- Lv. f_equal. f_equal. cbn [position elements]. ring.
Qed.

(** C89: every element of the output is the weights times the window of the
    padded input; for all sizes, paddings (also negative or uneven), strides
    and dilations with which a window fits. *)
Theorem C89_conv2d_partial : forall padding stride dilation pv (x w : tensor R) n c h wd outs kh kw pt pb pl pr sh sw dh dw,
  wf x -> wf w -> t_dtype x = 10 -> t_dtype w = 10 -> t_shape x = [n; c; h; wd] -> t_shape w = [outs; c; kh; kw] ->
  padding = [0; 0; 0; 0; pt; pb; pl; pr] -> stride = [1; 1; sh; sw] -> dilation = [1; 1; dh; dw] ->
  1 <= sh -> 1 <= sw -> dh * (kh - 1) + 1 <= h + pt + pb -> dw * (kw - 1) + 1 <= wd + pl + pr ->
  exists out, conv2d rO rI radd rmul near true padding stride dilation pv false x w = SOk (filled out) /\ wf out /\
    t_dtype out = 10 /\
    t_shape out = [n; outs; (h + pt + pb - (dh * (kh - 1) + 1)) / sh + 1; (wd + pl + pr - (dw * (kw - 1) + 1)) / sw + 1] /\
    forall b o i j, inside (t_shape out) [b; o; i; j] ->
      elt out [b; o; i; j] = Some (convolution rO radd rmul x w c h wd kh kw pv pt pl sh sw dh dw b o i j).
Proof using Rth near_refl.
  intros padding stride dilation pv x w n c h wd outs kh kw pt pb pl pr sh sw dh dw. intros.
  now apply (conv_main x w w padding stride dilation pv false n c h wd outs kh kw pt pb pl pr sh sw dh dw).
Qed.

(** C89: weights packed beforehand, with the kernel_packed attribute, give the
    same output. *)
Theorem C89_kernel_packed : forall padding stride dilation pv (x w : tensor R) packed n c h wd outs kh kw pt pb pl pr sh sw dh dw,
  wf x -> wf w -> t_dtype x = 10 -> t_dtype w = 10 -> t_shape x = [n; c; h; wd] -> t_shape w = [outs; c; kh; kw] ->
  padding = [0; 0; 0; 0; pt; pb; pl; pr] -> stride = [1; 1; sh; sw] -> dilation = [1; 1; dh; dw] ->
  1 <= sh -> 1 <= sw -> dh * (kh - 1) + 1 <= h + pt + pb -> dw * (kw - 1) + 1 <= wd + pl + pr ->
  exec (fresh (outs * (c * kh * kw))) (pack8_A outs (c * kh * kw) (load (t_data w)) (c * kh * kw)) = SOk (map Some packed) ->
  conv2d rO rI radd rmul near true padding stride dilation pv true x (Tn 10 (t_shape w) packed) =
  conv2d rO rI radd rmul near true padding stride dilation pv false x w.
Proof using Rth near_refl.
  intros padding stride dilation pv x w packed n c h wd outs kh kw pt pb pl pr sh sw dh dw. intros.
  destruct (conv_main x w w padding stride dilation pv false n c h wd outs kh kw pt pb pl pr sh sw dh dw) as (o1 & E1 & W1 & T1 & S1 & P1); auto.
  destruct (conv_main x w (Tn 10 (t_shape w) packed) padding stride dilation pv true n c h wd outs kh kw pt pb pl pr sh sw dh dw) as (o2 & E2 & W2 & T2 & S2 & P2); auto.
  rewrite E1, E2. f_equal. f_equal. apply tensor_ext; auto; [now rewrite T1, T2|now rewrite S1, S2|].
  intros k Hk. rewrite S2 in Hk. inversion Hk as [|? b ? k1 Hb Hk1]; subst. inversion Hk1 as [|? o ? k2 Ho Hk2]; subst.
  inversion Hk2 as [|? i ? k3 Hi Hk3]; subst. inversion Hk3 as [|? j ? k4 Hj Hk4]; subst. inversion Hk4; subst.
  rewrite P2 by (rewrite S2; exact Hk). rewrite P1 by (rewrite S1; exact Hk). reflexivity.
Qed.

(** C89: what is refused: attributes on the batch and channel axes, a wrong
    number of channels, other element types than float and double, NHWC. *)
Theorem C89_refused : forall nchw padding stride dilation pv packed (x w : tensor R),
  (length padding <> 8%nat \/ length stride <> 4%nat \/ length dilation <> 4%nat \/
   (nchw = true /\ (exists k, (k < 4)%nat /\ nth k padding 0 <> 0 \/ (k < 2)%nat /\ nth k stride 0 <> 1 \/ (k < 2)%nat /\ nth k dilation 0 <> 1)) \/
   length (t_shape x) <> 4%nat \/ length (t_shape w) <> 4%nat \/ t_dtype x <> t_dtype w \/
   nth 1 (t_shape w) 0 <> nth 1 (t_shape x) 0) ->
  conv2d rO rI radd rmul near nchw padding stride dilation pv packed x w = SErr.
Proof.
  intros nchw padding stride dilation pv packed x w H. unfold conv2d.
  destruct (conv_init nchw padding stride dilation) as [win|] eqn:Ei; [|reflexivity].
  assert (Hi : length padding = 8%nat /\ length stride = 4%nat /\ length dilation = 4%nat /\
     (nchw = true -> forall k, ((k < 4)%nat -> nth k padding 0 = 0) /\ ((k < 2)%nat -> nth k stride 0 = 1) /\ ((k < 2)%nat -> nth k dilation 0 = 1))).
  { unfold conv_init in Ei. destruct (Nat.eqb_spec (length padding) 8); [|discriminate]. destruct (Nat.eqb_spec (length stride) 4); [|discriminate].
    destruct (Nat.eqb_spec (length dilation) 4); [|discriminate]. cbn [andb negb] in Ei. split; [assumption|]. split; [assumption|]. split; [assumption|].
    intros -> k.
    destruct (Z.eqb_spec (nth 0 padding 0) 0), (Z.eqb_spec (nth 1 padding 0) 0), (Z.eqb_spec (nth 2 padding 0) 0), (Z.eqb_spec (nth 3 padding 0) 0); try discriminate.
    destruct (Z.eqb_spec (nth 0 stride 0) 1), (Z.eqb_spec (nth 1 stride 0) 1); try discriminate.
    destruct (Z.eqb_spec (nth 0 dilation 0) 1), (Z.eqb_spec (nth 1 dilation 0) 1); try discriminate.
    split; [|split]; intros Hk; destruct k as [|[|[|[|k]]]]; try assumption; lia. }
  destruct Hi as (L1 & L2 & L3 & Hk).
  destruct (t_shape x) as [|x0 [|x1 [|x2 [|x3 [|]]]]]; try reflexivity.
  destruct (t_shape w) as [|w0 [|w1 [|w2 [|w3 [|]]]]]; try reflexivity.
  destruct (Z.eqb_spec (t_dtype x) (t_dtype w)) as [Ed|Ed]; cbn [negb]; [|reflexivity].
  destruct (Z.eqb_spec w1 x1) as [Ec|Ec]; cbn [negb]; [|reflexivity].
  exfalso. destruct H as [H|[H|[H|[(En & k & H)|[H|[H|[H|H]]]]]]]; try (apply H; assumption); try (apply H; reflexivity).
  - specialize (Hk En k). destruct Hk as (K1 & K2 & K3). destruct H as [[Hl H]|[[Hl H]|[Hl H]]]; auto.
Qed.

(** C89 is not so for double: the output is never written. *)
Theorem C89_double_refuted : forall pv,
  conv2d rO rI radd rmul near true [0;0;0;0;0;0;0;0] [1;1;1;1] [1;1;1;1] pv false
    (Tn 11 [1;1;1;1] [rI]) (Tn 11 [1;1;1;1] [rI]) = SOk (Tn 11 [1;1;1;1] [None]).
Proof using near_refl. intros pv. unfold conv2d, conv_run, conv_image, packed_gemm. cbn. rewrite !near_refl. reflexivity. Qed.

(** C89 is not so when the window does not fit: a 2x2 kernel on a 1x1 image
    with stride 2 gives one output element, made of the padding value. *)
Theorem C89_too_large_refuted : forall pv,
  exists v, conv2d rO rI radd rmul near true [0;0;0;0;0;0;0;0] [1;1;2;2] [1;1;1;1] pv false
    (Tn 10 [1;1;1;1] [rI]) (Tn 10 [1;1;2;2] [rI; rI; rI; rI]) = SOk (Tn 10 [1;1;1;1] [Some v]).
Proof using near_refl. intros pv. unfold conv2d, conv_run, conv_image, packed_gemm. cbn. rewrite !near_refl. eexists. reflexivity. Qed.
End Props.

(** a 3x3 image, one channel, two 2x2 kernels, padding 1 on top, stride 2 *)
Theorem C89_example :
  conv2d 0 1 Z.add Z.mul Z.eqb true [0;0;0;0;1;0;0;0] [1;1;2;1] [1;1;1;1] 5 false
    (Tn 10 [1;1;3;3] [1;2;3;4;5;6;7;8;9]) (Tn 10 [2;1;2;2] [1;1;1;1; 0;0;0;2])
  = SOk (Tn 10 [1;2;2;2] (map Some [13; 15; 24; 28; 4; 6; 16; 18])).
Proof. vm_compute. reflexivity. Qed.

Print Assumptions C89_conv2d_partial.
Print Assumptions C89_kernel_packed.
Print Assumptions C89_refused.
Print Assumptions C89_double_refuted.
Print Assumptions C89_too_large_refuted.
Print Assumptions C89_example.
