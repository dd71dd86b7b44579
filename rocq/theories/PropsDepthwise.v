(** C97: depthwise convolution. *)
From Coq Require Import List ZArith Bool Lia Ring.
From Verif Require Import ShapeModel ShapeSpec ShapeProofs KernelBase KernelSpec KernelProofs EltwiseModel
  GemmModel GemmSpec GemmProofs ConvModel ConvSpec ConvProofs PropsConv DepthwiseModel DepthwiseSpec DepthwiseProofs.
Import ListNotations.
Local Open Scope Z_scope.

Section Props.
Context {R : Type} (rO rI : R) (radd rmul : R -> R -> R).
Hypothesis Rth : semi_ring_theory rO rI radd rmul eq.

(** C97: every element of the output is the weights of its channel times the
    window of the padded channel, whatever lies behind the weights; for all
    sizes, strides and dilations with which a window fits.  The vectorised 3x3
    kernels for float need paddings that are not negative, planes of at least
    two rows and columns, and one readable number behind the weights. *)
Theorem C97_depthwise_partial : forall padding stride dilation pv (x w : tensor R) slack dt n c h wd kh kw pt pb pl pr sh sw dh dw,
  wf x -> wf w -> dt = 10 \/ dt = 11 -> t_dtype x = dt -> t_dtype w = dt -> t_shape x = [n; c; h; wd] -> t_shape w = [1; c; kh; kw] ->
  padding = [0; 0; 0; 0; pt; pb; pl; pr] -> stride = [1; 1; sh; sw] -> dilation = [1; 1; dh; dw] ->
  1 <= sh -> 1 <= sw -> dh * (kh - 1) + 1 <= h + pt + pb -> dw * (kw - 1) + 1 <= wd + pl + pr ->
  (dt = 10 /\ kh = 3 /\ kw = 3 /\ dh = 1 /\ dw = 1 /\ (sh = 1 /\ sw = 1 \/ sh = 2 /\ sw = 2) ->
   0 <= pt /\ 0 <= pb /\ 0 <= pl /\ 0 <= pr /\ 2 <= h /\ 2 <= wd /\ slack <> []) ->
  exists out, depthwise_conv2d rO radd rmul true padding stride dilation pv false x w slack = SOk (filled out) /\ wf out /\
    t_dtype out = dt /\
    t_shape out = [n; c; (h + pt + pb - (dh * (kh - 1) + 1)) / sh + 1; (wd + pl + pr - (dw * (kw - 1) + 1)) / sw + 1] /\
    forall b ch i j, inside (t_shape out) [b; ch; i; j] ->
      elt out [b; ch; i; j] = Some (depthwise rO radd rmul x w h wd kh kw pv pt pl sh sw dh dw b ch i j).
Proof using Rth.
  intros padding stride dilation pv x w slack dt n c h wd kh kw pt pb pl pr sh sw dh dw Wx Ww Hdt Tx Tw Sx Sw -> -> -> Hsh Hsw Hfh Hfw Hfast.
  assert (Nx : 0 <= n /\ 0 <= c /\ 0 <= h /\ 0 <= wd).
  { destruct Wx as [F _]. rewrite Sx in F. inversion F as [|? ? F1 Fa]; subst. inversion Fa as [|? ? F2 Fb]; subst. inversion Fb as [|? ? F3 Fc]; subst. inversion Fc; subst. auto. }
  assert (Nw : 0 <= kh /\ 0 <= kw).
  { destruct Ww as [F _]. rewrite Sw in F. inversion F as [|? ? F1 Fa]; subst. inversion Fa as [|? ? F2 Fb]; subst. inversion Fb as [|? ? F3 Fc]; subst. inversion Fc; subst. auto. }
  destruct Nx as (Hn & Hc & Hh & Hwd), Nw as (Hkh & Hkw).
  set (oh := (h + pt + pb - (dh * (kh - 1) + 1)) / sh + 1). set (ow := (wd + pl + pr - (dw * (kw - 1) + 1)) / sw + 1).
  set (win := Window pt pb pl pr sh sw dh dw).
  assert (Hoh : 0 <= oh) by (unfold oh; assert (0 <= (h + pt + pb - (dh * (kh - 1) + 1)) / sh) by (apply Z.div_pos; lia); lia).
  assert (How : 0 <= ow) by (unfold ow; assert (0 <= (wd + pl + pr - (dw * (kw - 1) + 1)) / sw) by (apply Z.div_pos; lia); lia).
  assert (Ef : forward win h wd kh kw = SOk (oh, ow)).
  { unfold forward, conv_size, win. cbn [top bottom left_ right_ stride_h stride_w dil_h dil_w].
    destruct (Z.eqb_spec sh 0); [lia|]. destruct (Z.eqb_spec sw 0); [lia|]. cbn [bind]. unfold oh, ow.
    rewrite !Z.quot_div_nonneg by lia. reflexivity. }
  assert (Lw : forall ch p q, 0 <= ch < c -> 0 <= p < kh -> 0 <= q < kw ->
     load (t_data w ++ slack) (ch * (kh * kw) + (p * kw + q)) = SOk (value rO w [0; ch; p; q])).
  { intros ch p q H1 H2 H3. pose proof (load_value rO w [0; ch; p; q] Ww) as Lv. rewrite Sw in Lv.
    specialize (Lv ltac:(repeat (constructor; [lia|]); constructor)). apply load_inv in Lv. destruct Lv as [L0 L1].
    cbn [position elements] in L0, L1. apply load_inv. split; [nia|]. rewrite nth_error_app1; [rewrite <- L1; f_equal; f_equal; ring|].
    assert (Hlt : (Z.to_nat (0 * (c * (kh * (kw * 1))) + (ch * (kh * (kw * 1)) + (p * (kw * 1) + (q * 1 + 0)))) < length (t_data w))%nat)
      by (apply nth_error_Some; congruence).
    replace (ch * (kh * kw) + (p * kw + q)) with (0 * (c * (kh * (kw * 1))) + (ch * (kh * (kw * 1)) + (p * (kw * 1) + (q * 1 + 0)))) by ring. exact Hlt. }
  assert (Lend : kh = 3 -> kw = 3 -> slack <> [] -> forall ch, 0 <= ch < c -> exists v, load (t_data w ++ slack) (ch * (kh * kw) + 9) = SOk v).
  { intros E1 E2 Hs ch Hch. destruct (nth_error (t_data w ++ slack) (Z.to_nat (ch * (kh * kw) + 9))) as [v|] eqn:E.
    - exists v. apply load_inv. split; [nia|exact E].
    - apply nth_error_None in E. destruct Ww as [_ L]. rewrite Sw in L. cbn [elements] in L. rewrite app_length in E. destruct slack as [|s0 sl]; [congruence|].
      cbn [length] in E. subst kh kw. lia. }
  destruct (depthwise_run_ok rO rI radd rmul Rth (dt =? 10) (load (t_data x)) (load (t_data w ++ slack)) n c h wd kh kw oh ow win pv
     (fun ch p q => value rO w [0; ch; p; q]) (fun b ch a1 a2 => value rO x [b; ch; a1; a2])) as (stores & out & E1 & E2 & L & P); auto.
  { intros Ed (F1 & F2 & F3 & F4 & F5). apply Z.eqb_eq in Ed. cbn [win stride_h stride_w dil_h dil_w top left_ bottom right_] in *.
    destruct Hfast as (G1 & G2 & G3 & G4 & G5 & G6 & G7); [auto 10|]. repeat (split; [assumption|]). now apply Lend. }
  { intros b ch i j Hb Hch Hi Hj. rewrite <- (load_value rO x [b; ch; i; j] Wx) by (rewrite Sx; repeat (constructor; [lia|]); constructor).
    f_equal. rewrite Sx. cbn [position elements]. ring. }
  exists (Tn dt [n; c; oh; ow] out). split; [|split; [split; [repeat constructor; assumption|exact L]|split; [reflexivity|split; [reflexivity|]]]].
  - unfold depthwise_conv2d, conv_init. cbn [length Nat.eqb andb negb nth Z.eqb Pos.eqb]. rewrite Sx, Sw, Tx, Tw. rewrite Z.eqb_refl. cbn [negb].
    rewrite Z.eqb_refl. cbn [negb]. fold win. rewrite Ef. cbn [bind Z.eqb Pos.eqb negb].
    destruct (Z.ltb_spec oh 0); [lia|]. destruct (Z.ltb_spec ow 0); [lia|]. cbn [orb].
    assert (Hb : (dt =? 10) || (dt =? 11) = true) by (destruct Hdt as [->| ->]; reflexivity). rewrite Hb. cbn [negb].
    rewrite E1. cbn [bind]. rewrite E2. reflexivity.
  - intros b ch i j Hin. cbn [t_shape] in Hin. inversion Hin as [|? ? ? ? Hb Hi1]; subst. inversion Hi1 as [|? ? ? ? Ho' Hi2]; subst.
    inversion Hi2 as [|? ? ? ? Hi Hi3]; subst. inversion Hi3 as [|? ? ? ? Hj Hi4]; subst.
    unfold elt. cbn [t_shape t_data]. rewrite (P b ch i j) by assumption. f_equal.
Qed.

(** C97: what is refused. *)
Theorem C97_refused : forall nchw padding stride dilation pv packed (x w : tensor R) slack,
  length (t_shape x) <> 4%nat \/ length (t_shape w) <> 4%nat \/ t_dtype x <> t_dtype w \/ nth 1 (t_shape w) 0 <> nth 1 (t_shape x) 0 ->
  depthwise_conv2d rO radd rmul nchw padding stride dilation pv packed x w slack = SErr.
Proof.
  intros nchw padding stride dilation pv packed x w slack H. unfold depthwise_conv2d.
  destruct (conv_init nchw padding stride dilation) as [win|]; [|reflexivity].
  destruct (t_shape x) as [|x0 [|x1 [|x2 [|x3 [|]]]]]; try reflexivity.
  destruct (t_shape w) as [|w0 [|w1 [|w2 [|w3 [|]]]]]; try reflexivity.
  destruct (Z.eqb_spec (t_dtype x) (t_dtype w)) as [Ed|Ed]; cbn [negb]; [|reflexivity].
  destruct (Z.eqb_spec w1 x1) as [Ec|Ec]; cbn [negb]; [|reflexivity].
  exfalso. cbn [length nth] in H. intuition congruence.
Qed.

(** C97: more than one kernel to a channel, weights packed beforehand and other
    element types never give a result. *)
Theorem C97_never : forall nchw padding stride dilation pv packed (x w : tensor R) slack r,
  nth 0 (t_shape w) 0 <> 1 \/ packed = true \/ nchw = false \/ (t_dtype x <> 10 /\ t_dtype x <> 11) ->
  depthwise_conv2d rO radd rmul nchw padding stride dilation pv packed x w slack <> SOk r.
Proof.
  intros nchw padding stride dilation pv packed x w slack r H. unfold depthwise_conv2d.
  destruct (conv_init nchw padding stride dilation) as [win|]; [|discriminate].
  destruct (t_shape x) as [|x0 [|x1 [|x2 [|x3 [|]]]]]; try discriminate.
  destruct (t_shape w) as [|w0 [|w1 [|w2 [|w3 [|]]]]]; try discriminate.
  destruct (t_dtype x =? t_dtype w); cbn [negb]; [|discriminate].
  destruct (w1 =? x1); cbn [negb]; [|discriminate].
  destruct (if nchw then forward win x2 x3 w2 w3 else forward win x1 x2 w1 w2) as [[oh ow]| |]; cbn [bind]; try discriminate.
  cbn [nth] in H. destruct (Z.eqb_spec w0 1) as [E0|E0]; cbn [negb]; [|discriminate].
  destruct ((oh <? 0) || (ow <? 0)); [discriminate|].
  destruct nchw; cbn [negb]; [|discriminate].
  destruct (Z.eqb_spec (t_dtype x) 10) as [Ea|Ea]; destruct (Z.eqb_spec (t_dtype x) 11) as [Eb|Eb]; cbn [orb negb]; try discriminate;
    (destruct packed; [discriminate|]); exfalso; intuition congruence.
Qed.

(** C97 is not so when nothing lies behind the weights: the 3x3 kernels load
    the weights by four, the last load ends one number behind the last weight. *)
Theorem C97_overread_refuted : forall pv,
  let image := Tn 10 [1;1;3;3] (repeat rI 9) in let kernel := Tn 10 [1;1;3;3] (repeat rI 9) in
  depthwise_conv2d rO radd rmul true [0;0;0;0;0;0;0;0] [1;1;1;1] [1;1;1;1] pv false image kernel [] = SUndef /\
  depthwise_conv2d rO radd rmul true [0;0;0;0;0;0;0;0] [1;1;2;2] [1;1;1;1] pv false image kernel [] = SUndef.
Proof. intros pv. split; reflexivity. Qed.

(** C97 is not so for negative paddings, which the same operator accepts for
    every other kernel size: the 3x3 kernel stores in front of the output. *)
Theorem C97_negative_padding_refuted : forall pv v,
  depthwise_conv2d rO radd rmul true [0;0;0;0;-1;0;0;0] [1;1;1;1] [1;1;1;1] pv false
    (Tn 10 [1;1;5;7] (repeat rI 35)) (Tn 10 [1;1;3;3] (repeat rI 9)) [v] = SUndef.
Proof. intros pv v. vm_compute. reflexivity. Qed.

(** C97 is not so for planes of one row: with two rows of padding on top the
    3x3 kernel writes two rows of an output that has one. *)
Theorem C97_low_plane_refuted : forall pv v,
  depthwise_conv2d rO radd rmul true [0;0;0;0;2;0;0;0] [1;1;1;1] [1;1;1;1] pv false
    (Tn 10 [1;1;1;3] (repeat rI 3)) (Tn 10 [1;1;3;3] (repeat rI 9)) [v] = SUndef.
Proof. intros pv v. vm_compute. reflexivity. Qed.
End Props.

(** two channels of 3x7, 3x3 kernels, one row and column of padding at the top
    and the left; the 99 behind the weights does not show *)
Theorem C97_example :
  depthwise_conv2d 0 Z.add Z.mul true [0;0;0;0;1;0;1;0] [1;1;1;1] [1;1;1;1] 5 false
    (Tn 10 [1;2;3;7] (map Z.of_nat (seq 0 42))) (Tn 10 [1;2;3;3] (repeat 1 9 ++ [0;0;0;0;2;0;0;0;1])) [99]
  = SOk (Tn 10 [1;2;2;6] (map Some
     [41; 42; 48; 54; 60; 66; 60; 72; 81; 90; 99; 108;
      71; 74; 77; 80; 83; 86; 92; 95; 98; 101; 104; 107])).
Proof. vm_compute. reflexivity. Qed.

Print Assumptions C97_depthwise_partial.
Print Assumptions C97_refused.
Print Assumptions C97_never.
Print Assumptions C97_overread_refuted.
Print Assumptions C97_negative_padding_refuted.
Print Assumptions C97_low_plane_refuted.
Print Assumptions C97_example.
