(** C163: the quantized convolution. *)
From Coq Require Import List ZArith Bool Lia Ring QArith Qround Permutation.
From Verif Require Import ShapeModel ShapeSpec ShapeProofs KernelBase KernelSpec KernelProofs LoopModel LoopProofs EltwiseModel
  GemmModel GemmSpec GemmProofs ConvModel ConvProofs ResizeModel QuantConvModel QuantConvSpec QuantConvProofs PropsConv PropsPriorBox PropsDcn PropsPatch ConvSpec.
Import ListNotations.
Local Open Scope Z_scope.

Lemma to_int8_ok v z : without_fraction v z -> -128 <= z <= 127 -> to_int8 v = SOk z.
Proof.
  intros W B. assert (E : truncate v = z).
  { destruct W as [(P & L & U)|(P & L & U)].
    - rewrite truncate_pos by exact P. pose proof (Qfloor_le v) as A1. pose proof (Qlt_floor v) as A2.
      assert ((inject_Z z < inject_Z (Qfloor v + 1))%Q) as C1 by (eapply Qle_lt_trans; eassumption).
      assert ((inject_Z (Qfloor v) < inject_Z (z + 1))%Q) as C2 by (eapply Qle_lt_trans; eassumption).
      rewrite <- Zlt_Qlt in C1, C2. lia.
    - rewrite truncate_neg by exact P. pose proof (Qle_ceiling v) as A1. pose proof (Qceiling_lt v) as A2.
      assert ((inject_Z (Qceiling v - 1) < inject_Z z)%Q) as C1 by (eapply Qlt_le_trans; eassumption).
      assert ((inject_Z (z - 1) < inject_Z (Qceiling v))%Q) as C2 by (eapply Qlt_le_trans; eassumption).
      rewrite <- Zlt_Qlt in C1, C2. lia. }
  unfold to_int8. rewrite E. destruct (Z.leb_spec (-128) z), (Z.leb_spec z 127); try lia. reflexivity.
Qed.

Section Props.
Context {F : Type} (of_int : Z -> F) (mul : F -> F -> F).

(** Without threads: every output element is the exact integer convolution of the
    bytes, padded with the padding value without its fraction, converted to float
    and multiplied by the scale of its channel *)
Theorem C163_quantized_partial : forall padding stride dilation pv p (scales : list F) (x w : tensor Z) n c h wd outs kh kw pt pb pl pr sh sw dh dw,
  wf x -> wf w -> bytes x -> bytes w -> t_shape x = [n; c; h; wd] -> t_shape w = [outs; c; kh; kw] ->
  Z.of_nat (length scales) = outs ->
  padding = [0; 0; 0; 0; pt; pb; pl; pr] -> stride = [1; 1; sh; sw] -> dilation = [1; 1; dh; dw] ->
  1 <= sh -> 1 <= sw -> dh * (kh - 1) + 1 <= h + pt + pb -> dw * (kw - 1) + 1 <= wd + pl + pr ->
  without_fraction pv p -> -128 <= p <= 127 ->
  exists out, conv2d_quantized of_int mul (in_turn outs) true padding stride dilation pv scales x w = SOk out /\ wf out /\
    t_dtype out = 10 /\
    t_shape out = [n; outs; (h + pt + pb - (dh * (kh - 1) + 1)) / sh + 1; (wd + pl + pr - (dw * (kw - 1) + 1)) / sw + 1] /\
    forall b o i j s, inside (t_shape out) [b; o; i; j] -> nth_error scales (Z.to_nat o) = Some s ->
      elt out [b; o; i; j] = Some (mul (of_int (convolution 0 Z.add Z.mul x w c h wd kh kw p pt pl sh sw dh dw b o i j)) s).
Proof.
  intros padding stride dilation pv p scales x w n c h wd outs kh kw pt pb pl pr sh sw dh dw Wx Ww [Tx _] [Tw _] Sx Sw HL -> -> -> Hsh Hsw Hfh Hfw Hpv Hp.
  assert (Nx : 0 <= n /\ 0 <= c /\ 0 <= h /\ 0 <= wd).
  { destruct Wx as [G _]. rewrite Sx in G. inversion G as [|? ? F1 Fa]; subst. inversion Fa as [|? ? F2 Fb]; subst. inversion Fb as [|? ? F3 Fc]; subst. inversion Fc; subst. auto. }
  assert (Nw : 0 <= kh /\ 0 <= kw).
  { destruct Ww as [G _]. rewrite Sw in G. inversion G as [|? ? F1 Fa]; subst. inversion Fa as [|? ? F2 Fb]; subst. inversion Fb as [|? ? F3 Fc]; subst. inversion Fc; subst. auto. }
  assert (Ho : 0 <= outs) by lia.
  destruct Nx as (Hn & Hc & Hh & Hwd), Nw as (Hkh & Hkw).
  set (oh := (h + pt + pb - (dh * (kh - 1) + 1)) / sh + 1). set (ow := (wd + pl + pr - (dw * (kw - 1) + 1)) / sw + 1).
  set (win := Window pt pb pl pr sh sw dh dw).
  assert (Hoh : 0 <= oh) by (unfold oh; assert (0 <= (h + pt + pb - (dh * (kh - 1) + 1)) / sh) by (apply Z.div_pos; lia); lia).
  assert (How : 0 <= ow) by (unfold ow; assert (0 <= (wd + pl + pr - (dw * (kw - 1) + 1)) / sw) by (apply Z.div_pos; lia); lia).
  assert (Ef : forward win h wd kh kw = SOk (oh, ow)).
  { unfold forward, conv_size, win. cbn [top bottom left_ right_ stride_h stride_w dil_h dil_w].
    destruct (Z.eqb_spec sh 0); [lia|]. destruct (Z.eqb_spec sw 0); [lia|]. cbn [bind]. unfold oh, ow.
    rewrite !Z.quot_div_nonneg by lia. reflexivity. }
  assert (HK : 0 <= c * kh * kw) by (repeat apply Z.mul_nonneg_nonneg; assumption).
  assert (HA : 0 <= oh * ow) by nia.
  set (A := fun o k => nth (Z.to_nat (o * (c * kh * kw) + k)) (t_data w) 0).
  assert (HAw : forall o k, 0 <= o < outs -> 0 <= k < c * kh * kw -> load (t_data w) (o * (c * kh * kw) + k) = SOk (A o k)).
  { intros o k Ho' Hk. apply load_inv. split; [nia|]. unfold A. apply nth_error_nth'. destruct Ww as [_ L]. rewrite Sw in L. cbn [elements] in L.
    replace (outs * (c * (kh * (kw * 1)))) with (outs * (c * kh * kw)) in L by ring. nia. }
  pose proof (to_int8_ok pv p Hpv Hp) as Ep.
  destruct scales as [|s0 scales'] eqn:Esc.
  - (* no channel *)
    cbn in HL. subst outs.
    assert (E : conv2d_quantized of_int mul (in_turn 0) true [0; 0; 0; 0; pt; pb; pl; pr] [1; 1; sh; sw] [1; 1; dh; dw] pv [] x w = SOk (Tn 10 [n; 0; oh; ow] [])).
    { unfold conv2d_quantized, conv_init. cbn [length Nat.eqb andb negb nth Z.eqb]. rewrite Sx, Sw, Tx, Tw. fold win.
      rewrite !Z.eqb_refl. cbn [andb negb length Z.of_nat Z.eqb Pos.eqb]. rewrite Ef. cbn [bind].
      destruct (Z.ltb_spec oh 0); [lia|]. destruct (Z.ltb_spec ow 0); [lia|]. cbn [orb].
      match goal with |- context[each (map ?f (upto n))] => assert (E : each (map f (upto n)) = SOk (map (fun _ => []) (upto n))) end.
      { apply each_ok. intros b Hb. apply In_upto in Hb.
        destruct (quant_image_ok (fun q => load (t_data x) (b * (c * h * wd) + q)) (load (t_data w)) c h wd 0 kh kw oh ow win pv p
          (fun ch a1 a2 => value 0 x [b; ch; a1; a2]) A) as (m & -> & _); auto.
        { intros ch i j Hch Hi Hj. rewrite <- (load_value 0 x [b; ch; i; j] Wx) by (rewrite Sx; repeat (constructor; [lia|]); constructor).
          f_equal. rewrite Sx. cbn [position elements]. ring. }
        }
      rewrite E. cbn [bind]. f_equal. f_equal. clear. induction (upto n) as [|b l IH]; [reflexivity|exact IH]. }
    exists (Tn 10 [n; 0; oh; ow] []). split; [exact E|]. split; [split; [repeat constructor; assumption || lia|cbn; lia]|].
    split; [reflexivity|]. split; [reflexivity|]. intros b o i j s I. cbn [t_shape] in I. inversion I as [|? ? ? ? _ I2]; subst. inversion I2; subst. lia.
  - rewrite <- Esc in *. clear Esc scales'.
    set (V := fun b o k => mul (of_int (conv_at 0 Z.add Z.mul A (fun ch a1 a2 => value 0 x [b; ch; a1; a2]) c h wd kh kw p win o (k / ow) (k mod ow))) (nth (Z.to_nat o) scales s0)).
    assert (E : conv2d_quantized of_int mul (in_turn outs) true [0; 0; 0; 0; pt; pb; pl; pr] [1; 1; sh; sw] [1; 1; dh; dw] pv scales x w =
      SOk (Tn 10 [n; outs; oh; ow] (map (fun cc => V (nth 0 cc 0) (nth 1 cc 0) (nth 2 cc 0)) (loops [n; outs; oh * ow])))).
    { unfold conv2d_quantized, conv_init. cbn [length Nat.eqb andb negb nth Z.eqb]. rewrite Sx, Sw, Tx, Tw. fold win.
      rewrite HL, !Z.eqb_refl. cbn [andb negb Z.eqb Pos.eqb]. rewrite Ef. cbn [bind].
      destruct (Z.ltb_spec oh 0); [lia|]. destruct (Z.ltb_spec ow 0); [lia|]. cbn [orb].
      match goal with |- context[each (map ?f (upto n))] =>
        assert (E : each (map f (upto n)) = SOk (map (fun b => map (fun cc => V b (nth 0 cc 0) (nth 1 cc 0)) (loops [outs; oh * ow])) (upto n))) end.
      { apply each_ok. intros b Hb. apply In_upto in Hb.
        destruct (quant_image_ok (fun q => load (t_data x) (b * (c * h * wd) + q)) (load (t_data w)) c h wd outs kh kw oh ow win pv p
          (fun ch a1 a2 => value 0 x [b; ch; a1; a2]) A) as (m & -> & P); auto.
        { intros ch i j Hch Hi Hj. rewrite <- (load_value 0 x [b; ch; i; j] Wx) by (rewrite Sx; repeat (constructor; [lia|]); constructor).
          f_equal. rewrite Sx. cbn [position elements]. ring. }
        cbn [bind]. unfold in_turn.
        rewrite (dequantize_ok of_int mul m scales (oh * ow) outs (fun o k => conv_at 0 Z.add Z.mul A (fun ch a1 a2 => value 0 x [b; ch; a1; a2]) c h wd kh kw p win o (k / ow) (k mod ow)) s0 Ho HA HL).
        - f_equal. rewrite map_loops. apply flat_map_ext. intros o. rewrite map_loops. cbn [loops map nth].
          clear. induction (upto (oh * ow)) as [|k l IH]; [reflexivity|]. cbn [map flat_map app]. rewrite IH. reflexivity.
        - intros o k Ho' Hk. assert (0 < ow) by nia.
          rewrite <- (P o (k / ow) (k mod ow) Ho').
          + f_equal. f_equal. rewrite (Z.mul_comm (k / ow) ow), <- (Z.div_mod k ow) by lia. reflexivity.
          + split; [apply Z.div_pos; lia|apply Z.div_lt_upper_bound; nia].
          + apply Z.mod_pos_bound. lia. }
      rewrite E. cbn [bind]. f_equal. f_equal. exact (concat_loops n [outs; oh * ow] (fun cc => V (nth 0 cc 0) (nth 1 cc 0) (nth 2 cc 0))). }
    exists (Tn 10 [n; outs; oh; ow] (map (fun cc => V (nth 0 cc 0) (nth 1 cc 0) (nth 2 cc 0)) (loops [n; outs; oh * ow]))).
    split; [exact E|]. split; [split; [repeat constructor; assumption|]|].
    { cbn [t_data t_shape]. rewrite map_length. rewrite (length_loops [n; outs; oh * ow]) by (repeat constructor; assumption). cbn [elements]. ring. }
    split; [reflexivity|]. split; [reflexivity|]. intros b o i j s I Es. cbn [t_shape] in I.
    inversion I as [|? ? ? ? Hb Hi1]; subst. inversion Hi1 as [|? ? ? ? Ho' Hi2]; subst.
    inversion Hi2 as [|? ? ? ? Hi Hi3]; subst. inversion Hi3 as [|? ? ? ? Hj Hi4]; subst.
    unfold elt. cbn [t_shape t_data].
    assert (Bk : 0 <= i * ow + j < oh * ow) by nia.
    replace (position [n; Z.of_nat (length scales); oh; ow] [b; o; i; j]) with (position [n; Z.of_nat (length scales); oh * ow] [b; o; i * ow + j]) by (cbn [position elements]; ring).
    rewrite nth_error_map, nth_loops by (repeat (constructor; [lia|]); constructor). cbn [option_map nth]. f_equal. unfold V.
    rewrite (nth_error_nth _ _ s0 Es). f_equal. f_equal.
    replace ((i * ow + j) / ow) with i by (rewrite Z.div_add_l by lia; rewrite Z.div_small by lia; lia).
    replace ((i * ow + j) mod ow) with j by (rewrite Z.add_comm, Z.mod_add by lia; symmetry; apply Z.mod_small; lia).
    unfold conv_at, convolution.
    apply (sum_ext 0 Z.add). intros ch Hch. apply (sum_ext 0 Z.add). intros r Hr. apply (sum_ext 0 Z.add). intros q Hq. cbn [win stride_h stride_w dil_h dil_w top left_].
    f_equal. unfold A. pose proof (load_value 0 w [o; ch; r; q] Ww) as Lv. rewrite Sw in Lv.
    assert (I' : inside [Z.of_nat (length scales); c; kh; kw] [o; ch; r; q]) by (repeat (constructor; [lia|]); constructor). specialize (Lv I').
    apply load_inv in Lv. destruct Lv as [_ Lv]. apply nth_error_nth. rewrite <- Lv. f_equal. f_equal. cbn [position elements]. ring.
Qed.

(** Refusals, whatever the order *)
Theorem C163_refused : forall order nchw padding stride dilation pv (scales : list F) (x w : tensor Z),
  (length padding <> 8%nat \/ length stride <> 4%nat \/ length dilation <> 4%nat \/
   length (t_shape x) <> 4%nat \/ length (t_shape w) <> 4%nat \/ t_dtype x <> 1 \/ t_dtype w <> 1 \/
   nth 1 (t_shape w) 0 <> nth 1 (t_shape x) 0 \/ Z.of_nat (length scales) <> nth 0 (t_shape w) 0) ->
  conv2d_quantized of_int mul order nchw padding stride dilation pv scales x w = SErr.
Proof.
  intros order nchw padding stride dilation pv scales x w H. unfold conv2d_quantized.
  destruct (conv_init nchw padding stride dilation) as [win|] eqn:E; [|reflexivity].
  assert (L : length padding = 8%nat /\ length stride = 4%nat /\ length dilation = 4%nat).
  { unfold conv_init in E. destruct (Nat.eqb_spec (length padding) 8); [|discriminate]. destruct (Nat.eqb_spec (length stride) 4); [|discriminate].
    destruct (Nat.eqb_spec (length dilation) 4); [|discriminate]. auto. }
  destruct (t_shape x) as [|n [|x1 [|x2 [|x3 [|]]]]], (t_shape w) as [|outs [|w1 [|w2 [|w3 [|]]]]]; try reflexivity.
  destruct (Z.eqb_spec (t_dtype x) (t_dtype w)); [|reflexivity]. destruct (Z.eqb_spec w1 x1); [|reflexivity].
  destruct (Z.eqb_spec (t_dtype x) 1); [|reflexivity]. destruct (Z.eqb_spec (Z.of_nat (length scales)) outs); [|reflexivity].
  exfalso. cbn in H. destruct H as [H|[H|[H|[H|[H|[H|[H|[H|H]]]]]]]]; try congruence; tauto.
Qed.
End Props.

(** The sums stay within int32 for up to 131071 taps: of bytes, whichever taps have
    been added *)
Theorem C163_sums_fit : forall (taps : list (Z * Z)), Z.of_nat (length taps) <= 131071 ->
  Forall (fun t => -128 <= fst t <= 127 /\ -128 <= snd t <= 127) taps ->
  int32 (fold_right (fun t s => fst t * snd t + s) 0 taps).
Proof.
  intros taps L H. assert (B : forall l : list (Z * Z), Forall (fun t => -128 <= fst t <= 127 /\ -128 <= snd t <= 127) l ->
    - 16384 * Z.of_nat (length l) <= fold_right (fun t s => fst t * snd t + s) 0 l <= 16384 * Z.of_nat (length l)).
  { clear. induction 1 as [|t l [A B] Hl IH]; [cbn; lia|]. cbn [fold_right length]. rewrite Nat2Z.inj_succ. nia. }
  specialize (B taps H). unfold int32. assert (2 ^ 31 = 2147483648) as -> by reflexivity. lia.
Qed.
(** and not beyond: 131072 channels of -128 *)
Theorem C163_overflow_refuted : forall (x w : tensor Z), t_shape x = [1; 131072; 1; 1] -> t_shape w = [1; 131072; 1; 1] ->
  (forall c, 0 <= c < 131072 -> value 0 x [0; c; 0; 0] = -128 /\ value 0 w [0; c; 0; 0] = -128) ->
  ~ int32 (convolution 0 Z.add Z.mul x w 131072 1 1 1 1 0 0 0 1 1 1 1 0 0 0 0).
Proof.
  intros x w _ _ H. unfold convolution.
  assert (E : sum_of 0 Z.add 131072 (fun c => sum_of 0 Z.add 1 (fun p => sum_of 0 Z.add 1 (fun q =>
     value 0 w [0; c; p; q] * padded 0 1 1 (fun a b => value 0 x [0; c; a; b]) (0 * 1 + p * 1 - 0) (0 * 1 + q * 1 - 0)))) =
     sum_of 0 Z.add 131072 (fun _ => 16384)).
  { apply (sum_ext 0 Z.add). intros c Hc. destruct (H c Hc) as [Hx Hw]. unfold sum_of. change (upto 1) with [0]. cbn [fold_right].
    replace (padded 0 1 1 (fun a b => value 0 x [0; c; a; b]) (0 * 1 + 0 * 1 - 0) (0 * 1 + 0 * 1 - 0)) with (value 0 x [0; c; 0; 0]) by reflexivity.
    rewrite Hx, Hw. reflexivity. }
  rewrite E. assert (S : forall n, 0 <= n -> sum_of 0 Z.add n (fun _ => 16384) = 16384 * n).
  { intros n Hn. unfold sum_of. assert (G : forall l : list Z, fold_right (fun (_ : Z) s => 16384 + s) 0 l = 16384 * Z.of_nat (length l)).
    { induction l as [|a l IH]; [reflexivity|]. cbn [fold_right length]. rewrite IH, Nat2Z.inj_succ. ring. }
    rewrite G, length_upto, Z2Nat.id by exact Hn. reflexivity. }
  rewrite S by lia. unfold int32. assert (2 ^ 31 = 2147483648) as -> by reflexivity. lia.
Qed.

(** With OpenMP the channels of an image may get their turn in another order and
    then change places *)
Theorem C163_threads_refuted :
  let x := Tn 1 [1; 1; 1; 2] [1; 2] in let w := Tn 1 [2; 1; 1; 1] [1; 10] in
  let run order := conv2d_quantized (fun z => z) Z.mul order true [0; 0; 0; 0; 0; 0; 0; 0] [1; 1; 1; 1] [1; 1; 1; 1] 0%Q [1; 1] x w in
  Permutation (upto 2) [1; 0] /\ run (in_turn 2) = SOk (Tn 10 [1; 2; 1; 2] [1; 2; 10; 20]) /\
  run (fun _ => [1; 0]) = SOk (Tn 10 [1; 2; 1; 2] [10; 20; 1; 2]).
Proof. cbv zeta. split; [apply perm_swap|]. split; vm_compute; reflexivity. Qed.

(** A case of the hypotheses: two images, two channels, padding -3.5 *)
Example C163_example :
  let x := Tn 1 [2; 1; 1; 2] [1; 2; 3; 4] in let w := Tn 1 [2; 1; 1; 2] [1; 1; 10; -1] in
  wf x /\ wf w /\ bytes x /\ bytes w /\ without_fraction (-7 # 2) (-3) /\
  conv2d_quantized (fun z => z) Z.mul (in_turn 2) true [0; 0; 0; 0; 0; 0; 1; 0] [1; 1; 1; 1] [1; 1; 1; 1] (-7 # 2) [1; 100] x w
  = SOk (Tn 10 [2; 2; 1; 2] [-2; 3; -3100; 800; 0; 7; -3300; 2600]).
Proof.
  cbv zeta. split; [split; [repeat constructor; lia|reflexivity]|]. split; [split; [repeat constructor; lia|reflexivity]|].
  split; [split; [reflexivity|cbn [t_data]; repeat (constructor; [lia|]); constructor]|].
  split; [split; [reflexivity|cbn [t_data]; repeat (constructor; [lia|]); constructor]|].
  split; [right; split; [reflexivity|split; [reflexivity|discriminate]]|]. vm_compute. reflexivity.
Qed.

Print Assumptions C163_quantized_partial.
Print Assumptions C163_refused.
Print Assumptions C163_sums_fit.
Print Assumptions C163_overflow_refuted.
Print Assumptions C163_threads_refuted.
Print Assumptions C163_example.
