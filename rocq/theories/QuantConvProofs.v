(** Convolution of integers by im2col and the plain product. *)
From Coq Require Import List ZArith Bool Lia Ring QArith.
From Verif Require Import ShapeModel ShapeSpec ShapeProofs KernelBase KernelSpec KernelProofs LoopModel LoopProofs EltwiseModel
  GemmModel GemmSpec GemmProofs GemmPlainProofs ConvModel ConvSpec ConvProofs ResizeModel PosterProofs QuantConvModel.
Import ListNotations.
Local Open Scope Z_scope.

Lemma Zsemi : semi_ring_theory 0 1 Z.add Z.mul (@eq Z).
Proof. constructor; intros; ring. Qed.
Lemma eights_upto n : 0 <= n -> eights n = upto n.
Proof.
  intros H. unfold eights. assert (0 <= n / 8) by (apply Z.div_pos; lia). assert (n / 8 * 8 <= n) by (rewrite Z.mul_comm; apply Z.mul_div_le; lia).
  transitivity (upto (8 * (n / 8)) ++ map (fun k => n / 8 * 8 + k) (upto (n - n / 8 * 8))).
  - f_equal. rewrite upto_grid by lia. reflexivity.
  - replace (n / 8 * 8) with (8 * (n / 8)) by ring. rewrite <- upto_add by lia. f_equal. lia.
Qed.

(** the columns that the product reads *)
Lemma columns (x : Z -> sres Z) channels h wd kh kw oh ow win pv p image :
  0 <= channels -> 0 <= kh -> 0 <= kw -> 0 <= oh -> 0 <= ow ->
  forward win h wd kh kw = SOk (oh, ow) ->
  (forall c i j, 0 <= c < channels -> 0 <= i < h -> 0 <= j < wd -> x (c * (h * wd) + (i * wd + j)) = SOk (image c i j)) ->
  to_int8 pv = SOk p ->
  exists col,
    (if is_1x1 kh kw win then SOk x
     else bind (to_int8 pv) (fun p =>
          bind (im2col x channels h wd kh kw win p) (fun stores =>
          bind (exec (map Some (repeat 0 (Z.to_nat (channels * kh * kw * oh * ow)))) stores) (fun buffer => SOk (read buffer))))) = SOk col /\
    forall c r q i j, 0 <= c < channels -> 0 <= r < kh -> 0 <= q < kw -> 0 <= i < oh -> 0 <= j < ow ->
      col (((c * kh + r) * kw + q) * (oh * ow) + (i * ow + j)) =
      SOk (padded p h wd (image c) (i * stride_h win + r * dil_h win - top win) (j * stride_w win + q * dil_w win - left_ win)).
Proof.
  intros HC Hkh Hkw Hoh How Hf Hx Hp. rewrite Hp. cbn [bind]. destruct (is_1x1 kh kw win) eqn:E1.
    - exists x. split; [reflexivity|]. unfold is_1x1 in E1.
      repeat match type of E1 with (_ && _ = true) => apply andb_true_iff in E1; let E := fresh "E" in destruct E1 as [E1 E]; apply Z.eqb_eq in E end.
      apply Z.eqb_eq in E1. unfold forward, conv_size in Hf. rewrite E1, E6, E, E0, E2, E3 in Hf. cbn [Z.eqb bind] in Hf.
      injection Hf as Foh Fow. rewrite Z.quot_1_r in Foh, Fow.
      assert (oh = h) by (subst kh; lia). assert (ow = wd) by (subst kw; lia). subst oh ow.
      intros c r q i j Hc Hr Hq Hi Hj. assert (r = 0) by lia. assert (q = 0) by lia. subst r q kh kw.
      rewrite E1, E6, E0, E3. replace ((c * 1 + 0) * 1 + 0) with c by lia.
      replace (i * 1 + 0 * dil_h win - 0) with i by lia. replace (j * 1 + 0 * dil_w win - 0) with j by lia.
      unfold padded. destruct (Z.leb_spec 0 i), (Z.ltb_spec i h), (Z.leb_spec 0 j), (Z.ltb_spec j wd); try lia. cbn [andb].
      rewrite H, H0. apply Hx; lia.
    - destruct (im2col_ok 0 x channels h wd kh kw win p oh ow image (map Some (repeat 0 (Z.to_nat (channels * kh * kw * oh * ow))))) as (stores & buffer & E & E' & P); auto.
      { rewrite map_length, repeat_length. cbn [elements]. rewrite Z2Nat.id by (repeat apply Z.mul_nonneg_nonneg; assumption). ring. }
      rewrite E. cbn [bind]. rewrite E'. cbn [bind]. eexists. split; [reflexivity|].
      intros c r q i j Hc Hr Hq Hi Hj. unfold read. specialize (P c r q i j Hc Hr Hq Hi Hj).
      replace (position [channels; kh; kw; oh; ow] [c; r; q; i; j]) with (((c * kh + r) * kw + q) * (oh * ow) + (i * ow + j)) in P by (cbn [position elements]; ring).
      assert (El : load (map Some buffer) (((c * kh + r) * kw + q) * (oh * ow) + (i * ow + j)) = SOk (Some (padded p h wd (image c) (i * stride_h win + r * dil_h win - top win) (j * stride_w win + q * dil_w win - left_ win)))).
      { apply load_inv. split.
        - assert (0 <= c * kh) by nia. assert (0 <= (c * kh + r) * kw) by nia. assert (0 <= oh * ow) by nia. assert (0 <= i * ow) by nia. nia.
        - rewrite nth_error_map, P. reflexivity. }
      now rewrite El.
Qed.

(** one image: the cells of its part of the int32 buffer *)
Lemma quant_image_ok (x w : Z -> sres Z) channels h wd outs kh kw oh ow win pv p image A :
  0 <= channels -> 0 <= outs -> 0 <= kh -> 0 <= kw -> 0 <= oh -> 0 <= ow ->
  forward win h wd kh kw = SOk (oh, ow) ->
  (forall c i j, 0 <= c < channels -> 0 <= i < h -> 0 <= j < wd -> x (c * (h * wd) + (i * wd + j)) = SOk (image c i j)) ->
  (forall o k, 0 <= o < outs -> 0 <= k < channels * kh * kw -> w (o * (channels * kh * kw) + k) = SOk (A o k)) ->
  to_int8 pv = SOk p ->
  exists m, quant_image x w channels h wd outs kh kw oh ow win pv = SOk m /\
    forall o i j, 0 <= o < outs -> 0 <= i < oh -> 0 <= j < ow ->
      read m (o * (oh * ow) + (i * ow + j)) = SOk (conv_at 0 Z.add Z.mul A image channels h wd kh kw p win o i j).
Proof.
  intros HC HO Hkh Hkw Hoh How Hf Hx Hw Hp. unfold quant_image.
  destruct (columns x channels h wd kh kw oh ow win pv p image HC Hkh Hkw Hoh How Hf Hx Hp) as (col & -> & Pcol). cbn [bind].
  assert (HN : 0 <= oh * ow) by nia. assert (HK : 0 <= channels * kh * kw) by (repeat apply Z.mul_nonneg_nonneg; assumption).
  set (K := channels * kh * kw) in *. set (N := oh * ow) in *.
  destruct (row_major_ok 0 1 Z.add Z.mul Zsemi ltac:(discriminate) Z.eqb Z.eqb_refl false false false outs N K 1 w K col N 0 (fresh (outs * N)) N
     A (fun k n => match col (k * N + n) with SOk v => v | _ => 0 end) (fun _ _ => 0)) as (pr & m & E1 & E2 & G & S).
  - exact HO.
  - exact HN.
  - exact HK.
  - lia.
  - lia.
  - lia.
  - exact Hw.
  - cbn iota. intros k n Hk Hn. unfold K, N in Hk, Hn. assert (0 < ow) by nia. assert (0 < kw) by nia. assert (0 < kh) by nia.
    assert (Hc : 0 <= k / kw / kh < channels /\ 0 <= (k / kw) mod kh < kh /\ 0 <= k mod kw < kw).
    { split; [|split; apply Z.mod_pos_bound; lia]. split; [apply Z.div_pos; [apply Z.div_pos; lia|lia]|].
      apply Z.div_lt_upper_bound; [lia|]. apply Z.div_lt_upper_bound; [lia|]. nia. }
    assert (Hn' : 0 <= n / ow < oh /\ 0 <= n mod ow < ow).
    { split; [|apply Z.mod_pos_bound; lia]. split; [apply Z.div_pos; lia|apply Z.div_lt_upper_bound; nia]. }
    destruct Hc as (C1 & C2 & C3), Hn' as (N1 & N2).
    pose proof (Pcol _ _ _ _ _ C1 C2 C3 N1 N2) as P. fold N in P.
    replace ((k / kw / kh * kh + (k / kw) mod kh) * kw + k mod kw) with k in P
      by (rewrite (Z.mul_comm (k / kw / kh) kh), <- (Z.div_mod (k / kw) kh) by lia; rewrite (Z.mul_comm (k / kw) kw), <- (Z.div_mod k kw) by lia; reflexivity).
    replace (n / ow * ow + n mod ow) with n in P by (rewrite (Z.mul_comm (n / ow) ow), <- (Z.div_mod n ow) by lia; reflexivity).
    now rewrite P.
  - intros i j Hi Hj. unfold fresh. rewrite repeat_length. rewrite Z2Nat.id by nia. split; [nia|]. nia.
  - left. reflexivity.
  - intros H. discriminate H.
  - intros H. discriminate H.
  - intros _. reflexivity.
  - rewrite E1. exists m. split; [exact E2|]. intros o i j Ho Hi Hj.
    assert (Bn : 0 <= i * ow + j < N) by (unfold N; nia).
    specialize (G o (i * ow + j) Ho Bn). unfold read.
    assert (El : load m (o * N + (i * ow + j)) = SOk (Some (1 * sums 0 Z.add (fun k => A o k * match col (k * N + (i * ow + j)) with SOk v => v | _ => 0 end) (upto K) + 0 * 0))).
    { apply load_inv. split; [nia|exact G]. }
    rewrite El. f_equal. rewrite Z.mul_1_l, Z.mul_0_l, Z.add_0_r.
    change (sums 0 Z.add (fun k => A o k * match col (k * N + (i * ow + j)) with SOk v => v | _ => 0 end) (upto K))
      with (sum_of 0 Z.add K (fun k => A o k * match col (k * N + (i * ow + j)) with SOk v => v | _ => 0 end)).
    unfold conv_at, K. replace (channels * kh * kw) with (channels * (kh * kw)) by ring. rewrite (sum_mul 0 1 Z.add Z.mul Zsemi) by (try assumption; nia).
    apply (sum_ext 0 Z.add). intros c Hc. rewrite (sum_mul 0 1 Z.add Z.mul Zsemi) by assumption.
    apply (sum_ext 0 Z.add). intros r Hr. apply (sum_ext 0 Z.add). intros q Hq.
    replace (c * (kh * kw) + (r * kw + q)) with ((c * kh + r) * kw + q) by ring.
    pose proof (Pcol c r q _ _ Hc Hr Hq Hi Hj) as P. fold N in P. now rewrite P.
Qed.

(** dequantising in turn *)
Lemma dequantize_ok {F} (of_int : Z -> F) (mul : F -> F -> F) m scales area outs value (dflt : F) :
  0 <= outs -> 0 <= area -> Z.of_nat (length scales) = outs ->
  (forall o k, 0 <= o < outs -> 0 <= k < area -> read m (o * area + k) = SOk (value o k)) ->
  dequantize_image of_int mul (upto outs) m scales area =
  SOk (flat_map (fun o => map (fun k => mul (of_int (value o k)) (nth (Z.to_nat o) scales dflt)) (upto area)) (upto outs)).
Proof.
  intros HO HA HL Hm. unfold dequantize_image.
  assert (E : each (map (dequantize_channel of_int mul m scales area) (upto outs)) =
    SOk (map (fun o => map (fun k => mul (of_int (value o k)) (nth (Z.to_nat o) scales dflt)) (upto area)) (upto outs))).
  { apply each_ok. intros o Ho. apply In_upto in Ho. unfold dequantize_channel.
    assert (El : load scales o = SOk (nth (Z.to_nat o) scales dflt)) by (apply load_inv; split; [lia|apply nth_error_nth'; lia]).
    rewrite El. cbn [bind]. rewrite eights_upto by exact HA. apply each_ok. intros k Hk. apply In_upto in Hk.
    rewrite Hm by assumption. reflexivity. }
  rewrite E. cbn [bind]. rewrite <- flat_map_concat_map. reflexivity.
Qed.
