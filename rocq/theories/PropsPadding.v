(** C148: the padding that the operators taken from other frameworks compute. *)
From Coq Require Import List ZArith Bool Lia.
From Verif Require Import ShapeModel KernelBase KernelProofs ConvModel PoolingModel DeconvModel ZooModel PropsDivided PaddingModel PaddingSpec.
Import ListNotations.
Local Open Scope Z_scope.

(** what the code computes with floats *)
Lemma ceil_div_float n s : 0 < n <= p24 -> 0 < s <= p24 -> ceil_div n s = SOk (ceil (float_div (float_of n) (float_of s))).
Proof.
  intros Hn Hs. unfold ceil_div. rewrite (proj2 (Z.leb_gt s 0)) by lia. rewrite !float_of_exact by lia. f_equal. symmetry. apply float_ceil; [lia|lia|].
  pose proof (Z.div_mod (- n) s ltac:(lia)). pose proof (Z.mod_pos_bound (- n) s ltac:(lia)). nia.
Qed.

Lemma ceil_div_ok n s : 0 < s -> exists q, ceil_div n s = SOk q /\ one_per_stride n s q.
Proof.
  intros Hs. unfold ceil_div. rewrite (proj2 (Z.leb_gt s 0)) by lia. eexists. split; [reflexivity|]. unfold one_per_stride.
  pose proof (Z.div_mod (- n) s ltac:(lia)). pose proof (Z.mod_pos_bound (- n) s ltac:(lia)). nia.
Qed.
Lemma floor_div_ok n s : 0 < s -> exists q, floor_div n s = SOk q /\ q * s <= n < (q + 1) * s.
Proof.
  intros Hs. unfold floor_div. rewrite (proj2 (Z.leb_gt s 0)) by lia. eexists. split; [reflexivity|].
  pose proof (Z.div_mod n s ltac:(lia)). pose proof (Z.mod_pos_bound n s ltac:(lia)). nia.
Qed.

Lemma conv_size_exact x b a k s d q : 0 < s -> x + b + a = (q - 1) * s + (d * (k - 1) + 1) -> conv_size x b a k s d = SOk q.
Proof.
  intros Hs H. unfold conv_size. rewrite (proj2 (Z.eqb_neq s 0)) by lia. rewrite H.
  replace ((q - 1) * s + (d * (k - 1) + 1) - (d * (k - 1) + 1)) with ((q - 1) * s) by ring. rewrite Z.quot_mul by lia. f_equal. lia.
Qed.
Lemma pool_size_exact x b a k s q : 0 < s -> x + b + a = (q - 1) * s + k -> pool_size x b a k s = SOk q.
Proof.
  intros Hs H. unfold pool_size. rewrite (proj2 (Z.eqb_neq s 0)) by lia. rewrite H.
  replace (- ((q - 1) * s + k - k)) with ((1 - q) * s) by ring. rewrite Z.div_mul by lia. f_equal. lia.
Qed.

(** the padding added to (before, after) is shared evenly, the odd pixel at the end *)
Definition evenly (before after b a : Z) : Prop := 0 <= b - before <= a - after /\ a - after <= b - before + 1.

(** what a padding of (b, a) for an axis of [x] pixels with a static padding
    achieves, for a convolution whose kernel spreads over [d * (k - 1) + 1] *)
Definition conv_axis (same : bool) (x before after k s d b a : Z) : Prop :=
  let n := x + before + after in let dk := d * (k - 1) + 1 in
  exists q, conv_size x b a k s d = SOk q /\
    if same then one_per_stride n s q /\ (s <= dk -> evenly before after b a /\ b + a - before - after = (q - 1) * s + dk - n)
    else as_fit n dk s q /\ b = before /\ a <= after.

Definition pool_axis (m : scheme) (x before after k s b a : Z) : Prop :=
  let n := x + before + after in
  exists q, pool_size x b a k s = SOk q /\
    match m with
    | NotSet | Valid => as_fit n k s q /\ b = before /\ a <= after
    | SameUpper => one_per_stride n s q /\ (s <= k -> evenly before after b a)
    | SameLower => one_per_stride n s q /\ (s <= k -> evenly after before a b)
    end.

Lemma halves t : 0 <= t -> 0 <= Z.quot t 2 <= t - Z.quot t 2 /\ t - Z.quot t 2 <= Z.quot t 2 + 1.
Proof. intro H. Z.to_euclidean_division_equations; lia. Qed.

Lemma tf_conv_axis (same : bool) x before after k s d : 0 < s -> 0 < k -> 0 < d -> 0 < x + before + after ->
  (same = false -> d * (k - 1) + 1 <= x + before + after) ->
  exists b a, (if same then tf_conv_same else tf_conv_valid) x before after k s d = SOk (b, a) /\ conv_axis same x before after k s d b a.
Proof.
  intros Hs Hk Hd Hn Hv. set (n := x + before + after) in *. unfold conv_axis. fold n. destruct same.
  - unfold tf_conv_same. fold n. destruct (ceil_div_ok n s Hs) as (q & -> & Q). cbn [bind]. cbv zeta. unfold backward_size.
    set (dk := d * (k - 1) + 1) in *. set (t := (q - 1) * s + dk - before - after - x). eexists _, _. split; [reflexivity|].
    exists q. split; [apply conv_size_exact; [exact Hs|]; fold dk; unfold t; lia|]. split; [exact Q|]. intro Hsk.
    unfold one_per_stride in Q. assert (Ht : 0 <= t) by (unfold t; unfold n in *; nia). pose proof (halves t Ht). unfold evenly. split; [lia|]. unfold t, n. lia.
  - specialize (Hv eq_refl). unfold tf_conv_valid. fold n. cbv zeta. set (dk := d * (k - 1) + 1) in *. replace ((k - 1) * d + 1) with dk by (unfold dk; ring).
    destruct (ceil_div_ok (n - dk + 1) s Hs) as (q & -> & Q). cbn [bind]. eexists _, _. split; [reflexivity|]. unfold backward_size. fold dk.
    unfold one_per_stride in Q. exists q. split; [apply conv_size_exact; [exact Hs|]; fold dk; lia|]. unfold as_fit. unfold n in *. split; [lia|]. split; [reflexivity|]. lia.
Qed.

Lemma pool_axis_ok m x before after k s : 0 < s -> 0 < k -> 0 < x + before + after ->
  (m = Valid \/ m = NotSet -> k <= x + before + after) ->
  exists b a, onnx_pool m x before after k s = SOk (b, a) /\ pool_axis m x before after k s b a.
Proof.
  intros Hs Hk Hn Hv. set (n := x + before + after) in *. unfold pool_axis. fold n. destruct m; cbn [onnx_pool].
  - specialize (Hv (or_intror eq_refl)). unfold pool_notset. rewrite (proj2 (Z.eqb_neq s 0)) by lia. fold n. eexists _, _. split; [reflexivity|].
    assert (R : Z.rem (n - k) s = (n - k) mod s) by (apply Z.rem_mod_nonneg; lia). rewrite R.
    pose proof (Z.div_mod (n - k) s ltac:(lia)) as D. pose proof (Z.mod_pos_bound (n - k) s ltac:(lia)) as B. exists ((n - k) / s + 1).
    set (q := (n - k) / s) in *. set (r := (n - k) mod s) in *. clearbody q r.
    split; [apply pool_size_exact; [exact Hs|]; unfold n in *; lia|]. unfold as_fit. split; [lia|]. split; [reflexivity|lia].
  - specialize (Hv (or_introl eq_refl)). unfold pool_valid. fold n. destruct (ceil_div_ok (n - k + 1) s Hs) as (q & -> & Q). cbn [bind].
    eexists _, _. split; [reflexivity|]. unfold pool_backward. unfold one_per_stride in Q. exists q. split; [apply pool_size_exact; [exact Hs|]; unfold n in *; lia|].
    unfold as_fit. unfold n in *. split; [lia|]. split; [reflexivity|]. lia.
  - unfold pool_same_upper. fold n. destruct (ceil_div_ok n s Hs) as (q & -> & Q). cbn [bind]. cbv zeta. unfold pool_backward.
    set (t := (q - 1) * s + k - before - after - x). eexists _, _. split; [reflexivity|].
    exists q. split; [apply pool_size_exact; [exact Hs|]; unfold t; lia|]. split; [exact Q|]. intro Hsk.
    unfold one_per_stride in Q. assert (Ht : 0 <= t) by (unfold t; unfold n in *; nia). pose proof (halves t Ht). unfold evenly. lia.
  - unfold pool_same_lower. fold n. destruct (ceil_div_ok n s Hs) as (q & -> & Q). cbn [bind]. cbv zeta. unfold pool_backward.
    set (t := (q - 1) * s + k - before - after - x). eexists _, _. split; [reflexivity|].
    exists q. split; [apply pool_size_exact; [exact Hs|]; unfold t; lia|]. split; [exact Q|]. intro Hsk.
    unfold one_per_stride in Q. assert (Ht : 0 <= t) by (unfold t; unfold n in *; nia). pose proof (halves t Ht). unfold evenly. lia.
Qed.

(** four sizes in the order of a format *)
Definition placed (f : format) (n c h w : Z) : list Z := match f with NCHW => [n; c; h; w] | NHWC => [n; h; w; c] end.

Lemma spatial_placed f n c h w : spatial f (placed f n c h w) = SOk (h, w).
Proof. destruct f; reflexivity. Qed.
Lemma static_layout f h w : static_of f (layout f h w) = SOk (h, w).
Proof. destruct f, h, w; reflexivity. Qed.
Lemma accepted_layout f h w : padding_accepted f (layout f h w) = true.
Proof. destruct f; reflexivity. Qed.
Lemma ones_placed f h w : ones_accepted f (placed f 1 1 h w) = true.
Proof. destruct f; reflexivity. Qed.

(** *** Convolutions of TensorFlow *)
(** With VALID a convolution with the computed padding has as many windows as
    fit; with SAME one for every stride, the padding shared evenly.  Missing:
    NHWC is accepted only for kernels as high as the image
    (C148_nhwc_refuted); a stride of two more than the kernel
    (C148_stride_refuted). *)
Theorem C148_tf_conv_partial (same : bool) f n c c' o h w kh kw sh sw dh dw pt pb pl pr t :
  0 < kh -> 0 < kw -> 0 < sh -> 0 < sw -> 0 < dh -> 0 < dw -> 0 < h + pt + pb -> 0 < w + pl + pr ->
  (same = false -> dh * (kh - 1) + 1 <= h + pt + pb /\ dw * (kw - 1) + 1 <= w + pl + pr) ->
  match f with NCHW => c' = c | NHWC => kh = h end ->
  exists top bottom left_ right_,
    tf_conv_padding same f (layout f (pt, pb) (pl, pr)) (placed f 1 1 dh dw) (placed f 1 1 sh sw) t t (placed f n c h w) (placed f o c' kh kw)
    = SOk (layout f (top, bottom) (left_, right_)) /\
    conv_axis same h pt pb kh sh dh top bottom /\ conv_axis same w pl pr kw sw dw left_ right_.
Proof.
  intros Hkh Hkw Hsh Hsw Hdh Hdw Hh Hw Hv Hc.
  destruct (tf_conv_axis same h pt pb kh sh dh) as (top & bottom & E1 & A1); [lia..|intro E; apply Hv; exact E|].
  destruct (tf_conv_axis same w pl pr kw sw dw) as (l & r & E2 & A2); [lia..|intro E; apply Hv; exact E|].
  exists top, bottom, l, r. split; [|auto]. unfold tf_conv_padding, conv_padding.
  assert (L8 : Z.of_nat (length (layout f (pt, pb) (pl, pr))) = 8) by (destruct f; reflexivity).
  assert (L4 : forall a b c d, Z.of_nat (length (placed f a b c d)) = 4) by (intros; destruct f; reflexivity).
  rewrite L8, !L4, accepted_layout, !ones_placed, !Z.eqb_refl. cbn [andb negb].
  assert (E : nth 1 (placed f o c' kh kw) 0 = nth 1 (placed f n c h w) 0) by (destruct f; cbn; exact Hc). rewrite E, Z.eqb_refl. cbn [negb].
  rewrite static_layout. unfold bind at 1. rewrite (spatial_placed f 1 1 dh dw). unfold bind at 1. rewrite (spatial_placed f 1 1 sh sw). unfold bind at 1.
  rewrite (spatial_placed f n c h w). unfold bind at 1. rewrite (spatial_placed f o c' kh kw). unfold bind at 1. cbn [fst snd]. rewrite E1. unfold bind at 1. rewrite E2. reflexivity.
Qed.
Print Assumptions C148_tf_conv_partial.

(** A kernel of one pixel, a stride of three and six pixels: the padding of
    SAME starts at -1, so the windows are at 1 and 4 where TensorFlow has them
    at 0 and 3. *)
Theorem C148_stride_refuted :
  tf_conv_same 6 0 0 1 3 1 = SOk (-1, -1) /\ conv_size 6 (-1) (-1) 1 3 1 = SOk 2 /\ Z.max 0 ((2 - 1) * 3 + 1 - 6) = 0.
Proof. repeat split. Qed.
Print Assumptions C148_stride_refuted.

(** NHWC: any kernel that is not as high as the image is refused. *)
Theorem C148_nhwc_refuted axis padding dilation stride t n c o c' h w kh kw : kh <> h ->
  conv_padding axis NHWC padding dilation stride t t [n; h; w; c] [o; kh; kw; c'] = SErr.
Proof.
  intro H. unfold conv_padding. destruct (negb _); [reflexivity|]. destruct (negb _); [reflexivity|]. destruct (negb _); [reflexivity|].
  cbn [nth]. now rewrite (proj2 (Z.eqb_neq kh h)) by exact H.
Qed.
Print Assumptions C148_nhwc_refuted.

(** A padding of the batch, and a stride over the channels, are accepted and
    dropped: one zero (one) among the numbers is enough. *)
Theorem C148_checks_refuted :
  tf_conv_padding false NCHW [5; 5; 5; 0; 0; 0; 0; 0] [1; 7; 1; 1] [7; 1; 1; 1] 10 10 [1; 1; 3; 3] [1; 1; 1; 1] = SOk [0; 0; 0; 0; 0; 0; 0; 0].
Proof. reflexivity. Qed.
Print Assumptions C148_checks_refuted.

(** *** Pooling *)
Section Pooling.
Variable axis : Z -> Z -> Z -> Z -> Z -> sres (Z * Z).

Lemma pool_padding_ok checked f n c n' c' n'' c'' h w kh kw sh sw pt pb pl pr th bh l r :
  axis h pt pb kh sh = SOk (th, bh) -> axis w pl pr kw sw = SOk (l, r) ->
  pool_padding axis checked f (layout f (pt, pb) (pl, pr)) (placed f n c h w) (placed f n' c' kh kw) (placed f n'' c'' sh sw)
  = SOk (layout f (th, bh) (l, r)).
Proof.
  intros E1 E2. unfold pool_padding. assert (L8 : Z.of_nat (length (layout f (pt, pb) (pl, pr))) = 8) by (destruct f; reflexivity).
  rewrite L8, accepted_layout. cbn [Z.eqb Pos.eqb negb]. rewrite andb_false_r. rewrite static_layout. unfold bind at 1. rewrite (spatial_placed f n' c' kh kw). unfold bind at 1.
  rewrite (spatial_placed f n'' c'' sh sw). unfold bind at 1. rewrite (spatial_placed f n c h w). unfold bind at 1. cbn [fst snd]. rewrite E1. unfold bind at 1. rewrite E2. reflexivity.
Qed.
End Pooling.

(** TensorFlow: SAME puts the odd pixel at the end. *)
Theorem C148_tf_pool_partial (same : bool) f n c n' c' n'' c'' h w kh kw sh sw pt pb pl pr :
  0 < kh -> 0 < kw -> 0 < sh -> 0 < sw -> 0 < h + pt + pb -> 0 < w + pl + pr ->
  (same = false -> kh <= h + pt + pb /\ kw <= w + pl + pr) ->
  exists top bottom left_ right_,
    tf_pool_padding same f (layout f (pt, pb) (pl, pr)) (placed f n c h w) (placed f n' c' kh kw) (placed f n'' c'' sh sw)
    = SOk (layout f (top, bottom) (left_, right_)) /\
    pool_axis (if same then SameUpper else Valid) h pt pb kh sh top bottom /\ pool_axis (if same then SameUpper else Valid) w pl pr kw sw left_ right_.
Proof.
  intros. set (m := if same then SameUpper else Valid).
  assert (Hm : m = Valid \/ m = NotSet -> same = false) by (unfold m; destruct same; [intros [?|?]; discriminate|reflexivity]).
  destruct (pool_axis_ok m h pt pb kh sh) as (top & bottom & E1 & A1); [lia..|intro E; apply Hm in E; tauto|].
  destruct (pool_axis_ok m w pl pr kw sw) as (l & r & E2 & A2); [lia..|intro E; apply Hm in E; tauto|].
  exists top, bottom, l, r. split; [|auto]. unfold tf_pool_padding. apply pool_padding_ok; [rewrite <- E1|rewrite <- E2]; unfold m; destruct same; reflexivity.
Qed.
Print Assumptions C148_tf_pool_partial.

(** ONNX: NOTSET and VALID give as many windows as fit, SAME_UPPER and
    SAME_LOWER one per stride with the odd pixel at the end and at the start. *)
Theorem C148_onnx_pool_partial m n c n' c' n'' c'' h w kh kw sh sw pt pb pl pr :
  0 < kh -> 0 < kw -> 0 < sh -> 0 < sw -> 0 < h + pt + pb -> 0 < w + pl + pr ->
  (m = Valid \/ m = NotSet -> kh <= h + pt + pb /\ kw <= w + pl + pr) ->
  exists top bottom left_ right_,
    onnx_pool_padding m (layout NCHW (pt, pb) (pl, pr)) [n; c; h; w] [n'; c'; kh; kw] [n''; c''; sh; sw]
    = SOk (layout NCHW (top, bottom) (left_, right_)) /\
    pool_axis m h pt pb kh sh top bottom /\ pool_axis m w pl pr kw sw left_ right_.
Proof.
  intros.
  destruct (pool_axis_ok m h pt pb kh sh) as (top & bottom & E1 & A1); [lia..|tauto|].
  destruct (pool_axis_ok m w pl pr kw sw) as (l & r & E2 & A2); [lia..|tauto|].
  exists top, bottom, l, r. split; [|auto]. exact (pool_padding_ok _ false NCHW n c n' c' n'' c'' h w kh kw sh sw pt pb pl pr _ _ _ _ E1 E2).
Qed.
Print Assumptions C148_onnx_pool_partial.

(** MXNet: valid gives as many windows as fit, otherwise the padding is kept. *)
Theorem C148_mx_pool_partial (valid : bool) f n c n' c' n'' c'' h w kh kw sh sw pt pb pl pr :
  0 < kh -> 0 < kw -> 0 < sh -> 0 < sw -> kh <= h + pt + pb -> kw <= w + pl + pr ->
  exists top bottom left_ right_,
    mx_pool_padding valid f (layout f (pt, pb) (pl, pr)) (placed f n c h w) (placed f n' c' kh kw) (placed f n'' c'' sh sw)
    = SOk (layout f (top, bottom) (left_, right_)) /\
    if valid then pool_axis NotSet h pt pb kh sh top bottom /\ pool_axis NotSet w pl pr kw sw left_ right_
    else (top, bottom, left_, right_) = (pt, pb, pl, pr).
Proof.
  intros. destruct valid.
  - destruct (pool_axis_ok NotSet h pt pb kh sh) as (top & bottom & E1 & A1); [lia..|tauto|].
    destruct (pool_axis_ok NotSet w pl pr kw sw) as (l & r & E2 & A2); [lia..|tauto|].
    exists top, bottom, l, r. split; [|auto]. now apply pool_padding_ok.
  - exists pt, pb, pl, pr. split; [|reflexivity]. now apply pool_padding_ok.
Qed.
Print Assumptions C148_mx_pool_partial.

(** A kernel larger than the padded image has no window that fits, but NOTSET
    (and MXNet's valid) pads the image until it has one. *)
Theorem C148_too_large_refuted : pool_notset 1 0 0 2 2 = SOk (0, 1) /\ pool_size 1 0 1 2 2 = SOk 1 /\ as_fit 1 2 2 0.
Proof. split; [reflexivity|]. split; [reflexivity|]. unfold as_fit. lia. Qed.
Print Assumptions C148_too_large_refuted.

(** *** Dragon *)
Definition dragon_axis (m : scheme) (ceil_mode : bool) (x before after k s b a : Z) : Prop :=
  let n := x + before + after in
  exists q, pool_size x b a k s = SOk q /\
    match m with
    | NotSet | Valid => b = before /\ (if ceil_mode then as_cover n k s q else as_fit n k s q)
    | SameUpper => one_per_stride x s q /\ (s <= k -> evenly 0 0 b a)
    | SameLower => one_per_stride x s q /\ (s <= k -> evenly 0 0 a b)
    end.

Lemma dragon_axis_ok m (ceil_mode : bool) x before after k s : 0 < s -> 0 < k -> 0 < x -> k <= x + before + after ->
  exists b a, dragon_pool m ceil_mode x before after k s = SOk (b, a) /\ dragon_axis m ceil_mode x before after k s b a.
Proof.
  intros Hs Hk Hx Hn. set (n := x + before + after) in *. unfold dragon_axis. fold n.
  assert (V : exists b a, bind (dragon_forward_valid x before after k s ceil_mode) (fun y => SOk (before, after + pool_backward y before after k s - x)) = SOk (b, a) /\
    exists q, pool_size x b a k s = SOk q /\ b = before /\ (if ceil_mode then as_cover n k s q else as_fit n k s q)).
  { unfold dragon_forward_valid. fold n. destruct ceil_mode.
    - destruct (ceil_div_ok (n - k) s Hs) as (q & -> & Q). unfold one_per_stride in Q. cbn [bind]. cbv zeta. replace (q + 1 - 1) with q by lia.
      destruct (Z.leb_spec n (q * s)) as [H|H]; eexists _, _; (split; [reflexivity|]); eexists; unfold pool_backward.
      + split; [apply pool_size_exact with (q := q); [exact Hs|]; lia|]. split; [reflexivity|]. unfold as_cover. split; [lia|]. split; [lia|]. intro. nia.
      + split; [apply pool_size_exact with (q := q + 1); [exact Hs|]; lia|]. split; [reflexivity|]. unfold as_cover. split; [lia|]. split; [nia|]. intro. nia.
    - destruct (floor_div_ok (n - k) s Hs) as (q & -> & Q). cbn [bind]. cbv zeta. replace (q + 1 - 1) with q by lia.
      rewrite (proj2 (Z.leb_gt n (q * s))) by lia. eexists _, _. split; [reflexivity|]. exists (q + 1). unfold pool_backward.
      split; [apply pool_size_exact; [exact Hs|]; lia|]. split; [reflexivity|]. unfold as_fit. lia. }
  assert (S2 : forall up : bool, exists b a, bind (floor_div (x + s - 1) s) (fun odm =>
      let needed := Z.max 0 ((odm - 1) * s + k - x) in
      let pad_l := if up then Z.quot needed 2 else needed - Z.quot needed 2 in
      bind (ceil_div x s) (fun y => SOk (pad_l, before + after + (pool_backward y before after k s - x - pad_l)))) = SOk (b, a) /\
    exists q, pool_size x b a k s = SOk q /\ one_per_stride x s q /\ (s <= k -> if up then evenly 0 0 b a else evenly 0 0 a b)).
  { intro up. destruct (floor_div_ok (x + s - 1) s Hs) as (odm & -> & Q1). cbn [bind]. cbv zeta. destruct (ceil_div_ok x s Hs) as (q & -> & Q). cbn [bind].
    assert (E : odm = q) by (unfold one_per_stride in Q; nia). subst odm. set (t := Z.max 0 ((q - 1) * s + k - x)).
    eexists _, _. split; [reflexivity|]. exists q. unfold pool_backward. split; [apply pool_size_exact; [exact Hs|]; lia|]. split; [exact Q|]. intro Hsk.
    unfold one_per_stride in Q. assert (Ht : t = (q - 1) * s + k - x) by (unfold t; nia). assert (Ht0 : 0 <= t) by (unfold t; lia). pose proof (halves t Ht0).
    unfold evenly. destruct up; lia. }
  destruct m; cbn [dragon_pool].
  - exact V.
  - exact V.
  - exact (S2 true).
  - exact (S2 false).
Qed.

(** Dragon's pooling: VALID covers the image in ceil mode and has the windows
    that fit otherwise; SAME ignores the static padding. *)
Theorem C148_dragon_pool m (ceil_mode : bool) n c n' c' n'' c'' h w kh kw sh sw pt pb pl pr :
  0 < kh -> 0 < kw -> 0 < sh -> 0 < sw -> 0 < h -> 0 < w -> kh <= h + pt + pb -> kw <= w + pl + pr ->
  exists top bottom left_ right_,
    dragon_pool_padding m ceil_mode (layout NCHW (pt, pb) (pl, pr)) [n; c; h; w] [n'; c'; kh; kw] [n''; c''; sh; sw]
    = SOk (layout NCHW (top, bottom) (left_, right_)) /\
    dragon_axis m ceil_mode h pt pb kh sh top bottom /\ dragon_axis m ceil_mode w pl pr kw sw left_ right_.
Proof.
  intros.
  destruct (dragon_axis_ok m ceil_mode h pt pb kh sh) as (top & bottom & E1 & A1); [lia..|].
  destruct (dragon_axis_ok m ceil_mode w pl pr kw sw) as (l & r & E2 & A2); [lia..|].
  exists top, bottom, l, r. split; [|auto]. exact (pool_padding_ok _ false NCHW n c n' c' n'' c'' h w kh kw sh sw pt pb pl pr _ _ _ _ E1 E2).
Qed.
Print Assumptions C148_dragon_pool.

(** Dragon's convolution, SAME, without dilation: one window per stride.
    Missing: SAME_UPPER and SAME_LOWER are interchanged and dilations are
    forgotten (C148_dragon_conv_refuted). *)
Theorem C148_dragon_conv_partial m x before after k s : 0 < s -> 0 < k -> 0 < x -> m = SameUpper \/ m = SameLower ->
  exists b a q, dragon_conv m x before after k s 1 = SOk (b, a) /\ conv_size x b a k s 1 = SOk q /\ one_per_stride x s q /\
    (s <= k -> if match m with SameUpper => true | _ => false end then evenly 0 0 a b else evenly 0 0 b a).
Proof.
  intros Hs Hk Hx Hm. destruct (floor_div_ok (x + s - 1) s Hs) as (q & E & Q).
  assert (P : one_per_stride x s q) by (unfold one_per_stride; nia).
  set (t := Z.max 0 ((q - 1) * s + k - x)).
  assert (Ht : s <= k -> t = (q - 1) * s + k - x) by (intro; unfold t; unfold one_per_stride in P; nia).
  assert (Ht0 : 0 <= t) by (unfold t; lia). pose proof (halves t Ht0).
  destruct Hm as [-> | ->]; cbn [dragon_conv]; rewrite E; cbn [bind]; cbv zeta; unfold pool_backward;
    replace ((q - 1) * s + (1 * (k - 1) + 1) - x) with ((q - 1) * s + k - x) by ring; fold t; eexists _, _, q; (split; [reflexivity|]);
    (split; [apply conv_size_exact; [exact Hs|]; lia|]); (split; [exact P|]); intro Hsk; specialize (Ht Hsk); unfold evenly; lia.
Qed.
Print Assumptions C148_dragon_conv_partial.

Theorem C148_dragon_conv_refuted :
  (dragon_conv SameUpper 4 0 0 2 1 1 = SOk (1, 0) /\ dragon_conv SameLower 4 0 0 2 1 1 = SOk (0, 1)) /\
  (dragon_conv SameLower 5 0 0 3 1 2 = SOk (2, 0) /\ conv_size 5 2 0 3 1 2 = SOk 3).
Proof. repeat split. Qed.
Print Assumptions C148_dragon_conv_refuted.

Example C148_example : tf_conv_padding true NCHW [0; 0; 0; 0; 0; 0; 0; 0] [1; 1; 1; 1] [1; 1; 2; 2] 10 10 [1; 3; 224; 224] [8; 3; 3; 3] = SOk [0; 0; 0; 0; 0; 1; 0; 1].
Proof. reflexivity. Qed.
