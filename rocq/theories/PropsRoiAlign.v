(** C161: roi_align. *)
From Coq Require Import List ZArith Bool QArith Qround Qminmax Lia Lqa.
From Verif Require Import ShapeModel ShapeSpec ShapeProofs KernelBase KernelSpec KernelProofs LoopModel LoopProofs ResizeModel ResizeSpec ResizeProofs NmsModel NmsProofs DetectSpec DetectProofs WinogradProofs PropsPatch RoiAlignModel RoiAlignSpec RoiAlignProofs.
Import ListNotations.
Local Open Scope Z_scope.

(** the number of an image, as a float: the fraction is dropped *)
Definition dropped (v : Q) (b : Z) : Prop := ((0 <= v -> inject_Z b <= v /\ v < inject_Z b + 1) /\ (v < 0 -> inject_Z b - 1 < v /\ v <= inject_Z b))%Q.
Lemma dropped_ok v : dropped v (truncate v).
Proof.
  split; intros H.
  - rewrite truncate_pos by exact H. exact (floor_bounds v).
  - rewrite truncate_neg by exact H. unfold Qceiling. destruct (floor_bounds (- v)). rewrite inject_Z_opp. split; lra.
Qed.
Lemma at_elt (x : tensor Q) n c h w N C H W : wf x -> t_shape x = [N; C; H; W] -> 0 <= n < N -> 0 <= c < C -> 0 <= h < H -> 0 <= w < W ->
  elt x [n; c; h; w] = Some (at_ (t_data x) (n * (C * (H * W)) + c * (H * W) + (h * W + w))).
Proof.
  intros (W1 & W2) S Hn Hc Hh Hw. unfold elt. rewrite S in *. cbn [position elements] in *.
  replace (n * (C * (H * (W * 1))) + (c * (H * (W * 1)) + (h * (W * 1) + (w * 1 + 0)))) with (n * (C * (H * W)) + c * (H * W) + (h * W + w)) by ring.
  assert (B1 : 0 <= h * W + w <= H * W - 1) by nia. assert (B2 : 0 <= c * (H * W) + (h * W + w) <= C * (H * W) - 1) by nia.
  set (k := c * (H * W) + (h * W + w)) in *. set (m := C * (H * W)) in *. assert (B3 : 0 <= n * m + k <= N * m - 1) by nia.
  replace (n * m + c * (H * W) + (h * W + w)) with (n * m + k) by (unfold k; ring).
  assert (L : Z.of_nat (length (t_data x)) = N * m) by (rewrite W2; unfold m; ring).
  destruct (nth_error (t_data x) (Z.to_nat (n * m + k))) eqn:E; [|apply nth_error_None in E; lia]. f_equal. unfold at_. symmetry. now apply nth_error_nth.
Qed.

Section RoiAlign.
Variables (o : options) (x rois : tensor Q) (N C H W num : Z).
(** the box of number n *)
Definition roi (n k : Z) : Q := at_ (t_data rois) (n * 5 + k).
Record fits : Prop := {
  f_pools : 1 <= pool_h o /\ 1 <= pool_w o;
  f_types : t_dtype x = float32 /\ t_dtype rois = float32;
  f_x : wf x; f_shape : t_shape x = [N; C; H; W]; f_sizes : 1 <= N /\ 1 <= H /\ 1 <= W;
  f_rois : wf rois; f_num : t_shape rois = [num; 5];
  f_images : forall n, 0 <= n < num -> (roi n 0 < inject_Z N)%Q }.
Hypothesis F : fits.

Lemma rois_len : 0 <= num /\ Z.of_nat (length (t_data rois)) = num * 5.
Proof. destruct (f_rois F) as (A & B). rewrite (f_num F) in *. cbn [elements] in B. split; [apply (Forall_inv A)|lia]. Qed.
Lemma box_ok n : 0 <= n < num -> box_of (t_data rois) n = SOk (roi n 0, roi n 1, roi n 2, roi n 3, roi n 4).
Proof.
  intros Hn. destruct rois_len as (_ & L). unfold box_of, roi. replace (n * 5 + 0) with (n * 5) by ring.
  rewrite (load_at (t_data rois) (n * 5)) by lia. cbn [bind2]. rewrite (load_at (t_data rois) (n * 5 + 1)) by lia. cbn [bind2]. rewrite (load_at (t_data rois) (n * 5 + 2)) by lia. cbn [bind2].
  rewrite (load_at (t_data rois) (n * 5 + 3)) by lia. cbn [bind2]. rewrite (load_at (t_data rois) (n * 5 + 4)) by lia. reflexivity.
Qed.
Lemma image_in n : 0 <= n < num -> 0 <= truncate (roi n 0) -> truncate (roi n 0) < N.
Proof.
  intros Hn P. pose proof (f_images F n Hn) as I. destruct (dropped_ok (roi n 0)) as (D1 & D2). apply inj_lt.
  destruct (Qlt_le_dec (roi n 0) 0) as [L|L]; [|destruct (D1 L); lra]. destruct (D2 L) as (D & _).
  assert (Z1 : truncate (roi n 0) < 1) by (apply inj_lt; change (inject_Z 1) with 1%Q; lra).
  assert (Z0 : truncate (roi n 0) = 0) by lia. rewrite Z0. apply inj_lt.
  destruct (f_sizes F) as (SN & _). lia.
Qed.
Let g (c : list Z) : Q :=
  match c with
  | [n; c; ph; pw] =>
      if truncate (roi n 0) <? 0 then 0%Q else
      match pooled o (t_data x) (truncate (roi n 0) * (C * (H * W)) + c * (H * W)) H W (roi n 1 * spatial_scale o) (roi n 2 * spatial_scale o)
        (std_max (roi n 4 * spatial_scale o - roi n 2 * spatial_scale o) 1 / inject_Z (pool_h o)) (std_max (roi n 3 * spatial_scale o - roi n 1 * spatial_scale o) 1 / inject_Z (pool_w o))
        (grid (sampling_ratio o) (std_max (roi n 4 * spatial_scale o - roi n 2 * spatial_scale o) 1) (pool_h o))
        (grid (sampling_ratio o) (std_max (roi n 3 * spatial_scale o - roi n 1 * spatial_scale o) 1) (pool_w o)) ph pw with SOk m => m | _ => 0%Q end
  | _ => 0%Q
  end.
Lemma sizes : 0 <= C /\ 0 <= num /\ Forall (fun d => 0 <= d) [num; C; pool_h o; pool_w o].
Proof.
  destruct (f_x F) as (A & _). rewrite (f_shape F) in A. pose proof (Forall_inv (Forall_inv_tail A)) as C0. cbn beta in C0.
  destruct rois_len as (N0 & _). destruct (f_pools F). split; [exact C0|]. split; [exact N0|]. repeat constructor; lia.
Qed.
Lemma map_bounds n c : 0 <= n < num -> 0 <= truncate (roi n 0) -> 0 <= c < C ->
  0 <= truncate (roi n 0) * (C * (H * W)) + c * (H * W) /\ truncate (roi n 0) * (C * (H * W)) + c * (H * W) + H * W <= Z.of_nat (length (t_data x)).
Proof.
  intros Hn P Hc. pose proof (image_in n Hn P) as I. destruct (f_x F) as (_ & L). rewrite (f_shape F) in L. cbn [elements] in L. destruct (f_sizes F) as (SN & SH & SW).
  set (b := truncate (roi n 0)) in *. clearbody b. set (k := H * W). assert (K : 1 <= k) by (unfold k; nia).
  replace (N * (C * (H * (W * 1)))) with (N * (C * k)) in L by (unfold k; ring). rewrite L. assert (A : c * k + k <= C * k) by nia. assert (B : b * (C * k) + C * k <= N * (C * k)) by nia. nia.
Qed.
Lemma value_ok n c ph pw : 0 <= n < num -> 0 <= c < C -> 0 <= truncate (roi n 0) ->
  pooled o (t_data x) (truncate (roi n 0) * (C * (H * W)) + c * (H * W)) H W (roi n 1 * spatial_scale o) (roi n 2 * spatial_scale o)
    (std_max (roi n 4 * spatial_scale o - roi n 2 * spatial_scale o) 1 / inject_Z (pool_h o)) (std_max (roi n 3 * spatial_scale o - roi n 1 * spatial_scale o) 1 / inject_Z (pool_w o))
    (grid (sampling_ratio o) (std_max (roi n 4 * spatial_scale o - roi n 2 * spatial_scale o) 1) (pool_h o))
    (grid (sampling_ratio o) (std_max (roi n 3 * spatial_scale o - roi n 1 * spatial_scale o) 1) (pool_w o)) ph pw = SOk (g [n; c; ph; pw]) /\
  bin_mean (spatial_scale o) (sampling_ratio o) (pool_h o) (pool_w o) H W (fun i j => at_ (t_data x) (truncate (roi n 0) * (C * (H * W)) + c * (H * W) + (i * W + j)))
    (roi n 1) (roi n 2) (roi n 3) (roi n 4) ph pw (g [n; c; ph; pw]).
Proof.
  intros Hn Hc P. destruct (map_bounds n c Hn P Hc) as (B0 & B1). destruct (f_sizes F) as (_ & SH & SW). destruct (f_pools F) as (P1 & P2).
  destruct (pooled_ok o (t_data x) _ H W (roi n 1) (roi n 2) (roi n 3) (roi n 4) ph pw SH SW B0 B1 P1 P2) as (m & E & M). cbv zeta in E, M.
  unfold g. destruct (Z.ltb_spec (truncate (roi n 0)) 0); [lia|]. rewrite E. auto.
Qed.
Lemma events_ok : exec (fresh (elements [num; C; pool_h o; pool_w o])) (roi_events o C H W (t_data x) (t_data rois) num) =
  SOk (map Some (map g (loops [num; C; pool_h o; pool_w o]))).
Proof.
  destruct sizes as (C0 & N0 & FA). destruct (f_pools F) as (P1 & P2). apply exec_coords; [exact FA| |].
  - intros d v Hin. apply in_flat_map in Hin. destruct Hin as (n & Hn & Hin). apply In_upto in Hn. rewrite (box_ok n Hn) in Hin. unfold box_events in Hin.
    destruct (Z.ltb_spec (truncate (roi n 0)) 0) as [L|L].
    + apply in_map_iff in Hin. destruct Hin as (k & E & Hk). apply pair_equal_spec in E. destruct E as (<- & <-). apply In_upto in Hk.
      destruct (coordinate_of [C; pool_h o; pool_w o] k) as (c & Hc & <-); [exact (Forall_inv_tail FA)|cbn [elements]; replace (C * (pool_h o * (pool_w o * 1))) with (C * (pool_h o * pool_w o)) by ring; exact Hk|].
      exists (n :: c). split; [constructor; assumption|]. split; [cbn [position elements]; ring|].
      apply inside_3 in Hc. destruct Hc as (i & j & k & -> & _). unfold g. destruct (Z.ltb_spec (truncate (roi n 0)) 0); [reflexivity|lia].
    + apply in_flat_map in Hin. destruct Hin as (c & Hc & Hin). apply in_flat_map in Hin. destruct Hin as (ph & Hph & Hin). apply in_map_iff in Hin. destruct Hin as (pw & E & Hpw).
      apply In_upto in Hc, Hph, Hpw. apply pair_equal_spec in E. destruct E as (<- & <-). exists [n; c; ph; pw]. split; [apply in_4; assumption|].
      split; [cbn [position elements]; ring|]. now apply value_ok.
  - intros l Hl. apply inside_4 in Hl. destruct Hl as (n & c & ph & pw & -> & Hn & Hc & Hph & Hpw). unfold roi_events. rewrite flat_map_concat_map, concat_map, map_map.
    apply in_concat. eexists. split; [apply in_map_iff; exists n; split; [reflexivity|now apply In_upto]|]. rewrite (box_ok n Hn). unfold box_events. apply in_map_iff.
    destruct (Z.ltb_spec (truncate (roi n 0)) 0) as [L|L].
    + exists (n * (C * (pool_h o * pool_w o)) + (c * (pool_h o * pool_w o) + (ph * pool_w o + pw)), SOk 0%Q). cbn [fst]. split; [cbn [position elements]; ring|].
      apply in_map_iff. exists (c * (pool_h o * pool_w o) + (ph * pool_w o + pw)). split; [reflexivity|]. apply In_upto.
      assert (B1 : 0 <= ph * pool_w o + pw <= pool_h o * pool_w o - 1) by nia. set (k := pool_h o * pool_w o) in *. nia.
    + eexists. split; [|apply in_flat_map; exists c; split; [now apply In_upto|]; apply in_flat_map; exists ph; split; [now apply In_upto|]; apply in_map_iff; exists pw; split; [reflexivity|now apply In_upto]].
      cbn [fst position elements]. ring.
Qed.

Theorem C161_aligned_partial : exists out, run o x rois = SOk (filled out) /\ wf out /\ t_shape out = [num; C; pool_h o; pool_w o] /\
  infer (pool_h o) (pool_w o) (t_dtype x) (t_dtype rois) (t_shape x) (t_shape rois) = SOk (t_dtype out, t_shape out) /\
  forall n c ph pw, 0 <= n < num -> 0 <= c < C -> 0 <= ph < pool_h o -> 0 <= pw < pool_w o -> exists m, elt out [n; c; ph; pw] = Some m /\
    ((roi n 0 <= -(1))%Q -> (m == 0)%Q) /\
    ((-(1) < roi n 0)%Q -> exists b v, dropped (roi n 0) b /\ (forall i j, 0 <= i < H -> 0 <= j < W -> elt x [b; c; i; j] = Some (v i j)) /\
       bin_mean (spatial_scale o) (sampling_ratio o) (pool_h o) (pool_w o) H W v (roi n 1) (roi n 2) (roi n 3) (roi n 4) ph pw m).
Proof.
  destruct sizes as (C0 & N0 & FA). destruct (f_pools F) as (P1 & P2). destruct (f_types F) as (T1 & T2).
  exists (Tn float32 [num; C; pool_h o; pool_w o] (map g (loops [num; C; pool_h o; pool_w o]))).
  split.
  { unfold run. rewrite (f_shape F), (f_num F), T1, T2. destruct (Z.leb_spec (pool_h o) 0); [lia|]. destruct (Z.leb_spec (pool_w o) 0); [lia|]. cbn [orb].
    change (negb (float32 =? float32)) with false. cbn iota. replace (num * C * pool_h o * pool_w o) with (elements [num; C; pool_h o; pool_w o]) by (cbn [elements]; ring).
    rewrite events_ok. reflexivity. }
  split; [now apply exec_coords_wf|]. split; [reflexivity|]. split; [unfold infer; rewrite (f_shape F), (f_num F), T1, T2; reflexivity|].
  intros n c ph pw Hn Hc Hph Hpw. exists (g [n; c; ph; pw]). split; [apply exec_coords_elt; now apply in_4|]. destruct (dropped_ok (roi n 0)) as (D1 & D2). split.
  - intros L. unfold g. destruct (Z.ltb_spec (truncate (roi n 0)) 0) as [K|K]; [reflexivity|]. exfalso.
    assert (E : (inject_Z 0 <= inject_Z (truncate (roi n 0)))%Q) by now apply inj_le. change (inject_Z 0) with 0%Q in E. destruct D2 as (D & _); [lra|]. lra.
  - intros L. assert (K : 0 <= truncate (roi n 0)).
    { assert (-1 < truncate (roi n 0)); [|lia]. apply inj_lt. change (inject_Z (-1)) with (-1 # 1)%Q. destruct (Qlt_le_dec (roi n 0) 0) as [M|M]; [destruct (D2 M); lra|destruct (D1 M); lra]. }
    destruct (value_ok n c ph pw Hn Hc K) as (_ & M). eexists. eexists. split; [exact (dropped_ok (roi n 0))|]. split; [|exact M].
    intros i j Hi Hj. cbn beta. apply (at_elt x (truncate (roi n 0)) c i j N C H W (f_x F) (f_shape F)); auto. split; [exact K|now apply image_in].
Qed.
End RoiAlign.

(** refuted: a box may name any image.  An image the batch has not got is read
    past the end of the maps, for any box that lies on the map *)
Lemma first_sample start len pool ratio n : 1 <= pool -> (1 <= len)%Q -> (0 <= start)%Q -> (start + len <= inject_Z n)%Q ->
  within n (sample_at start (len / inject_Z pool) 0 0 (grid ratio len pool)).
Proof.
  intros HP HL S0 S1. destruct (grid_ok ratio len pool HP HL) as (_ & G). set (k := grid ratio len pool) in *. clearbody k.
  assert (P1 : (1 <= inject_Z pool)%Q) by (change 1%Q with (inject_Z 1); now apply inj_le). assert (K1 : (1 <= inject_Z k)%Q) by (change 1%Q with (inject_Z 1); apply inj_le; lia).
  assert (B : (0 <= len / inject_Z pool /\ len / inject_Z pool <= len)%Q).
  { split; [apply Qle_shift_div_l; lra|]. apply Qle_shift_div_r; [lra|]. nra. }
  assert (E : (sample_at start (len / inject_Z pool) 0 0 k == start + (1 # 2) * (len / inject_Z pool) / inject_Z k)%Q).
  { unfold sample_at. change (inject_Z 0) with 0%Q. field. split; intros Z0; lra. }
  set (b := (len / inject_Z pool)%Q) in *. clearbody b. assert (T : (0 <= (1 # 2) * b / inject_Z k /\ (1 # 2) * b / inject_Z k <= b)%Q).
  { split; [apply Qle_shift_div_l; lra|]. apply Qle_shift_div_r; [lra|]. nra. }
  unfold within. rewrite E. set (t := ((1 # 2) * b / inject_Z k)%Q) in *. clearbody t. lra.
Qed.
Lemma fold_undef {T} (f : T -> sres Q) l : fold_left (fun acc t => bind2 acc (fun s => bind2 (f t) (fun v => SOk (s + v)%Q))) l SUndef = SUndef.
Proof. induction l; [reflexivity|assumption]. Qed.
Lemma cells_in_range n v : 1 <= n -> within n v -> let '(lo, hi, f) := axis_cells n v in 0 <= lo < n /\ 0 <= hi < n.
Proof. intros Hn Hv. pose proof (axis_ok n v (fun _ => 0%Q) Hn Hv) as A. destruct (axis_cells n v) as [[lo hi] f]. tauto. Qed.
Lemma upto_pos n : 1 <= n -> exists l, upto n = 0 :: l.
Proof. intros H. unfold upto. destruct (Z.to_nat n) eqn:E; [lia|]. cbn. eauto. Qed.
Theorem C161_image_refuted o (x rois : tensor Q) N C H W num :
  1 <= pool_h o -> 1 <= pool_w o -> t_dtype x = float32 -> t_dtype rois = float32 -> wf x -> t_shape x = [N; C; H; W] -> 1 <= C -> 1 <= H -> 1 <= W ->
  wf rois -> t_shape rois = [num; 5] -> 1 <= num -> 0 <= N -> (inject_Z N <= roi rois 0 0)%Q ->
  let s := spatial_scale o in
  (0 <= roi rois 0 1 * s /\ roi rois 0 1 * s + side s (roi rois 0 1) (roi rois 0 3) <= inject_Z W)%Q ->
  (0 <= roi rois 0 2 * s /\ roi rois 0 2 * s + side s (roi rois 0 2) (roi rois 0 4) <= inject_Z H)%Q -> run o x rois = SUndef.
Proof.
  intros P1 P2 T1 T2 (X1 & X2) SX HC HH HW (R1 & R2) SR Hn N0 BI s (XA & XB) (YA & YB). unfold run. rewrite SX, SR, T1, T2. destruct (Z.leb_spec (pool_h o) 0); [lia|]. destruct (Z.leb_spec (pool_w o) 0); [lia|].
  cbn [orb]. change (negb (float32 =? float32)) with false. cbn iota. rewrite SR in R2. rewrite SX in X2. cbn [elements] in R2, X2.
  unfold roi_events. destruct (upto_pos num Hn) as (ns & ->). cbn [flat_map].
  assert (BO : box_of (t_data rois) 0 = SOk (roi rois 0 0, roi rois 0 1, roi rois 0 2, roi rois 0 3, roi rois 0 4)).
  { unfold box_of, roi. change (0 * 5) with 0. rewrite (load_at _ 0) by lia. cbn [bind2]. rewrite !load_at by lia. reflexivity. }
  rewrite BO. unfold box_events.
  assert (BN : N <= truncate (roi rois 0 0)).
  { assert (P0 : (0 <= roi rois 0 0)%Q) by (apply Qle_trans with (inject_Z N); [change 0%Q with (inject_Z 0); now apply inj_le|exact BI]).
    rewrite truncate_pos by exact P0. destruct (floor_bounds (roi rois 0 0)) as (_ & F2). assert (N < Qfloor (roi rois 0 0) + 1); [|lia]. apply inj_lt. rewrite inject_Z_plus. change (inject_Z 1) with 1%Q. lra. }
  set (b := truncate (roi rois 0 0)) in *. clearbody b. destruct (Z.ltb_spec b 0); [lia|].
  destruct (upto_pos C HC) as (cs & ->). destruct (upto_pos (pool_h o) P1) as (ps & ->). destruct (upto_pos (pool_w o) P2) as (qs & ->). cbn [flat_map map app exec].
  unfold s in *. clear s.
  set (wd := std_max (roi rois 0 3 * spatial_scale o - roi rois 0 1 * spatial_scale o) 1). set (ht := std_max (roi rois 0 4 * spatial_scale o - roi rois 0 2 * spatial_scale o) 1).
  assert (EW : (wd == side (spatial_scale o) (roi rois 0 1) (roi rois 0 3))%Q) by apply std_max_q. assert (EH : (ht == side (spatial_scale o) (roi rois 0 2) (roi rois 0 4))%Q) by apply std_max_q.
  rewrite <- EW in XB. rewrite <- EH in YB.
  assert (LW : (1 <= wd)%Q) by (rewrite EW; apply Q.le_max_r). assert (LH : (1 <= ht)%Q) by (rewrite EH; apply Q.le_max_r). clearbody wd ht.
  pose proof (first_sample _ _ (pool_h o) (sampling_ratio o) H P1 LH YA YB) as SY. pose proof (first_sample _ _ (pool_w o) (sampling_ratio o) W P2 LW XA XB) as SW.
  destruct (grid_ok (sampling_ratio o) ht (pool_h o) P1 LH) as (_ & GH). destruct (grid_ok (sampling_ratio o) wd (pool_w o) P2 LW) as (_ & GW).
  unfold pooled. set (gh := grid (sampling_ratio o) ht (pool_h o)) in *. set (gw := grid (sampling_ratio o) wd (pool_w o)) in *. clearbody gh gw.
  destruct (upto_pos gh) as (gs & ->); [lia|]. destruct (upto_pos gw) as (hs & ->); [lia|]. cbn [flat_map map app fold_left bind2 fst snd].
  match goal with |- context [interpolated ?a ?b ?c ?d ?e ?f] => assert (IU : interpolated a b c d e f = SUndef) end.
  { unfold interpolated. destruct (_ || _) eqn:E; [apply outside_bool in E; exfalso; apply E; auto|].
    pose proof (cells_in_range H _ HH SY) as CY. destruct (axis_cells H _) as [[yl yh] ly]. pose proof (cells_in_range W _ HW SW) as CX. destruct (axis_cells W _) as [[xl xh] lx].
    rewrite load_out; [reflexivity|]. rewrite X2. destruct CY as (CY & _), CX as (CX & _). set (k := H * W). replace (N * (C * (H * (W * 1)))) with (N * (C * k)) by (unfold k; ring).
    assert (0 <= k) by (unfold k; nia). assert (0 <= C * k) by nia. assert (N * (C * k) <= b * (C * k)) by nia. nia. }
  rewrite IU. cbn [bind2]. rewrite fold_undef. reflexivity.
Qed.
(** refuted: boxes of fewer than five numbers are refused.  They are read past the end *)
Lemma interpolated_total x base h w y x0 : interpolated x base h w y x0 <> SErr.
Proof.
  unfold interpolated. destruct (_ || _); [discriminate|]. destruct (axis_cells h y) as [[yl yh] ly]. destruct (axis_cells w x0) as [[xl xh] lx].
  assert (L : forall i, load x i <> SErr) by (intros i; unfold load; destruct (i <? 0); [discriminate|]; destruct (nth_error x (Z.to_nat i)); discriminate).
  repeat match goal with |- bind2 (load x ?i) _ <> SErr => destruct (load x i) eqn:?; cbn [bind2]; [|exfalso; eapply L; eassumption|discriminate] end. discriminate.
Qed.
Lemma pooled_total o x base h w sw sh bh bw gh gw ph pw : pooled o x base h w sw sh bh bw gh gw ph pw <> SErr.
Proof.
  unfold pooled. generalize (flat_map (fun iy => map (fun ix => (iy, ix)) (upto gw)) (upto gh)). intros l. generalize 0%Q.
  induction l as [|t l IH]; intros a; [discriminate|]. cbn [fold_left bind2]. destruct (interpolated x base h w _ _) eqn:E; cbn [bind2]; [apply IH|exfalso; eapply interpolated_total; exact E|].
  rewrite fold_undef. discriminate.
Qed.
Theorem C161_columns_refuted o (x rois : tensor Q) N C H W num k :
  1 <= pool_h o -> 1 <= pool_w o -> t_dtype x = float32 -> t_dtype rois = float32 -> t_shape x = [N; C; H; W] ->
  wf rois -> t_shape rois = [num; k] -> 1 <= num -> k < 5 -> run o x rois = SUndef.
Proof.
  intros P1 P2 T1 T2 SX (R1 & R2) SR Hn Hk. unfold run. rewrite SX, SR, T1, T2. destruct (Z.leb_spec (pool_h o) 0); [lia|]. destruct (Z.leb_spec (pool_w o) 0); [lia|].
  cbn [orb]. change (negb (float32 =? float32)) with false. cbn iota. rewrite SR in R1, R2. cbn [elements] in R2. assert (K0 : 0 <= k) by exact (Forall_inv (Forall_inv_tail R1)).
  assert (LE : forall i, load (t_data rois) i <> SErr) by (intros i; unfold load; destruct (i <? 0); [discriminate|]; destruct (nth_error (t_data rois) (Z.to_nat i)); discriminate).
  assert (BE : forall n, box_of (t_data rois) n <> SErr).
  { intros n. unfold box_of. repeat match goal with |- bind2 (load (t_data rois) ?i) _ <> SErr => destruct (load (t_data rois) i) eqn:?; cbn [bind2]; [|exfalso; eapply LE; eassumption|discriminate] end. discriminate. }
  rewrite exec_undef; [reflexivity| |].
  - intros d v Hin. apply in_flat_map in Hin. destruct Hin as (n & Hn' & Hin). destruct (box_of (t_data rois) n) as [[[[[r0 r1] r2] r3] r4]| |] eqn:E; [|exfalso; exact (BE n E)|destruct Hin as [Hin|[]]; apply pair_equal_spec in Hin; destruct Hin as (_ & <-); discriminate].
    unfold box_events in Hin. destruct (truncate r0 <? 0).
    + apply in_map_iff in Hin. destruct Hin as (j & Hin & _). apply pair_equal_spec in Hin. destruct Hin as (_ & <-). discriminate.
    + apply in_flat_map in Hin. destruct Hin as (c & _ & Hin). apply in_flat_map in Hin. destruct Hin as (ph & _ & Hin). apply in_map_iff in Hin. destruct Hin as (pw & Hin & _).
      apply pair_equal_spec in Hin. destruct Hin as (_ & <-). apply pooled_total.
  - exists 0. apply in_flat_map. exists (num - 1). split; [apply In_upto; lia|]. 
    assert (LU : load (t_data rois) ((num - 1) * 5 + 4) = SUndef) by (apply load_out; nia).
    unfold box_of. destruct (load (t_data rois) ((num - 1) * 5)) eqn:E0; cbn [bind2]; [|exfalso; exact (LE _ E0)|now left].
    destruct (load (t_data rois) ((num - 1) * 5 + 1)) eqn:E1; cbn [bind2]; [|exfalso; exact (LE _ E1)|now left].
    destruct (load (t_data rois) ((num - 1) * 5 + 2)) eqn:E2; cbn [bind2]; [|exfalso; exact (LE _ E2)|now left].
    destruct (load (t_data rois) ((num - 1) * 5 + 3)) eqn:E3; cbn [bind2]; [|exfalso; exact (LE _ E3)|now left].
    rewrite LU. now left.
Qed.
(** refuted: what is announced can be computed.  Any dtype is announced *)
Theorem C161_dtype_refuted o (x rois : tensor Q) N C H W num k t :
  1 <= pool_h o -> 1 <= pool_w o -> t <> float32 -> t_dtype x = t -> t_dtype rois = t -> t_shape x = [N; C; H; W] -> t_shape rois = [num; k] ->
  infer (pool_h o) (pool_w o) (t_dtype x) (t_dtype rois) (t_shape x) (t_shape rois) = SOk (t, [num; C; pool_h o; pool_w o]) /\ run o x rois = SErr.
Proof.
  intros P1 P2 HT T1 T2 SX SR. unfold infer, run. rewrite SX, SR, T1, T2, Z.eqb_refl. split; [reflexivity|].
  destruct (Z.leb_spec (pool_h o) 0); [lia|]. destruct (Z.leb_spec (pool_w o) 0); [lia|]. cbn [orb]. destruct (Z.eqb_spec t float32); [contradiction|reflexivity].
Qed.
(** bins there are none of are refused *)
Theorem C161_pools o (x rois : tensor Q) : pool_h o <= 0 \/ pool_w o <= 0 -> run o x rois = SErr.
Proof. intros H. unfold run. destruct (Z.leb_spec (pool_h o) 0), (Z.leb_spec (pool_w o) 0); try reflexivity. lia. Qed.

(** *** Examples: a 2 x 3 map, the whole of it in 1 x 2 bins of one sample each *)
Definition ex : options := Options 1 2 1 1.
Definition ex_x : tensor Q := Tn float32 [1; 1; 2; 3] [1; 2; 3; 4; 5; 6]%Q.
Definition ex_rois (b : Q) : tensor Q := Tn float32 [2; 5] [b; 0; 0; 2; 1;  -(1); 0; 0; 2; 1]%Q.
Lemma ex_fits : fits ex ex_x (ex_rois 0) 1 1 2 3 2.
Proof.
  constructor; cbn; try lia; try reflexivity; try (split; reflexivity); try (split; [repeat constructor; lia|reflexivity]).
  intros n Hn. assert (K : n = 0 \/ n = 1) by lia. destruct K as [-> | ->]; vm_compute; reflexivity.
Qed.
Definition values (r : sres (raw_tensor Q)) : option (list Z * list (option Q)) :=
  match r with SOk t => Some (t_shape t, map (option_map Qred) (t_data t)) | _ => None end.
Example C161_example : fits ex ex_x (ex_rois 0) 1 1 2 3 2 /\ values (run ex ex_x (ex_rois 0)) = Some ([2; 1; 1; 2], [Some 3; Some 4; Some 0; Some 0]%Q).
Proof. split; [exact ex_fits|vm_compute; reflexivity]. Qed.
(** as many samples as cells, half of them off the map *)
Example C161_example_grid : values (run (Options 1 1 1 0) ex_x (Tn float32 [1; 5] [0; 0; 0; 2; 4]%Q)) = Some ([1; 1; 1; 1], [Some (17 # 8)]%Q).
Proof. vm_compute. reflexivity. Qed.
Example C161_image_example : run ex ex_x (ex_rois 1) = SUndef.
Proof. apply (C161_image_refuted ex ex_x (ex_rois 1) 1 1 2 3 2); cbn; try lia; try reflexivity; try (split; [repeat constructor; lia|reflexivity]); vm_compute; try (split; discriminate); discriminate. Qed.
Example C161_columns_example : run ex ex_x (Tn float32 [2; 4] [0; 0; 2; 1;  0; 0; 2; 1]%Q) = SUndef.
Proof. apply (C161_columns_refuted ex ex_x _ 1 1 2 3 2 4); cbn; try lia; try reflexivity. split; [repeat constructor; lia|reflexivity]. Qed.

Print Assumptions C161_aligned_partial.
Print Assumptions C161_image_refuted.
Print Assumptions C161_columns_refuted.
Print Assumptions C161_dtype_refuted.
Print Assumptions C161_pools.
