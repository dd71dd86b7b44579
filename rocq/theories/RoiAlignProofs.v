(** Samples and means of roi_align. *)
From Coq Require Import List ZArith Bool QArith Qround Qminmax Lia Lqa.
From Verif Require Import ShapeModel KernelBase KernelProofs ResizeModel ResizeSpec ResizeProofs NmsModel NmsProofs DetectSpec DetectProofs RoiAlignModel RoiAlignSpec.
Import ListNotations.
Local Open Scope Z_scope.

Lemma trunc_floor v : (0 <= v)%Q -> truncate v = Qfloor v.
Proof. intros H. unfold truncate. pose proof (Qgeb_spec v 0) as E. destruct (Qgeb v 0); [reflexivity|lra]. Qed.

(** one axis *)
Lemma axis_ok n v (u : Z -> Q) : 1 <= n -> within n v -> let '(lo, hi, f) := axis_cells n v in
  0 <= lo < n /\ 0 <= hi < n /\ (qsum n (fun k => tent (inject_Z k - held n v) * u k) == (1 - f) * u lo + f * u hi)%Q.
Proof.
  intros Hn (H1 & H2). unfold axis_cells.
  set (w := if Qle_bool v 0 then 0%Q else v). assert (W : (w == Qmax 0 v)%Q).
  { unfold w. destruct (Qle_bool v 0) eqn:E.
    - apply Qle_bool_iff in E. symmetry. apply Q.max_l. exact E.
    - assert (N : ~ (v <= 0)%Q) by (rewrite <- Qle_bool_iff; congruence). symmetry. apply Q.max_r. lra. }
  assert (W0 : (0 <= w)%Q) by (rewrite W; apply Q.le_max_l). rewrite (trunc_floor w W0). destruct (floor_bounds w) as (F1 & F2). set (s := Qfloor w) in *.
  assert (S0 : 0 <= s). { assert (-1 < s); [|lia]. apply inj_lt. change (inject_Z (-1)) with (-1 # 1)%Q. lra. }
  assert (N1 : (0 <= inject_Z (n - 1))%Q) by (change 0%Q with (inject_Z 0); apply inj_le; lia).
  destruct (Z.leb_spec (n - 1) s) as [C|C].
  - split; [lia|]. split; [lia|].
    assert (HE : (held n v == inject_Z (n - 1) + 0)%Q).
    { unfold held. assert (G : (inject_Z (n - 1) <= w)%Q) by (apply Qle_trans with (inject_Z s); [now apply inj_le|exact F1]).
      rewrite W in G. destruct (Q.max_spec 0 v) as [(M & E)|(M & E)]; rewrite E in G.
      - rewrite Q.min_r by exact G. rewrite Q.max_r by exact N1. ring.
      - assert (Z0 : (inject_Z (n - 1) == 0)%Q) by lra. rewrite Z0. rewrite Q.min_l by lra. rewrite Q.max_l by lra. ring. }
    rewrite (qsum_ext n _ (fun k => if k =? n - 1 then u k else 0%Q)).
    + rewrite (qsum_delta n (n - 1) u) by lia. ring.
    + intros k Hk. rewrite HE, tent_at by lra. destruct (Z.eqb_spec k (n - 1)); [|destruct (Z.eqb_spec k (n - 1 + 1)); [lia|ring]].
      destruct (Z.eqb_spec k (n - 1 + 1)); [lia|ring].
  - split; [lia|]. split; [lia|]. assert (L : (w < inject_Z (n - 1))%Q).
    { apply Qlt_le_trans with (inject_Z s + 1)%Q; [exact F2|]. change 1%Q with (inject_Z 1). rewrite <- inject_Z_plus. apply inj_le. lia. }
    assert (HE : (held n v == w)%Q).
    { rewrite W in L |- *. unfold held. assert (V : (v < inject_Z (n - 1))%Q) by (apply Qle_lt_trans with (Qmax 0 v); [apply Q.le_max_r|exact L]).
      rewrite (Q.min_l v) by lra. reflexivity. }
    rewrite (qsum_ext n _ (fun k => (tent (inject_Z k - w) * u k)%Q)) by (intros k _; now rewrite HE).
    rewrite (tent_row n w u s) by (lia || lra). ring.
Qed.
Lemma within_dec n v : {within n v} + {~ within n v}.
Proof. unfold within. destruct (Qlt_le_dec v (-(1))), (Qlt_le_dec (inject_Z n) v); [right; lra..|left; split; lra]. Qed.
Lemma outside_bool h w y x : qlt y (-(1)) || qlt (inject_Z h) y || qlt x (-(1)) || qlt (inject_Z w) x = true <-> ~ (within h y /\ within w x).
Proof.
  rewrite !orb_true_iff, !qlt_iff. unfold within. split; [intros [[[A|A]|A]|A] ((B & C) & D & E); lra|].
  intros N. destruct (Qlt_le_dec y (-(1))); [tauto|]. destruct (Qlt_le_dec (inject_Z h) y); [tauto|]. destruct (Qlt_le_dec x (-(1))); [tauto|].
  destruct (Qlt_le_dec (inject_Z w) x); [tauto|]. exfalso. apply N. tauto.
Qed.
Lemma interpolated_ok x base h w y x0 : 1 <= h -> 1 <= w -> 0 <= base -> base + h * w <= Z.of_nat (length x) ->
  exists s, interpolated x base h w y x0 = SOk s /\ value_at h w (fun i j => at_ x (base + (i * w + j))) y x0 s.
Proof.
  intros Hh Hw B0 B1. unfold interpolated. destruct (_ || _) eqn:E.
  - apply outside_bool in E. exists 0%Q. split; [reflexivity|]. right. split; [exact E|reflexivity].
  - assert (WI : within h y /\ within w x0).
    { destruct (within_dec h y) as [A|A], (within_dec w x0) as [C|C]; try (exfalso; assert (T := proj2 (outside_bool h w y x0)); rewrite E in T; discriminate (T ltac:(tauto))). auto. }
    destruct WI as (WY & WX).
    set (v := fun i j => at_ x (base + (i * w + j))).
    pose proof (axis_ok h y (fun i => qsum w (fun j => (tent (inject_Z j - held w x0) * v i j)%Q)) Hh WY) as AY.
    destruct (axis_cells h y) as [[yl yh] ly]. destruct AY as (YL & YH & EY).
    pose proof (axis_ok w x0 (v yl) Hw WX) as AX. pose proof (axis_ok w x0 (v yh) Hw WX) as AX'.
    destruct (axis_cells w x0) as [[xl xh] lx]. destruct AX as (XL & XH & EX). destruct AX' as (_ & _ & EX').
    assert (LO : forall i j, 0 <= i < h -> 0 <= j < w -> load x (base + (i * w + j)) = SOk (v i j)).
    { intros i j Hi Hj. unfold v. apply load_at. assert (0 <= i * w + j <= h * w - 1) by nia. lia. }
    rewrite !LO by assumption. cbn [bind2]. eexists. split; [reflexivity|]. left. split; [exact WY|]. split; [exact WX|].
    rewrite interpolate_nested, EY, EX, EX'. ring.
Qed.

(** sums *)
Lemma fold_rows {T} (f : T -> sres Q) (g : T -> Q) l : (forall t, In t l -> exists s, f t = SOk s /\ (s == g t)%Q) -> forall a, exists s,
  fold_left (fun acc t => bind2 acc (fun s => bind2 (f t) (fun v => SOk (s + v)%Q))) l (SOk a) = SOk s /\ (s == a + fold_right (fun t s => g t + s) 0 l)%Q.
Proof.
  induction l as [|t l IH]; intros H a; cbn [fold_left fold_right].
  - exists a. split; [reflexivity|ring].
  - destruct (H t (or_introl eq_refl)) as (v & E & G). cbn [bind2]. rewrite E. cbn [bind2].
    destruct (IH (fun u Hu => H u (or_intror Hu)) (a + v)%Q) as (s & F & R). exists s. split; [exact F|]. rewrite R, G. ring.
Qed.
Lemma sum_rows (g : Z -> Z -> Q) gw : forall l, (fold_right (fun t s => g (fst t) (snd t) + s) 0 (flat_map (fun iy => map (fun ix => (iy, ix)) (upto gw)) l) ==
  fold_right (fun i s => qsum gw (g i) + s) 0 l)%Q.
Proof.
  induction l as [|i l IH]; [reflexivity|]. cbn [flat_map fold_right]. rewrite fold_right_app, <- IH. unfold qsum.
  set (z := fold_right _ 0%Q (flat_map _ l)). clearbody z. generalize (upto gw). intros m. induction m as [|j m IM]; cbn [map fold_right fst snd]; [ring|]. rewrite IM. ring.
Qed.
Lemma grid_ok ratio len pool : 1 <= pool -> (1 <= len)%Q -> samples ratio (len / inject_Z pool) (grid ratio len pool) /\ 0 < grid ratio len pool.
Proof.
  intros HP HL. unfold grid. assert (P : (0 < inject_Z pool)%Q) by (change 0%Q with (inject_Z 0); apply inj_lt; lia).
  assert (B : (0 < len / inject_Z pool)%Q) by (apply Qlt_shift_div_l; [exact P|lra]).
  set (b := (len / inject_Z pool)%Q) in *. clearbody b. destruct (Z.ltb_spec 0 ratio) as [C|C].
  - split; [left; auto|exact C].
  - pose proof (Qle_ceiling b) as L1. assert (L2 : (inject_Z (Qceiling b) < b + 1)%Q).
    { unfold Qceiling. destruct (floor_bounds (- b)) as (F1 & F2). rewrite inject_Z_opp. lra. }
    set (k := Qceiling b) in *. split; [right; split; [exact C|split; lra]|].
    apply inj_lt. change (inject_Z 0) with 0%Q. lra.
Qed.
Lemma std_max_q a b : (std_max a b == Qmax a b)%Q.
Proof.
  unfold std_max, qlt. destruct (Qle_bool b a) eqn:E; cbn [negb].
  - apply Qle_bool_iff in E. symmetry. now apply Q.max_l.
  - assert (N : ~ (b <= a)%Q) by (rewrite <- Qle_bool_iff; congruence). symmetry. apply Q.max_r. lra.
Qed.
Lemma place_ok start bin p i k : 0 < k -> (sample_at start bin p i k == place start bin p i k)%Q.
Proof. intros K. unfold sample_at, place. field. intros E. change 0%Q with (inject_Z 0) in E. pose proof (proj1 (inject_Z_injective _ _) E). lia. Qed.
Lemma value_proper h w v y y' x x' s : (y == y')%Q -> (x == x')%Q -> value_at h w v y x s -> value_at h w v y' x' s.
Proof.
  intros EY EX. assert (WY : within h y <-> within h y') by (unfold within; now rewrite EY). assert (WX : within w x <-> within w x') by (unfold within; now rewrite EX).
  assert (HY : (held h y == held h y')%Q) by (unfold held; now rewrite EY). assert (HX : (held w x == held w x')%Q) by (unfold held; now rewrite EX).
  intros [(A & B & C)|(A & B)].
  - left. split; [now apply WY|]. split; [now apply WX|]. rewrite C. unfold interpolate. apply qsum_ext. intros i _. apply qsum_ext. intros j _. now rewrite HY, HX.
  - right. split; [|exact B]. rewrite <- WY, <- WX. exact A.
Qed.
Lemma pooled_ok o x base h w x1 y1 x2 y2 ph pw : 1 <= h -> 1 <= w -> 0 <= base -> base + h * w <= Z.of_nat (length x) -> 1 <= pool_h o -> 1 <= pool_w o ->
  let sc := spatial_scale o in
  let wd := std_max (x2 * sc - x1 * sc) 1 in let ht := std_max (y2 * sc - y1 * sc) 1 in
  exists m, pooled o x base h w (x1 * sc) (y1 * sc) (ht / inject_Z (pool_h o)) (wd / inject_Z (pool_w o))
      (grid (sampling_ratio o) ht (pool_h o)) (grid (sampling_ratio o) wd (pool_w o)) ph pw = SOk m /\
    bin_mean sc (sampling_ratio o) (pool_h o) (pool_w o) h w (fun i j => at_ x (base + (i * w + j))) x1 y1 x2 y2 ph pw m.
Proof.
  intros Hh Hw B0 B1 PH PW sc wd ht. set (v := fun i j => at_ x (base + (i * w + j))).
  assert (EW : (wd == side sc x1 x2)%Q) by (unfold wd, side; apply std_max_q). assert (EH : (ht == side sc y1 y2)%Q) by (unfold ht, side; apply std_max_q).
  assert (LW : (1 <= wd)%Q) by (rewrite EW; apply Q.le_max_r). assert (LH : (1 <= ht)%Q) by (rewrite EH; apply Q.le_max_r).
  destruct (grid_ok (sampling_ratio o) ht (pool_h o) PH LH) as (SH & GH). destruct (grid_ok (sampling_ratio o) wd (pool_w o) PW LW) as (SW & GW).
  clearbody wd ht. set (gh := grid (sampling_ratio o) ht (pool_h o)) in *. set (gw := grid (sampling_ratio o) wd (pool_w o)) in *.
  set (y_ := fun i => sample_at (y1 * sc) (ht / inject_Z (pool_h o)) ph i gh). set (x_ := fun i => sample_at (x1 * sc) (wd / inject_Z (pool_w o)) pw i gw).
  set (s := fun i j => match interpolated x base h w (y_ i) (x_ j) with SOk s => s | _ => 0%Q end).
  assert (IV : forall i j, interpolated x base h w (y_ i) (x_ j) = SOk (s i j) /\ value_at h w v (y_ i) (x_ j) (s i j)).
  { intros i j. destruct (interpolated_ok x base h w (y_ i) (x_ j) Hh Hw B0 B1) as (t & T1 & T2). unfold s. rewrite T1. auto. }
  assert (NZ : forall k, 0 < k -> ~ (inject_Z k == 0)%Q) by (intros k K E; change 0%Q with (inject_Z 0) in E; pose proof (proj1 (inject_Z_injective _ _) E); lia).
  unfold pooled. destruct (fold_rows (fun t => interpolated x base h w (y_ (fst t)) (x_ (snd t))) (fun t => s (fst t) (snd t))
    (flat_map (fun iy => map (fun ix => (iy, ix)) (upto gw)) (upto gh))) with (a := 0%Q) as (tot & FT & ET).
  { intros t _. exists (s (fst t) (snd t)). split; [apply IV|reflexivity]. }
  unfold y_, x_ in FT. rewrite FT. cbn [bind2]. eexists. split; [reflexivity|]. exists gh, gw, s. cbv zeta.
  split; [destruct SH as [SH|(SH1 & SH2)]; [left; exact SH|right; split; [exact SH1|now rewrite <- EH]]|].
  split; [destruct SW as [SW|(SW1 & SW2)]; [left; exact SW|right; split; [exact SW1|now rewrite <- EW]]|].
  split; [exact GH|]. split; [exact GW|]. split.
  - intros i j Hi Hj. destruct (IV i j) as (_ & V). apply value_proper with (3 := V); unfold y_, x_; rewrite place_ok by assumption; unfold place; [now rewrite EH|now rewrite EW].
  - rewrite ET, sum_rows. change (fold_right (fun i s0 => qsum gw (s i) + s0) 0 (upto gh))%Q with (qsum gh (fun i => qsum gw (fun j => s i j))). field. split; now apply NZ.
Qed.
