(** Lemmas on displaced convolution. *)
From Coq Require Import List ZArith Bool Lia QArith Qabs Qround Qcanon Lqa Ring.
From Verif Require Import ShapeModel ShapeSpec KernelBase KernelSpec KernelProofs ShapeProofs LoopModel LoopProofs EltwiseModel GemmModel GemmSpec GemmProofs GemmPlainProofs
  ConvModel WinogradProofs ResizeModel ResizeSpec ResizeProofs DcnModel DcnSpec.
Import ListNotations.
Local Open Scope Z_scope.

(** *** The numbers *)
Lemma qc_semi_ring : semi_ring_theory (Q2Qc 0) (Q2Qc 1) Qcplus Qcmult eq.
Proof. constructor; intros; ring. Qed.
Lemma near32_refl a : near32 a a = true.
Proof.
  unfold near32. cbv zeta. pose proof (Qltb_spec a a) as E. destruct (Qltb a a); [lra|]. pose proof (Qltb_spec (this a - this a) (1 # 8388608)) as D.
  destruct (Qltb (this a - this a) (1 # 8388608)); [reflexivity|]. lra.
Qed.
Lemma q2qc_eq p q : (p == q)%Q -> Q2Qc p = Q2Qc q.
Proof. intros H. apply Qc_is_canon. cbn [this Q2Qc]. now rewrite !Qred_correct. Qed.
Lemma this_q2qc q : (this (Q2Qc q) == q)%Q.
Proof. cbn [this Q2Qc]. apply Qred_correct. Qed.
Lemma this_plus a b : (this (a + b)%Qc == this a + this b)%Q.
Proof. unfold Qcplus. apply this_q2qc. Qed.
Lemma this_mult a b : (this (a * b)%Qc == this a * this b)%Q.
Proof. unfold Qcmult. apply this_q2qc. Qed.

(** *** Interpolating along an axis, with zeros outside it *)
Lemma qsum_one n a u (v : Z -> Q) : (qsum n (fun k => (if (k =? a)%Z then u else 0) * v k) == if (0 <=? a)%Z && (a <? n)%Z then u * v a else 0)%Q.
Proof.
  destruct (Z.leb_spec 0 a); [destruct (Z.ltb_spec a n)|]; cbn [andb].
  - rewrite <- (qsum_delta n a (fun k => u * v k)%Q) by lia. apply qsum_ext. intros k _. destruct (k =? a); ring.
  - rewrite <- (qsum_zero n). apply qsum_ext. intros k Hk. destruct (Z.eqb_spec k a); [lia|ring].
  - rewrite <- (qsum_zero n). apply qsum_ext. intros k Hk. destruct (Z.eqb_spec k a); [lia|ring].
Qed.
Definition inside_or_zero (n a : Z) (v : Z -> Q) : Q := if (0 <=? a) && (a <? n) then v a else 0%Q.
Lemma axis_sum n p (v : Z -> Q) : let s := Qfloor p in let f := (p - inject_Z s)%Q in
  (qsum n (fun k => tent (inject_Z k - p) * v k) == (1 - f) * inside_or_zero n s v + f * inside_or_zero n (s + 1) v)%Q.
Proof.
  cbv zeta. destruct (floor_bounds p) as (F1 & F2). set (s := Qfloor p) in *. clearbody s.
  rewrite (qsum_ext n _ (fun k => (if (k =? s)%Z then 1 - (p - inject_Z s) else 0) * v k + (if (k =? s + 1)%Z then p - inject_Z s else 0) * v k)%Q).
  - rewrite qsum_plus, !qsum_one. unfold inside_or_zero. destruct ((0 <=? s) && (s <? n)), ((0 <=? s + 1) && (s + 1 <? n)); ring.
  - intros k _. rewrite <- Qmult_plus_distr_l. rewrite <- (tent_at s (p - inject_Z s) k) by lra.
    assert (E : (inject_Z k - p == inject_Z k - (inject_Z s + (p - inject_Z s)))%Q) by ring. now rewrite <- E.
Qed.
Lemma interpolate_cells H W v y x : let sy := Qfloor y in let fy := (y - inject_Z sy)%Q in let sx := Qfloor x in let fx := (x - inject_Z sx)%Q in
  let cell i j := inside_or_zero H i (fun i => inside_or_zero W j (v i)) in
  (interpolate tent H W v y x == (1 - fy) * (1 - fx) * cell sy sx + (1 - fy) * fx * cell sy (sx + 1)%Z + fy * (1 - fx) * cell (sy + 1)%Z sx + fy * fx * cell (sy + 1)%Z (sx + 1)%Z)%Q.
Proof.
  cbv zeta. rewrite interpolate_nested. rewrite (axis_sum H y (fun i => qsum W (fun x0 => tent (inject_Z x0 - x) * v i x0)%Q)).
  assert (R : forall i, (qsum W (fun x0 => tent (inject_Z x0 - x) * v i x0) == (1 - (x - inject_Z (Qfloor x))) * inside_or_zero W (Qfloor x) (v i) + (x - inject_Z (Qfloor x)) * inside_or_zero W (Qfloor x + 1) (v i))%Q)
    by (intros i; exact (axis_sum W x (v i))).
  set (a0 := Qfloor y) in *. set (b0 := Qfloor x) in *. clearbody a0 b0.
  assert (T : forall a, (inside_or_zero H a (fun i => qsum W (fun x0 => tent (inject_Z x0 - x) * v i x0)) ==
    (1 - (x - inject_Z b0)) * inside_or_zero H a (fun i => inside_or_zero W b0 (v i)) + (x - inject_Z b0) * inside_or_zero H a (fun i => inside_or_zero W (b0 + 1) (v i)))%Q).
  { intros a. pose proof (R a) as Ra. unfold inside_or_zero at 1 2 4. destruct ((0 <=? a) && (a <? H)); [exact Ra|ring]. }
  rewrite !T. ring.
Qed.
Lemma floor_in n p : (-(1) < p)%Q -> (p < inject_Z n)%Q -> -1 <= Qfloor p < n.
Proof.
  intros L U. destruct (floor_bounds p) as (F1 & F2). split.
  - assert (-1 < Qfloor p + 1); [|lia]. apply inj_lt. rewrite inject_Z_plus. change (inject_Z (-1)) with (-1 # 1)%Q. change (inject_Z 1) with 1%Q. lra.
  - apply inj_lt. lra.
Qed.
Lemma floor_out n p : 0 <= n -> (p <= -(1) \/ inject_Z n <= p)%Q ->
  (Qfloor p + 1 < 0 \/ n <= Qfloor p) \/ ((p - inject_Z (Qfloor p) == 0)%Q /\ Qfloor p = -1).
Proof.
  intros Hn [L|U]; destruct (floor_bounds p) as (F1 & F2).
  - assert (Qfloor p <= -1). { apply inj_le. change (inject_Z (-1)) with (-1 # 1)%Q. lra. }
    destruct (Z.eq_dec (Qfloor p) (-1)) as [E|]; [right|left; left; lia]. split; [|exact E]. rewrite E in *. change (inject_Z (-1)) with (-1 # 1)%Q in *. lra.
  - left. right. assert (n < Qfloor p + 1); [|lia]. apply inj_lt. rewrite inject_Z_plus. change (inject_Z 1) with 1%Q. lra.
Qed.
Lemma interpolate_outside H W v y x : 0 <= H -> 0 <= W -> ((y <= -(1) \/ inject_Z H <= y) \/ (x <= -(1) \/ inject_Z W <= x))%Q -> (interpolate tent H W v y x == 0)%Q.
Proof.
  intros HH HW O. rewrite interpolate_cells. cbv zeta.
  assert (Z0 : forall n p (u : Z -> Q), 0 <= n -> (Qfloor p + 1 < 0 \/ n <= Qfloor p) -> (inside_or_zero n (Qfloor p) u == 0 /\ inside_or_zero n (Qfloor p + 1) u == 0)%Q).
  { intros n p u Hn D. unfold inside_or_zero. destruct (Z.leb_spec 0 (Qfloor p)), (Z.ltb_spec (Qfloor p) n), (Z.leb_spec 0 (Qfloor p + 1)), (Z.ltb_spec (Qfloor p + 1) n); cbn [andb]; split; try reflexivity; exfalso; lia. }
  assert (Z1 : forall n p (u : Z -> Q), (Qfloor p = -1) -> (inside_or_zero n (Qfloor p) u == 0)%Q).
  { intros n p u E. unfold inside_or_zero. rewrite E. reflexivity. }
  destruct O as [O|O].
  - destruct (floor_out _ _ HH O) as [D|(D & E)].
    + destruct (Z0 H y (fun i => inside_or_zero W (Qfloor x) (v i)) HH D) as (A1 & A2). destruct (Z0 H y (fun i => inside_or_zero W (Qfloor x + 1) (v i)) HH D) as (A3 & A4).
      rewrite A1, A2, A3, A4. ring.
    + rewrite (Z1 H y (fun i => inside_or_zero W (Qfloor x) (v i)) E), (Z1 H y (fun i => inside_or_zero W (Qfloor x + 1) (v i)) E), D. ring.
  - assert (Sw : forall i u a, (forall k, inside_or_zero W a (v k) == 0)%Q -> u = inside_or_zero H i (fun k => inside_or_zero W a (v k)) -> (u == 0)%Q).
    { intros i u a A ->. unfold inside_or_zero at 1. destruct ((0 <=? i) && (i <? H)); [apply A|reflexivity]. }
    destruct (floor_out _ _ HW O) as [D|(D & E)].
    + rewrite (Sw (Qfloor y) _ (Qfloor x) (fun k => proj1 (Z0 W x (v k) HW D)) eq_refl), (Sw (Qfloor y) _ (Qfloor x + 1) (fun k => proj2 (Z0 W x (v k) HW D)) eq_refl),
        (Sw (Qfloor y + 1) _ (Qfloor x) (fun k => proj1 (Z0 W x (v k) HW D)) eq_refl), (Sw (Qfloor y + 1) _ (Qfloor x + 1) (fun k => proj2 (Z0 W x (v k) HW D)) eq_refl). ring.
    + rewrite (Sw (Qfloor y) _ (Qfloor x) (fun k => Z1 W x (v k) E) eq_refl), (Sw (Qfloor y + 1) _ (Qfloor x) (fun k => Z1 W x (v k) E) eq_refl), D. ring.
Qed.

(** the sample of the code *)
Lemma bilinear_ok (x : list Qc) im H W y x0 (v : Z -> Z -> Q) :
  (-(1) < y)%Q -> (y < inject_Z H)%Q -> (-(1) < x0)%Q -> (x0 < inject_Z W)%Q ->
  (forall i j, 0 <= i < H -> 0 <= j < W -> exists q, load x (im + (i * W + j)) = SOk q /\ this q = v i j) ->
  exists s, bilinear x im H W y x0 = SOk s /\ (s == interpolate tent H W v y x0)%Q.
Proof.
  intros Y1 Y2 X1 X2 V. pose proof (floor_in H y Y1 Y2) as By. pose proof (floor_in W x0 X1 X2) as Bx.
  pose proof (interpolate_cells H W v y x0) as IC. cbv zeta in IC. unfold bilinear.
  set (hl := Qfloor y) in *. set (wl := Qfloor x0) in *. clearbody hl wl. cbv zeta.
  assert (G : forall (cond : bool) i j, cond = ((0 <=? i) && (i <? H)) && ((0 <=? j) && (j <? W)) ->
    (if cond then lift1 this (load x (im + (i * W + j))) else SOk 0%Q) = SOk (inside_or_zero H i (fun i => inside_or_zero W j (v i)))).
  { intros cond i j ->. unfold inside_or_zero. destruct (Z.leb_spec 0 i), (Z.ltb_spec i H); cbn [andb]; try reflexivity.
    destruct (Z.leb_spec 0 j), (Z.ltb_spec j W); cbn [andb]; try reflexivity. destruct (V i j) as (q & -> & E); [lia|lia|]. cbn [lift1]. now rewrite E. }
  rewrite !G by (repeat match goal with |- context [?a <=? ?b] => destruct (Z.leb_spec a b) | |- context [?a <? ?b] => destruct (Z.ltb_spec a b) end; cbn [andb]; try reflexivity; exfalso; lia).
  cbn [bind2]. eexists. split; [reflexivity|]. rewrite IC. ring.
Qed.
Lemma sampled_ok (x : list Qc) im H W y x0 (v : Z -> Z -> Q) : 0 <= H -> 0 <= W ->
  (forall i j, 0 <= i < H -> 0 <= j < W -> exists q, load x (im + (i * W + j)) = SOk q /\ this q = v i j) ->
  exists s, (if Qltb (-(1)) y && Qltb (-(1)) x0 && Qltb y (inject_Z H) && Qltb x0 (inject_Z W) then bilinear x im H W y x0 else SOk 0%Q) = SOk s /\
    (s == interpolate tent H W v y x0)%Q.
Proof.
  intros HH HW V. pose proof (Qltb_spec (-(1)) y) as A. pose proof (Qltb_spec (-(1)) x0) as B. pose proof (Qltb_spec y (inject_Z H)) as C. pose proof (Qltb_spec x0 (inject_Z W)) as D.
  destruct (Qltb (-(1)) y), (Qltb (-(1)) x0), (Qltb y (inject_Z H)), (Qltb x0 (inject_Z W)); cbn [andb];
    try (exists 0%Q; split; [reflexivity|]; symmetry; apply interpolate_outside; auto; fail).
  now apply bilinear_ok.
Qed.

(** *** The columns *)
Lemma load_elt (t : tensor Qc) c : wf t -> inside (t_shape t) c -> exists q, load (t_data t) (position (t_shape t) c) = SOk q /\ this q = at_ t c /\ elt t c = Some q.
Proof.
  intros (W1 & W2) I. pose proof (position_bound _ _ I) as B. destruct (nth_error (t_data t) (Z.to_nat (position (t_shape t) c))) as [q|] eqn:E.
  - exists q. split; [apply load_inv; split; [lia|exact E]|]. unfold at_, elt. now rewrite E.
  - apply nth_error_None in E. lia.
Qed.

Section Columns.
Variables (N C H W OH OW KH KW G : Z) (win : window) (x off mask : tensor Qc).
Hypothesis ranges : 0 <= N /\ 0 <= C /\ 0 <= H /\ 0 <= W /\ 0 <= OH /\ 0 <= OW /\ 0 <= KH /\ 0 <= KW.
Hypothesis groups_ok : 0 < G /\ (G | C).
Hypothesis x_ok : wf x /\ t_shape x = [N; C; H; W].
Hypothesis off_ok : wf off /\ t_shape off = [N; 2 * (G * (KH * KW)); OH; OW].
Hypothesis mask_ok : wf mask /\ t_shape mask = [N; G * (KH * KW); OH; OW].
Let d := Sizes N C H W OH OW KH KW G.
Definition column_value n c p q i j : Q :=
  tap_value x off mask H W KH KW n c (c / (C / G)) i j p q (stride_h win) (stride_w win) (dil_h win) (dil_w win) (top win) (left_ win).

Lemma group_bound c : 0 <= c < C -> 0 < C / G /\ 0 <= c / (C / G) < G.
Proof.
  intros Hc. destruct groups_ok as (G0 & m & E). subst C. rewrite Z.div_mul by lia. assert (0 < m) by nia. split; [lia|]. split; [apply Z.div_pos; lia|].
  apply Z.div_lt_upper_bound; lia.
Qed.

Lemma tap_ok n c p q i j : 0 <= n < N -> 0 <= c < C -> 0 <= p < KH -> 0 <= q < KW -> 0 <= i < OH -> 0 <= j < OW ->
  tap d win (t_data x) (t_data off) (t_data mask) n c (c / (C / G)) i j p q = SOk (Q2Qc (column_value n c p q i j)).
Proof.
  intros Hn Hc Hp Hq Hi Hj. destruct (group_bound c Hc) as (C0 & Hg). remember (c / (C / G)) as g eqn:Eg.
  destruct x_ok as (Wx & Sx), off_ok as (Wo & So), mask_ok as (Wm & Sm).
  assert (B : 0 <= p * KW + q <= KH * KW - 1) by nia. set (t := g * (KH * KW) + (p * KW + q)).
  assert (Bt : 0 <= t <= G * (KH * KW) - 1) by (unfold t; nia).
  destruct (load_elt off [n; 2 * t; i; j] Wo) as (o1 & L1 & E1 & _). { rewrite So. repeat constructor; lia. }
  destruct (load_elt off [n; 2 * t + 1; i; j] Wo) as (o2 & L2 & E2 & _). { rewrite So. repeat constructor; lia. }
  destruct (load_elt mask [n; t; i; j] Wm) as (m & L3 & E3 & _). { rewrite Sm. repeat constructor; lia. }
  rewrite So in L1, L2. rewrite Sm in L3. cbn [position elements] in L1, L2, L3.
  unfold tap, d. cbn [height_col width_col kernel_h kernel_w groups batch channels height width]. cbv zeta.
  replace ((n * G + g) * (2 * (KH * KW * (OH * OW))) + (2 * (p * KW + q) * OH + i) * OW + j) with (n * (2 * (G * (KH * KW)) * (OH * (OW * 1))) + (2 * t * (OH * (OW * 1)) + (i * (OW * 1) + (j * 1 + 0)))) by (unfold t; ring).
  replace ((n * G + g) * (2 * (KH * KW * (OH * OW))) + ((2 * (p * KW + q) + 1) * OH + i) * OW + j) with (n * (2 * (G * (KH * KW)) * (OH * (OW * 1))) + ((2 * t + 1) * (OH * (OW * 1)) + (i * (OW * 1) + (j * 1 + 0)))) by (unfold t; ring).
  replace ((n * G + g) * (KH * KW * (OH * OW)) + ((p * KW + q) * OH + i) * OW + j) with (n * (G * (KH * KW) * (OH * (OW * 1))) + (t * (OH * (OW * 1)) + (i * (OW * 1) + (j * 1 + 0)))) by (unfold t; ring).
  rewrite L1, L2, L3. cbn [bind2]. rewrite E1, E2.
  set (y := (inject_Z (i * stride_h win - top win + p * dil_h win) + at_ off [n; (2 * t)%Z; i; j])%Q).
  set (x0 := (inject_Z (j * stride_w win - left_ win + q * dil_w win) + at_ off [n; (2 * t + 1)%Z; i; j])%Q).
  destruct (sampled_ok (t_data x) ((n * C + c) * (H * W)) H W y x0 (fun a b => at_ x [n; c; a; b])) as (s & Es & Vs); [lia|lia| |].
  { intros a b Ha Hb. destruct (load_elt x [n; c; a; b] Wx) as (v & Lv & Ev & _). { rewrite Sx. repeat constructor; lia. }
    exists v. split; [|exact Ev]. rewrite Sx in Lv. cbn [position elements] in Lv. rewrite <- Lv. f_equal. ring. }
  rewrite Es. cbn [bind2]. f_equal. apply q2qc_eq. unfold column_value, tap_value. rewrite <- Eg. cbv zeta. fold t. rewrite E3, Vs. unfold y, x0.
  replace (i * stride_h win - top win + p * dil_h win) with (i * stride_h win + p * dil_h win - top win) by ring.
  replace (j * stride_w win - left_ win + q * dil_w win) with (j * stride_w win + q * dil_w win - left_ win) by ring. reflexivity.
Qed.

(** an index of the loop over the columns, and the place it stands for *)
Lemma index_split idx : 0 <= idx < C * N * OH * OW ->
  let j := idx mod OW in let i := (idx / OW) mod OH in let c := (idx / OW / OH) mod C in let n := (idx / OW / OH / C) mod N in
  0 <= n < N /\ 0 <= c < C /\ 0 <= i < OH /\ 0 <= j < OW /\ idx = ((n * C + c) * OH + i) * OW + j.
Proof.
  intros Hx. cbv zeta. assert (0 < OW /\ 0 < OH /\ 0 < C /\ 0 < N) as (P1 & P2 & P3 & P4) by nia.
  pose proof (Z.div_mod idx OW ltac:(lia)) as E1. pose proof (Z.mod_pos_bound idx OW P1) as B1. set (a := idx / OW) in *. clearbody a.
  pose proof (Z.div_mod a OH ltac:(lia)) as E2. pose proof (Z.mod_pos_bound a OH P2) as B2. set (b := a / OH) in *. clearbody b.
  pose proof (Z.div_mod b C ltac:(lia)) as E3. pose proof (Z.mod_pos_bound b C P3) as B3. set (n := b / C) in *. clearbody n.
  set (j := idx mod OW) in *. set (i := a mod OH) in *. set (c := b mod C) in *. clearbody j i c.
  assert (A0 : 0 <= a < C * N * OH) by nia. assert (Bb : 0 <= b < C * N) by nia. assert (Nn : 0 <= n < N) by nia.
  rewrite (Z.mod_small n N) by lia. repeat split; try lia; nia.
Qed.
Lemma index_join n c i j : 0 <= n < N -> 0 <= c < C -> 0 <= i < OH -> 0 <= j < OW -> let idx := ((n * C + c) * OH + i) * OW + j in
  0 <= idx < C * N * OH * OW /\ idx mod OW = j /\ (idx / OW) mod OH = i /\ (idx / OW / OH) mod C = c /\ (idx / OW / OH / C) mod N = n.
Proof.
  intros Hn Hc Hi Hj. cbv zeta. assert (D : forall a b m, 0 <= b < m -> (a * m + b) / m = a /\ (a * m + b) mod m = b).
  { intros a b m Hb. split; [rewrite Z.div_add_l, Z.div_small by lia; lia|rewrite Z.add_comm, Z.mod_add, Z.mod_small by lia; reflexivity]. }
  destruct (D ((n * C + c) * OH + i) j OW Hj) as (-> & ->). destruct (D (n * C + c) i OH Hi) as (-> & ->). destruct (D n c C Hc) as (-> & ->). rewrite (Z.mod_small n) by lia.
  assert (B1 : 0 <= n * C + c <= N * C - 1) by nia. set (u := n * C + c) in *. clearbody u. assert (B2 : 0 <= u * OH + i <= N * C * OH - 1) by nia. set (w := u * OH + i) in *. clearbody w.
  assert (B3 : 0 <= w * OW + j <= N * C * OH * OW - 1) by nia. replace (C * N * OH * OW) with (N * C * OH * OW) by ring. repeat split; lia.
Qed.

Definition column_at (co : list Z) : Qc := match co with [n; c; p; q; i; j] => Q2Qc (column_value n c p q i j) | _ => Q2Qc 0 end.
Let cs := [N; C; KH; KW; OH; OW].

Lemma columns_ok : exists stores cols, im2col d win (t_data x) (t_data off) (t_data mask) = SOk stores /\
  exec (fresh (N * (C * KH * KW) * (OH * OW))) stores = SOk cols /\
  forall n c p q i j, 0 <= n < N -> 0 <= c < C -> 0 <= p < KH -> 0 <= q < KW -> 0 <= i < OH -> 0 <= j < OW ->
    read cols (n * (C * KH * KW * (OH * OW)) + (((c * KH + p) * KW + q) * (OH * OW) + (i * OW + j))) = SOk (Q2Qc (column_value n c p q i j)).
Proof.
  destruct groups_ok as (G0 & GC). unfold im2col, d. cbn [height_col width_col kernel_h kernel_w groups batch channels height width].
  rewrite (proj2 (Z.eqb_neq G 0)) by lia. rewrite Z.quot_div_nonneg by lia.
  assert (Gd : (0 <? C * N * OH * OW) && (C / G =? 0) = false).
  { destruct (Z.ltb_spec 0 (C * N * OH * OW)) as [P|P]; [|reflexivity]. cbn [andb]. apply Z.eqb_neq. assert (0 < C) by nia. destruct (group_bound 0) as (Q & _); lia. }
  rewrite Gd. eexists.
  match goal with |- exists cols, SOk ?tr = _ /\ _ => destruct (grid (N * (C * KH * KW) * (OH * OW)) cs column_at tr) as (out & E & L & P) end.
  - unfold cs. repeat constructor; lia.
  - unfold cs. cbn [elements]. ring.
  - intros a v Hin. apply in_flat_map in Hin. destruct Hin as (idx & Hi & Hin). apply In_upto in Hi.
    destruct (index_split idx Hi) as (Hn & Hc & Hh & Hw & Ei). set (jj := idx mod OW) in *. set (ii := (idx / OW) mod OH) in *.
    set (cc := (idx / OW / OH) mod C) in *. set (nn := (idx / OW / OH / C) mod N) in *.
    apply in_flat_map in Hin. destruct Hin as (p & Hp & Hin). apply in_map_iff in Hin. destruct Hin as (q & Hv & Hq). apply In_upto in Hp. apply In_upto in Hq.
    destruct (group_bound cc Hc) as (C0 & Hg). rewrite Z.quot_div_nonneg in Hv by lia.
    change (Sizes N C H W OH OW KH KW G) with d in Hv. rewrite (tap_ok nn cc p q ii jj Hn Hc Hp Hq Hh Hw) in Hv.
    apply pair_equal_spec in Hv. destruct Hv as (<- & <-). clearbody jj ii cc nn. exists [nn; cc; p; q; ii; jj]. split; [unfold cs; repeat constructor; lia|]. split; [|reflexivity].
    unfold cs. cbn [position elements]. ring.
  - intros l Hl. unfold cs in Hl. destruct l as [|n l]; [inversion Hl|]. apply inside_inv in Hl. destruct Hl as (Hn & Hl). destruct l as [|c l]; [inversion Hl|]. apply inside_inv in Hl. destruct Hl as (Hc & Hl).
    apply inside_4 in Hl. destruct Hl as (p & q & i & j & -> & Hp & Hq & Hi & Hj). destruct (index_join n c i j Hn Hc Hi Hj) as (B & E1 & E2 & E3 & E4).
    eexists. apply in_flat_map. exists (((n * C + c) * OH + i) * OW + j). split; [now apply In_upto|]. rewrite E1, E2, E3, E4.
    apply in_flat_map. exists p. split; [now apply In_upto|]. apply in_map_iff. exists q. split; [|now apply In_upto]. f_equal. unfold cs. cbn [position elements]. ring.
  - exists (map Some out). split; [reflexivity|]. split; [exact E|]. intros n c p q i j Hn Hc Hp Hq Hi Hj.
    destruct (P [n; c; p; q; i; j]) as (_ & R). { unfold cs. repeat constructor; lia. } cbn [column_at] in R. rewrite <- R. f_equal. unfold cs. cbn [position elements]. ring.
Qed.
End Columns.

(** *** One image *)
Lemma one_zero : Q2Qc 1 <> Q2Qc 0.
Proof. intros E. apply (f_equal this) in E. discriminate E. Qed.

Lemma image_ok vec pixels outs k ones columns w bias (f wt : Z -> Z -> Qc) (bs : Z -> Qc) : 0 <= pixels -> 0 <= outs -> 0 <= k ->
  (forall p, 0 <= p < pixels -> ones p = SOk (Q2Qc 1)) -> (forall o, 0 <= o < outs -> load bias o = SOk (bs o)) ->
  (forall t p, 0 <= t < k -> 0 <= p < pixels -> columns (t * pixels + p) = SOk (f t p)) ->
  (forall o t, 0 <= o < outs -> 0 <= t < k -> load w (o * k + t) = SOk (wt o t)) ->
  exists m, image vec pixels outs k ones columns w bias = SOk m /\ Z.of_nat (length m) = outs * pixels /\
    forall o p, 0 <= o < outs -> 0 <= p < pixels ->
      nth_error m (Z.to_nat (o * pixels + p)) = Some (Some (bs o + sum_of (Q2Qc 0) Qcplus k (fun t => wt o t * f t p))%Qc).
Proof.
  intros Hp Ho Hk Ones Bias Cols Wt. unfold image.
  set (ldc := if outs <=? 1 then Z.max pixels 1 else pixels).
  assert (LD : pixels <= ldc) by (unfold ldc; destruct (Z.leb_spec outs 1); lia).
  assert (At : forall o p, 0 <= o < outs -> 0 <= p < pixels -> o * ldc + p = o * pixels + p) by (intros o p Oo Pp; unfold ldc; destruct (Z.leb_spec outs 1); nia).
  assert (In_ : forall (m : list (option Qc)), Z.of_nat (length m) = outs * pixels -> forall o p, 0 <= o < outs -> 0 <= p < pixels -> 0 <= o * ldc + p < Z.of_nat (length m)).
  { intros m Lm o p Oo Pp. rewrite (At o p Oo Pp), Lm. nia. }
  assert (N1 : near32 (Q2Qc 1) (Q2Qc 0) = true -> Q2Qc 1 = Q2Qc 0) by (intros E; vm_compute in E; discriminate E).
  assert (N2 : near32 (Q2Qc 0) (Q2Qc 1) = true -> Q2Qc 0 = Q2Qc 1) by (intros E; vm_compute in E; discriminate E).
  (* the bias *)
  assert (First : exists m1, sgemm vec true pixels outs 1 ones 1 (load bias) 1 (Q2Qc 0) (fresh (outs * pixels)) pixels = SOk m1 /\ length m1 = length (@fresh Qc (outs * pixels)) /\
    forall o p, 0 <= o < outs -> 0 <= p < pixels -> nth_error m1 (Z.to_nat (o * pixels + p)) = Some (Some (bs o))).
  { unfold sgemm, adjusted. cbv iota beta zeta. change (Z.max 1 1) with 1. replace (if pixels <=? 1 then 1 else 1) with 1 by (now destruct (pixels <=? 1)).
    replace (if outs <=? 1 then 1 else 1) with 1 by (now destruct (outs <=? 1)). fold ldc. unfold gemm.
    destruct (row_major_ok _ _ _ _ qc_semi_ring one_zero near32 near32_refl vec false true outs pixels 1 (Q2Qc 1) (load bias) 1 ones 1 (Q2Qc 0) (fresh (outs * pixels)) ldc
      (fun o _ => bs o) (fun _ _ => Q2Qc 1) (fun _ _ => Q2Qc 0)) as (pr & m1 & E1 & E2 & Gd & (Ln & _)); try lia.
    - intros o t Oo Ht. replace (o * 1 + t) with o by lia. now apply Bias.
    - intros t p Ht Pp. replace (p * 1 + t) with p by lia. now apply Ones.
    - apply In_. unfold fresh. rewrite repeat_length. nia.
    - now left.
    - exact N1.
    - exact N2.
    - reflexivity.
    - rewrite E1. exists m1. split; [exact E2|]. split; [exact Ln|]. intros o p Oo Pp. rewrite <- (At o p Oo Pp), (Gd o p Oo Pp). do 2 f_equal.
      change (upto 1) with [0]. unfold sums. cbn [fold_right]. ring. }
  destruct First as (m1 & -> & L1 & V1). cbn [bind2].
  assert (LL : Z.of_nat (length m1) = outs * pixels) by (rewrite L1; unfold fresh; rewrite repeat_length; nia).
  unfold sgemm, adjusted. cbv iota beta zeta. fold ldc. unfold gemm.
  set (lda := if k <=? 1 then Z.max pixels 1 else pixels). set (ldb := if outs <=? 1 then Z.max k 1 else k).
  destruct (row_major_ok _ _ _ _ qc_semi_ring one_zero near32 near32_refl vec false false outs pixels k (Q2Qc 1) (load w) ldb columns lda (Q2Qc 1) m1 ldc
      wt f (fun o _ => bs o)) as (pr & m2 & E1 & E2 & Gd & (Ln & _)); try lia.
  - unfold ldb. destruct (Z.leb_spec outs 1); lia.
  - unfold lda. destruct (Z.leb_spec k 1); lia.
  - intros o t Oo Ht. replace (o * ldb + t) with (o * k + t) by (unfold ldb; destruct (Z.leb_spec outs 1); nia). now apply Wt.
  - intros t p Ht Pp. replace (t * lda + p) with (t * pixels + p) by (unfold lda; destruct (Z.leb_spec k 1); nia). now apply Cols.
  - now apply In_.
  - right. intros o p Oo Pp. rewrite (At o p Oo Pp). now apply V1.
  - exact N1.
  - reflexivity.
  - exact N1.
  - rewrite E1. exists m2. split; [exact E2|]. split; [rewrite Ln; exact LL|]. intros o p Oo Pp. rewrite <- (At o p Oo Pp), (Gd o p Oo Pp). do 2 f_equal.
    unfold sum_of, sums. ring.
Qed.

(** a sum of numbers in lowest terms *)
Lemma this_sum n f : (this (sum_of (Q2Qc 0) Qcplus n f) == qsum n (fun k => this (f k)))%Q.
Proof.
  unfold sum_of, qsum. induction (upto n) as [|a l IH]; cbn [fold_right]; [reflexivity|]. rewrite this_plus, IH. reflexivity.
Qed.
(** a sum over [a * b] terms, line by line *)
Lemma qsum_mul a b f : 0 <= a -> 0 <= b -> (qsum (a * b) f == qsum a (fun i => qsum b (fun j => f (i * b + j)%Z)))%Q.
Proof.
  intros Ha Hb. pattern a. apply natlike_ind; [reflexivity| |exact Ha]. intros k Hk IH.
  assert (S1 : forall n g, 0 <= n -> (qsum (Z.succ n) g == qsum n g + g n)%Q).
  { intros n g Hn. unfold qsum. unfold Z.succ. rewrite upto_S by exact Hn. rewrite fold_right_app. cbn [fold_right]. generalize (upto n). intros l. induction l as [|y l IHl]; cbn [fold_right]; [ring|]. rewrite IHl. ring. }
  rewrite S1 by exact Hk. rewrite <- IH. replace (Z.succ k * b) with (k * b + b) by ring.
  clear IH. pattern b at 2 4. apply natlike_ind; [| |exact Hb].
  - rewrite Z.add_0_r. change (qsum 0 (fun j => f (k * b + j))) with 0%Q. ring.
  - intros j Hj IHj. replace (k * b + Z.succ j) with (Z.succ (k * b + j)) by lia. rewrite !S1 by nia. rewrite IHj. ring.
Qed.
