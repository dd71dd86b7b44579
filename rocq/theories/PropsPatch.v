(** C146: shape_index_patch. *)
From Coq Require Import List ZArith Bool Lia QArith Qround Lqa.
From Verif Require Import ShapeModel ShapeSpec ShapeProofs KernelBase KernelSpec KernelProofs LoopModel LoopProofs ResizeModel ResizeProofs ZooModel TileModel QuantizeModel QuantizeSpec PropsQuantize PatchModel PatchSpec.
Import ListNotations.
Local Open Scope Z_scope.

(** stores that cover the coordinates of a shape in any order *)
Lemma exec_coords {A} (s : list Z) (g : list Z -> A) tr : Forall (fun d => 0 <= d) s ->
  (forall d v, In (d, v) tr -> exists c, inside s c /\ d = position s c /\ v = SOk (g c)) ->
  (forall c, inside s c -> In (position s c) (map fst tr)) ->
  exec (fresh (elements s)) tr = SOk (map Some (map g (loops s))).
Proof.
  intros Hn H1 H2. destruct (Z.eq_dec (elements s) 0) as [E0|E0].
  - assert (L : loops s = []) by (pose proof (length_loops s Hn) as L; rewrite E0 in L; destruct (loops s); [reflexivity|cbn in L; lia]).
    rewrite L, E0. destruct tr as [|[d v] tr]; [reflexivity|]. destruct (H1 d v (or_introl eq_refl)) as (c & Hc & _).
    apply In_loops in Hc. rewrite L in Hc. destruct Hc.
  - assert (Hp : 0 < elements s) by (pose proof (elements_nonneg s Hn); lia).
    assert (exists c0, In c0 (loops s)) as [c0 Hc0].
    { pose proof (length_loops s Hn) as L. destruct (loops s) as [|c l]; [cbn in L; lia|]. exists c. now left. }
    set (f := fun d => match nth_error (loops s) (Z.to_nat d) with Some c => g c | None => g c0 end).
    assert (Hf : forall c, inside s c -> f (position s c) = g c) by (intros c Hc; unfold f; now rewrite (nth_loops s c Hc)).
    rewrite (exec_all f).
    + do 2 f_equal. apply nth_error_ext. intro k. rewrite !nth_error_map. unfold upto. rewrite nth_error_map.
      destruct (Nat.lt_ge_cases k (Z.to_nat (elements s))) as [Hk|Hk].
      * rewrite (nth_error_nth' (seq 0 _) 0%nat) by (now rewrite seq_length). rewrite seq_nth by exact Hk. cbn [option_map plus]. unfold f. rewrite Nat2Z.id.
        destruct (nth_error (loops s) k) eqn:E; [reflexivity|]. apply nth_error_None in E. pose proof (length_loops s Hn). lia.
      * rewrite !(proj2 (nth_error_None _ k)); [reflexivity| |rewrite seq_length; exact Hk]. pose proof (length_loops s Hn). lia.
    + intros d v H. destruct (H1 d v H) as (c & Hc & -> & ->). split; [now apply position_bound|]. now rewrite Hf.
    + intros d Hd. destruct (coordinate_of s d Hn Hd) as (c & Hc & <-). now apply H2.
Qed.

Lemma exec_coords_elt {A} (t : Z) (s : list Z) (g : list Z -> A) c : inside s c -> elt (Tn t s (map g (loops s))) c = Some (g c).
Proof. intro H. unfold elt. cbn [t_shape t_data]. rewrite nth_error_map, (nth_loops s c H). reflexivity. Qed.

Lemma exec_coords_wf {A} (t : Z) (s : list Z) (g : list Z -> A) : Forall (fun d => 0 <= d) s -> wf (Tn t s (map g (loops s))).
Proof. intro H. split; [exact H|]. cbn [t_data t_shape]. rewrite map_length. now apply length_loops. Qed.

(** *** Rounding *)
Definition small : Z := 1073741824.

Lemma truncate_pos v : (0 <= v)%Q -> truncate v = Qfloor v.
Proof. intro H. unfold truncate. pose proof (Qgeb_spec v 0) as E. destruct (Qgeb v 0); [reflexivity|lra]. Qed.
Lemma truncate_neg v : (v < 0)%Q -> truncate v = Qceiling v.
Proof. intro H. unfold truncate. pose proof (Qgeb_spec v 0) as E. destruct (Qgeb v 0); [lra|reflexivity]. Qed.

Lemma to_int_ok v : (- inject_Z small <= v)%Q -> (v <= inject_Z small)%Q -> to_int v = SOk (truncate v).
Proof.
  intros H1 H2. unfold to_int. cbv zeta. replace (fits (truncate v)) with true; [reflexivity|]. symmetry. unfold fits, int_min.
  unfold small in *. change (inject_Z 1073741824) with (1073741824 # 1)%Q in *.
  apply andb_true_iff. rewrite !Z.leb_le. destruct (Qlt_le_dec v 0) as [L|L].
  - rewrite truncate_neg by exact L. unfold Qceiling. destruct (floor_bounds (- v)) as [F1 F2]. set (z := Qfloor (- v)) in *. clearbody z.
    assert (z < 2147483648). { apply inj_lt. change (inject_Z 2147483648) with (2147483648 # 1)%Q. lra. }
    assert (-1 < z). { apply inj_lt. change (inject_Z (-1)) with (-1 # 1)%Q. lra. } lia.
  - rewrite truncate_pos by exact L. destruct (floor_bounds v) as [F1 F2]. set (z := Qfloor v) in *. clearbody z.
    assert (z < 2147483648). { apply inj_lt. change (inject_Z 2147483648) with (2147483648 # 1)%Q. lra. }
    assert (-1 < z). { apply inj_lt. change (inject_Z (-1)) with (-1 # 1)%Q. lra. } lia.
Qed.

(** a half is added before the fraction is dropped *)
Definition starts (s : Q) (y : Z) : Prop :=
  ((- (1 # 2) <= s)%Q -> nearest_up s y) /\ ((s < - (1 # 2))%Q -> (inject_Z y - (3 # 2) < s /\ s <= inject_Z y - (1 # 2))%Q).

Lemma truncate_starts s : starts s (truncate (s + (1 # 2))).
Proof.
  split; intro H.
  - rewrite truncate_pos by lra. destruct (floor_bounds (s + (1 # 2))) as [F1 F2]. split; lra.
  - rewrite truncate_neg by lra. unfold Qceiling. destruct (floor_bounds (- (s + (1 # 2)))) as [F1 F2]. rewrite inject_Z_opp. split; lra.
Qed.

Lemma patch_size_ok patch len origin : 0 <= patch -> 0 <= len -> 0 < origin -> patch * len < small ->
  exists p, patch_size patch len origin = SOk p /\ 0 <= p <= small /\ nearest_up (inject_Z (patch * len) / inject_Z origin) p.
Proof.
  intros Hp Hl Ho Hs. unfold patch_size. rewrite (proj2 (Z.eqb_neq origin 0)) by lia.
  set (v := (inject_Z (patch * len) / inject_Z origin)%Q).
  assert (O1 : (1 <= inject_Z origin)%Q) by (change 1%Q with (inject_Z 1); apply inj_le; lia).
  assert (N0 : (0 <= inject_Z (patch * len))%Q) by (change 0%Q with (inject_Z 0); apply inj_le; nia).
  assert (V0 : (0 <= v)%Q) by (apply Qle_shift_div_l; lra).
  assert (V1 : (v <= inject_Z (small - 1))%Q).
  { apply Qle_shift_div_r; [lra|]. assert (inject_Z (patch * len) <= inject_Z (small - 1))%Q by (apply inj_le; lia). 
    assert (0 <= inject_Z (small - 1))%Q by (unfold small; change (inject_Z (1073741824 - 1)) with (1073741823 # 1)%Q; lra). nra. }
  assert (Es : (inject_Z (small - 1) == inject_Z small - 1)%Q) by reflexivity.
  assert (S0 : (0 <= inject_Z small)%Q) by (unfold small; change (inject_Z 1073741824) with (1073741824 # 1)%Q; lra).
  exists (truncate (v + (1 # 2))). split; [apply to_int_ok; lra|].
  destruct (truncate_starts v) as [T _]. specialize (T ltac:(lra)). split; [|exact T].
  destruct T as [T1 T2]. split.
  - assert (-1 < truncate (v + (1 # 2))); [|lia]. apply inj_lt. change (inject_Z (-1)) with (-1 # 1)%Q. lra.
  - assert (truncate (v + (1 # 2)) < small + 1); [|lia]. apply inj_lt. rewrite inject_Z_plus. change (inject_Z 1) with 1%Q. lra.
Qed.

Lemma corner_ok v len p : (0 <= v <= 1)%Q -> 0 < len <= small -> 0 <= p <= small ->
  exists y, corner v len p = SOk y /\ starts (ideal_start v len p) y.
Proof.
  intros [V0 V1] Hl Hp. unfold corner. fold (ideal_start v len p). set (s := ideal_start v len p).
  assert (B : (- inject_Z small + (1 # 2) <= s /\ s + (1 # 2) <= inject_Z small)%Q).
  { unfold s, ideal_start.
    assert (L0 : (0 <= inject_Z (len - 1))%Q) by (change 0%Q with (inject_Z 0); apply inj_le; lia).
    assert (L1 : (inject_Z (len - 1) <= inject_Z small - 1)%Q). { change (inject_Z small - 1)%Q with (inject_Z (small - 1)). apply inj_le. lia. }
    assert (P0 : (- (1) <= inject_Z (p - 1))%Q) by (change (- (1))%Q with (inject_Z (-1)); apply inj_le; lia).
    assert (P1 : (inject_Z (p - 1) <= inject_Z small - 1)%Q). { change (inject_Z small - 1)%Q with (inject_Z (small - 1)). apply inj_le. lia. }
    assert (HH : (inject_Z (p - 1) / 2 == inject_Z (p - 1) * (1 # 2))%Q) by reflexivity.
    unfold small in *. change (inject_Z 1073741824) with (1073741824 # 1)%Q in *.
    assert (M0 : (0 <= v * inject_Z (len - 1))%Q) by (apply Qmult_le_0_compat; lra).
    assert (M1 : (v * inject_Z (len - 1) <= 1 * inject_Z (len - 1))%Q) by (apply Qmult_le_compat_r; lra). lra. }
  exists (truncate (s + (1 # 2))). split; [apply to_int_ok; lra|]. apply truncate_starts.
Qed.

Lemma inside_5 a b c d e i : inside [a; b; c; d; e] i -> exists n k p l q, i = [n; k; p; l; q] /\ 0 <= n < a /\ 0 <= k < b /\ 0 <= p < c /\ 0 <= l < d /\ 0 <= q < e.
Proof.
  intro H. inversion H as [|? n ? ? H1 R1]; subst. inversion R1 as [|? k ? ? H2 R2]; subst. inversion R2 as [|? p ? ? H3 R3]; subst.
  inversion R3 as [|? l ? ? H4 R4]; subst. inversion R4 as [|? q ? ? H5 R5]; subst. inversion R5; subst. exists n, k, p, l, q. tauto.
Qed.

(** the value that a pixel of a patch gets *)
Definition value (x : tensor Q) (s : Z * Z * Z * Z) (y x0 n c ph pw : Z) : Q :=
  let '(_, cs, h, w) := s in
  if (y + ph <? 0) || (h <=? y + ph) || (x0 + pw <? 0) || (w <=? x0 + pw) then 0%Q
  else nth (Z.to_nat (index4 s n c (y + ph) (x0 + pw))) (t_data x) 0%Q.

Lemma value_or_zero x N C H W y x0 n c ph pw : t_shape x = [N; C; H; W] -> Z.of_nat (length (t_data x)) = elements [N; C; H; W] ->
  0 <= n < N -> 0 <= c < C -> or_zero x H W n c (y + ph) (x0 + pw) (value x (N, C, H, W) y x0 n c ph pw).
Proof.
  intros Es Hl Hn Hc. unfold or_zero, value.
  destruct (Z.ltb_spec (y + ph) 0); [right; split; [lia|reflexivity]|]. destruct (Z.leb_spec H (y + ph)); [right; split; [lia|reflexivity]|].
  destruct (Z.ltb_spec (x0 + pw) 0); [right; split; [lia|reflexivity]|]. destruct (Z.leb_spec W (x0 + pw)); [right; split; [lia|reflexivity]|].
  left. split; [lia|]. split; [lia|]. cbn [orb]. unfold elt. rewrite Es.
  assert (I : inside [N; C; H; W] [n; c; y + ph; x0 + pw]) by (repeat constructor; lia).
  pose proof (position_bound _ _ I) as B. unfold index4.
  replace (((n * C + c) * H + (y + ph)) * W + (x0 + pw)) with (position [N; C; H; W] [n; c; y + ph; x0 + pw]) by (cbn [position elements]; ring).
  apply nth_error_nth'. lia.
Qed.

(** Every patch is the window of the image whose first row and column are the
    rounded ideal ones, with zeros outside the image.  Missing: windows that
    start above or left of the image are rounded the other way
    (C146_corner_refuted); fewer positions than images
    (C146_positions_refuted); rounding errors of the floats. *)
Theorem C146_patches_partial patch origin (x pos : tensor Q) N C H W L :
  wf x -> t_shape x = [N; C; H; W] -> wf pos -> t_shape pos = [N; 2 * L; 1; 1] -> t_dtype pos = t_dtype x -> tile_supports (t_dtype x) = true ->
  0 < H <= small -> 0 < W <= small -> 0 <= fst patch -> 0 <= snd patch -> 0 < fst origin -> 0 < snd origin ->
  fst patch * H < small -> snd patch * W < small ->
  (forall v, In v (t_data pos) -> (0 <= v <= 1)%Q) ->
  exists p q out, shape_index_patch patch origin x pos = SOk (filled out) /\ wf out /\ t_dtype out = t_dtype x /\
    t_shape out = [N; C; p; L; q] /\
    nearest_up (inject_Z (fst patch * H) / inject_Z (fst origin)) p /\ nearest_up (inject_Z (snd patch * W) / inject_Z (snd origin)) q /\
    forall n i vx vy, 0 <= n < N -> 0 <= i < L -> elt pos [n; 2 * i; 0; 0] = Some vx -> elt pos [n; 2 * i + 1; 0; 0] = Some vy ->
      exists y0 x0, starts (ideal_start vy H p) y0 /\ starts (ideal_start vx W q) x0 /\
        forall c ph pw, 0 <= c < C -> 0 <= ph < p -> 0 <= pw < q ->
          exists v, elt out [n; c; ph; i; pw] = Some v /\ or_zero x H W n c (y0 + ph) (x0 + pw) v.
Proof.
  intros [Xn Xd] Xs [Pn Pd] Ps Et Hsup HH HW P1 P2 O1 O2 B1 B2 Hpos. rewrite Xs in Xn, Xd. rewrite Ps in Pn, Pd.
  assert (HN : 0 <= N) by (now inversion Xn). assert (HC : 0 <= C) by (inversion Xn as [|? ? ? R]; now inversion R).
  assert (HL : 0 <= L). { pose proof (Forall_inv (Forall_inv_tail Pn)) as R. cbn beta in R. lia. }
  destruct (patch_size_ok (fst patch) H (fst origin)) as (p & Ep & Hp & Np); [lia..|].
  destruct (patch_size_ok (snd patch) W (snd origin)) as (q & Eq & Hq & Nq); [lia..|].
  set (P := fun n k => nth (Z.to_nat (index2 (2 * L) n k)) (t_data pos) 0%Q).
  assert (Hidx : forall n k, 0 <= n < N -> 0 <= k < 2 * L -> 0 <= index2 (2 * L) n k < Z.of_nat (length (t_data pos))).
  { intros n k Hn Hk. rewrite Pd. cbn [elements]. unfold index2. rewrite !Z.mul_1_r. set (M := 2 * L) in *. clearbody M. assert ((n + 1) * M <= N * M) by (apply Z.mul_le_mono_nonneg_r; lia). assert (0 <= n * M) by (apply Z.mul_nonneg_nonneg; lia). lia. }
  assert (Hload : forall n k, 0 <= n < N -> 0 <= k < 2 * L -> load (t_data pos) (index2 (2 * L) n k) = SOk (P n k)).
  { intros n k Hn Hk. specialize (Hidx n k Hn Hk). unfold load. rewrite (proj2 (Z.ltb_ge _ 0)) by lia. unfold P. now rewrite (nth_error_nth' (t_data pos) 0%Q) by lia. }
  assert (HP : forall n k, 0 <= n < N -> 0 <= k < 2 * L -> (0 <= P n k <= 1)%Q).
  { intros n k Hn Hk. specialize (Hidx n k Hn Hk). apply Hpos. apply nth_In. lia. }
  set (cy := fun n i => truncate (ideal_start (P n (2 * i + 1)) H p + (1 # 2))).
  set (cx := fun n i => truncate (ideal_start (P n (2 * i)) W q + (1 # 2))).
  assert (Hcy : forall n i, 0 <= n < N -> 0 <= i < L -> corner (P n (2 * i + 1)) H p = SOk (cy n i)).
  { intros n i Hn Hi. destruct (corner_ok (P n (2 * i + 1)) H p) as (y & E & _); [apply HP; lia|lia|lia|]. unfold corner in *. unfold cy, ideal_start.
    unfold to_int in *. destruct (fits _); [reflexivity|discriminate]. }
  assert (Hcx : forall n i, 0 <= n < N -> 0 <= i < L -> corner (P n (2 * i)) W q = SOk (cx n i)).
  { intros n i Hn Hi. destruct (corner_ok (P n (2 * i)) W q) as (y & E & _); [apply HP; lia|lia|lia|]. unfold corner in *. unfold cx, ideal_start.
    unfold to_int in *. destruct (fits _); [reflexivity|discriminate]. }
  set (g := fun co => match co with [n; c; ph; i; pw] => value x (N, C, H, W) (cy n i) (cx n i) n c ph pw | _ => 0%Q end).
  set (s := [N; C; p; L; q]).
  assert (Sn : Forall (fun d => 0 <= d) s) by (repeat constructor; lia).
  assert (Hix : forall n c ph i pw, index5 C p L q n c ph i pw = position s [n; c; ph; i; pw]) by (intros; unfold index5, s; cbn [position elements]; ring).
  assert (Run : shape_index_patch patch origin x pos = SOk (filled (Tn (t_dtype x) s (map g (loops s))))).
  { unfold shape_index_patch. rewrite Xs, Ps, Et, Z.eqb_refl. cbn [negb]. replace (Z.rem (2 * L) 2) with 0 by (rewrite Z.mul_comm; symmetry; apply Z.rem_mul; lia).
    change (0 =? 0) with true. cbn [negb]. rewrite Ep, Eq. cbn [bind2]. cbv zeta. rewrite Hsup. cbn [negb].
    replace (Z.quot (2 * L) 2) with L by (rewrite Z.mul_comm; symmetry; apply Z.quot_mul; lia). rewrite prod_elements. fold s.
    rewrite (exec_coords s g); [reflexivity|exact Sn| |].
    - intros d v Hin. apply in_flat_map in Hin. destruct Hin as (i & Hi & Hin). apply in_flat_map in Hin. destruct Hin as (n & Hn & Hin). apply In_upto in Hi. apply In_upto in Hn.
      unfold landmark in Hin. rewrite !Hload in Hin by lia. cbn [bind2] in Hin. rewrite Hcy in Hin by lia. cbn [bind2] in Hin. rewrite Hcx in Hin by lia. cbn [bind2] in Hin.
      apply in_flat_map in Hin. destruct Hin as (c & Hc & Hin). apply in_flat_map in Hin. destruct Hin as (ph & Hph & Hin). apply in_map_iff in Hin. destruct Hin as (pw & Hv & Hpw).
      apply In_upto in Hc. apply In_upto in Hph. apply In_upto in Hpw. exists [n; c; ph; i; pw]. split; [repeat constructor; lia|].
      unfold pixel in Hv. rewrite Hix in Hv. apply pair_equal_spec in Hv. destruct Hv as [<- <-]. split; [reflexivity|]. cbn [g]. unfold value.
      destruct (Z.ltb_spec (cy n i + ph) 0); [reflexivity|]. destruct (Z.leb_spec H (cy n i + ph)); [reflexivity|].
      destruct (Z.ltb_spec (cx n i + pw) 0); [reflexivity|]. destruct (Z.leb_spec W (cx n i + pw)); [reflexivity|]. cbn [orb].
      assert (I : inside [N; C; H; W] [n; c; cy n i + ph; cx n i + pw]) by (repeat constructor; lia).
      pose proof (position_bound _ _ I) as B.
      assert (E4 : index4 (N, C, H, W) n c (cy n i + ph) (cx n i + pw) = position [N; C; H; W] [n; c; cy n i + ph; cx n i + pw]) by (unfold index4; cbn [position elements]; ring).
      rewrite E4. unfold load. rewrite (proj2 (Z.ltb_ge _ 0)) by lia. now rewrite (nth_error_nth' (t_data x) 0%Q) by lia.
    - intros co Hco. apply inside_5 in Hco. destruct Hco as (n & c & ph & i & pw & -> & Hn & Hc & Hph & Hi & Hpw). apply in_map_iff.
      exists (pixel (t_data x) (N, C, H, W) p L q i n (cy n i) (cx n i) c ph pw). split; [unfold pixel; cbn [fst]; apply Hix|].
      apply in_flat_map. exists i. split; [apply In_upto; lia|]. apply in_flat_map. exists n. split; [apply In_upto; lia|].
      unfold landmark. rewrite !Hload by lia. cbn [bind2]. rewrite Hcy by lia. cbn [bind2]. rewrite Hcx by lia. cbn [bind2].
      apply in_flat_map. exists c. split; [apply In_upto; lia|]. apply in_flat_map. exists ph. split; [apply In_upto; lia|]. apply in_map_iff. exists pw. split; [reflexivity|apply In_upto; lia]. }
  exists p, q, (Tn (t_dtype x) s (map g (loops s))). split; [exact Run|]. split; [now apply exec_coords_wf|]. split; [reflexivity|]. split; [reflexivity|].
  split; [exact Np|]. split; [exact Nq|]. intros n i vx vy Hn Hi Hvx Hvy.
  assert (EP : forall k v, elt pos [n; k; 0; 0] = Some v -> v = P n k).
  { intros k v E. unfold elt in E. rewrite Ps in E. apply nth_error_nth with (d := 0%Q) in E. rewrite <- E. unfold P, index2. f_equal. f_equal. cbn [position elements]. ring. }
  apply EP in Hvx. apply EP in Hvy. subst vx vy.
  exists (cy n i), (cx n i). split; [apply truncate_starts|]. split; [apply truncate_starts|].
  intros c ph pw Hc Hph Hpw. exists (g [n; c; ph; i; pw]). split; [apply exec_coords_elt; repeat constructor; lia|].
  cbn [g]. now apply value_or_zero.
Qed.
Print Assumptions C146_patches_partial.

(** Refused: other ranks, types that differ, an odd number of positions. *)
Theorem C146_refused patch origin x pos :
  length (t_shape x) <> 4%nat \/ length (t_shape pos) <> 4%nat \/ t_dtype x <> t_dtype pos \/ (exists a b, t_shape pos = a :: b /\ Z.odd (hd 0 b) = true) ->
  shape_index_patch patch origin x pos = SErr.
Proof.
  intro H. unfold shape_index_patch.
  destruct (t_shape x) as [|n [|cs [|h [|w [|]]]]]; try reflexivity.
  destruct (t_shape pos) as [|r [|cols [|d [|e [|]]]]]; try reflexivity.
  destruct (Z.eqb_spec (t_dtype x) (t_dtype pos)) as [E|E]; [|reflexivity]. cbn [negb].
  destruct (Z.eqb_spec (Z.rem cols 2) 0) as [E2|E2]; [|reflexivity]. exfalso.
  destruct H as [H|[H|[H|(a & b & H & Ho)]]]; [now apply H|now apply H|now apply H|]. injection H as <- <-. cbn [hd] in Ho.
  apply Z.rem_divide in E2; [|lia]. destruct E2 as [k ->]. rewrite Z.odd_mul in Ho. cbn in Ho. now rewrite andb_false_r in Ho.
Qed.
Print Assumptions C146_refused.

(** A patch of five rows and columns at the landmark (0, 0) of a 5 x 5 image of
    ones: it starts one pixel, not two, outside the image. *)
Theorem C146_corner_refuted :
  exists out, shape_index_patch (5, 5) (5, 5) (Tn 10 [1; 1; 5; 5] (repeat 1%Q 25)) (Tn 10 [1; 2; 1; 1] [0%Q; 0%Q]) = SOk (filled out) /\
    t_shape out = [1; 1; 5; 1; 5] /\ ideal_start 0 5 5 == inject_Z (-2) /\ elt out [0; 0; 1; 0; 1] = Some 1%Q.
Proof. exists (Tn 10 [1; 1; 5; 1; 5] (repeat 0%Q 5 ++ concat (repeat (0%Q :: repeat 1%Q 4) 4))). split; [vm_compute; reflexivity|]. split; [reflexivity|]. split; [reflexivity|]. vm_compute. reflexivity. Qed.
Print Assumptions C146_corner_refuted.

(** Two images and the positions of one: reads past the end of the positions. *)
Theorem C146_positions_refuted :
  shape_index_patch (1, 1) (2, 2) (Tn 10 [2; 1; 2; 2] (repeat 1%Q 8)) (Tn 10 [1; 2; 1; 1] [0%Q; 0%Q]) = SUndef.
Proof. vm_compute. reflexivity. Qed.
Print Assumptions C146_positions_refuted.

Example C146_example :
  shape_index_patch (2, 2) (4, 4) (Tn 10 [1; 1; 4; 4] (map inject_Z (upto 16))) (Tn 10 [1; 4; 1; 1] [(2 # 3)%Q; (1 # 3)%Q; 1%Q; 1%Q])
  = SOk (filled (Tn 10 [1; 1; 2; 2; 2] [6%Q; 7%Q; 15%Q; 0%Q; 10%Q; 11%Q; 0%Q; 0%Q])).
Proof. vm_compute. reflexivity. Qed.
