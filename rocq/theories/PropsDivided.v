(** C132: padding to multiples. *)
From Coq Require Import List ZArith Bool Lia.
From Verif Require Import ShapeModel ShapeSpec ShapeProofs KernelBase KernelSpec KernelProofs TileModel PadModel PadSpec PropsPad ResizeModel ZooModel ZooSpec PropsZoo.
Import ListNotations.
Local Open Scope Z_scope.

(** ** The quotient of floats *)
Lemma div_even_bounds n d : 0 < d -> n / d <= div_even n d <= n / d + 1.
Proof. intros H. unfold div_even. cbv zeta. destruct (2 * (n mod d) <? d); [lia|]. destruct (d <? 2 * (n mod d)); [lia|]. destruct (Z.even (n / d)); lia. Qed.
Lemma div_even_exact i d : 0 < d -> div_even (i * d) d = i.
Proof. intros H. unfold div_even. cbv zeta. rewrite Z.mod_mul, Z.div_mul by lia. rewrite (proj2 (Z.ltb_lt _ _)) by lia. reflexivity. Qed.
Lemma div_even_up n d : 0 < d -> d < 2 * (n mod d) -> div_even n d = n / d + 1.
Proof. intros H H2. unfold div_even. cbv zeta. rewrite (proj2 (Z.ltb_ge _ _)), (proj2 (Z.ltb_lt _ _)) by lia. reflexivity. Qed.
Definition p24 : Z := 2 ^ 24.
Lemma p24_val : p24 = 16777216. Proof. reflexivity. Qed.
Lemma float_of_exact n : 0 < n <= p24 -> float_of n = n.
Proof.
  intros H. unfold float_of. cbv zeta. destruct (Z.eq_dec n p24) as [->|Hn]; [reflexivity|].
  assert (L : Z.log2 n <= 23). { assert (Z.log2 n < 24); [|lia]. apply Z.log2_lt_pow2; [lia|]. fold p24. lia. }
  rewrite Z.max_l by lia. change (2 ^ 0) with 1. replace n with (n * 1) at 1 by lia. rewrite div_even_exact by lia. lia.
Qed.
(** the exponent: positive only from 2^24 on, and the quotient has 24 digits *)
Lemma float_div_exponent n d : 0 < n <= p24 -> 0 < d -> n < p24 * d \/ n = p24 * d -> exists e, (n < p24 * d -> e <= 0) /\ (n = p24 * d -> e <= 1) /\
  float_div n d = (div_even (n * 2 ^ Z.max (- e) 0) (d * 2 ^ Z.max e 0) * 2 ^ Z.max e 0, 2 ^ Z.max (- e) 0) /\ 2 ^ 23 * (d * 2 ^ Z.max e 0) <= n * 2 ^ Z.max (- e) 0.
Proof.
  intros Hn Hd Hr. unfold float_div. cbv zeta. set (k := Z.log2 n - Z.log2 d).
  pose proof (Z.log2_spec n ltac:(lia)) as [N1 N2]. pose proof (Z.log2_spec d ltac:(lia)) as [D1 D2]. pose proof (Z.log2_nonneg n) as Ln. pose proof (Z.log2_nonneg d) as Ld.
  assert (L24 : Z.log2 n <= 24). { assert (Z.log2 n < 25); [|lia]. apply Z.log2_lt_pow2; [lia|]. change (2 ^ 25) with (2 * p24). rewrite p24_val in *. lia. }
  rewrite Z.pow_succ_r in N2, D2 by lia.
  (* n / d against powers of two *)
  assert (Pw : forall a b, 0 <= a -> a <= b -> 2 ^ b = 2 ^ a * 2 ^ (b - a)). { intros a b Ha Hb. rewrite <- Z.pow_add_r by lia. f_equal. lia. }
  assert (Pp : forall a, 0 <= a -> 0 < 2 ^ a) by (intros; apply Z.pow_pos_nonneg; lia).
  set (b := d * 2 ^ Z.max k 0 <=? n * 2 ^ Z.max (- k) 0). set (e := if b then k - 23 else k - 24). exists e.
  assert (K : k <= 24) by (unfold k; lia).
  assert (Low : 2 ^ 23 * (d * 2 ^ Z.max e 0) <= n * 2 ^ Z.max (- e) 0).
  { unfold e, b. destruct (Z.leb_spec (d * 2 ^ Z.max k 0) (n * 2 ^ Z.max (- k) 0)) as [B|B].
    - destruct (Z_le_gt_dec k 0) as [Hk|Hk].
      + rewrite Z.max_r in B by lia. rewrite (Z.max_l (- k) 0) in B by lia. rewrite (Z.max_r (k - 23) 0), (Z.max_l (- (k - 23)) 0) by lia. rewrite (Pw (- k) (- (k - 23))) by lia. replace (- (k - 23) - - k) with 23 by lia. change (2 ^ 0) with 1 in *. nia.
      + rewrite Z.max_l in B by lia. rewrite (Z.max_r (- k) 0) in B by lia. change (2 ^ 0) with 1 in B. destruct (Z_le_gt_dec k 23) as [Hk2|Hk2].
        * rewrite (Z.max_r (k - 23) 0), (Z.max_l (- (k - 23)) 0) by lia. change (2 ^ 0) with 1. rewrite (Pw k 23) by lia. replace (- (k - 23)) with (23 - k) by lia. pose proof (Pp (23 - k) ltac:(lia)). nia.
        * rewrite (Z.max_l (k - 23) 0), (Z.max_r (- (k - 23)) 0) by lia. change (2 ^ 0) with 1. rewrite (Pw 23 k) in B by lia. nia.
    - (* d * 2^k > n >= 2^(log n), d < 2^(log d + 1): 2^(k-1) <= n / d *)
      destruct (Z_le_gt_dec k 24) as [Hk|Hk]; [|lia]. rewrite (Z.max_r (k - 24) 0), (Z.max_l (- (k - 24)) 0) by lia. change (2 ^ 0) with 1.
      assert (E1 : 2 ^ Z.log2 n * 2 ^ (- (k - 24)) = 2 ^ 24 * 2 ^ Z.log2 d). { rewrite <- !Z.pow_add_r by lia. f_equal. unfold k. lia. }
      pose proof (Pp (- (k - 24)) ltac:(lia)). pose proof (Pp (Z.log2 d) Ld). change (2 ^ 24) with (2 * 2 ^ 23) in E1. nia. }
  split; [|split; [|split; [reflexivity|exact Low]]].
  - intros Hlt. destruct (Z_le_gt_dec e 0) as [He|He]; [exact He|]. exfalso. rewrite (Z.max_l e 0), (Z.max_r (- e) 0) in Low by lia. change (2 ^ 0) with 1 in Low.
    assert (2 <= 2 ^ e) by (change 2 with (2 ^ 1) at 1; apply Z.pow_le_mono_r; lia). unfold p24 in Hlt. change (2 ^ 24) with (2 * 2 ^ 23) in Hlt. nia.
  - intros Heq. destruct (Z_le_gt_dec e 1) as [He|He]; [exact He|]. exfalso. rewrite (Z.max_l e 0), (Z.max_r (- e) 0) in Low by lia. change (2 ^ 0) with 1 in Low.
    assert (4 <= 2 ^ e) by (change 4 with (2 ^ 2); apply Z.pow_le_mono_r; lia). unfold p24 in Heq. change (2 ^ 24) with (2 * 2 ^ 23) in Heq. nia.
Qed.
Lemma ceil_unique f q : 0 < snd f -> (q - 1) * snd f < fst f <= q * snd f -> ceil f = q.
Proof.
  intros H1 H2. unfold ceil. assert (E : - fst f / snd f = - q); [|lia]. symmetry. apply (Z.div_unique _ _ _ (q * snd f - fst f)); nia.
Qed.
(** the ceiling of the rounded quotient is that of the quotient *)
Lemma float_ceil n d q : 0 < n <= p24 -> 0 < d -> (q - 1) * d < n <= q * d -> ceil (float_div n d) = q.
Proof.
  intros Hn Hd Hq. assert (Q1 : 1 <= q) by nia. assert (Qn : q <= n) by nia.
  assert (Hr : n < p24 * d \/ n = p24 * d) by nia. destruct (float_div_exponent n d Hn Hd Hr) as (e & E1 & E2 & -> & Low). apply ceil_unique; cbn [fst snd]; [apply Z.pow_pos_nonneg; lia|].
  destruct (Z_le_gt_dec e 0) as [He|He].
  - rewrite (Z.max_r e 0), (Z.max_l (- e) 0) in * by lia. change (2 ^ 0) with 1 in *. rewrite !Z.mul_1_r in *. set (B := 2 ^ (- e)) in *. assert (HB : 1 <= B) by (assert (0 < B) by (apply Z.pow_pos_nonneg; lia); lia). clearbody B.
    destruct (Z.eq_dec n (q * d)) as [En|Nn].
    + subst n. replace (q * d * B) with (q * B * d) by ring. rewrite div_even_exact by lia. nia.
    + pose proof (div_even_bounds (n * B) d Hd) as [L1 L2].
      assert (U : n * B / d < q * B) by (apply Z.div_lt_upper_bound; nia). split; [|lia].
      assert (Lo : (q - 1) * B <= n * B / d) by (apply Z.div_le_lower_bound; nia).
      destruct (Z.eq_dec (n * B / d) ((q - 1) * B)) as [Eq|Nq]; [|lia].
      (* the remainder is at least B, and 2 * B > d *)
      pose proof (Z.div_mod (n * B) d ltac:(lia)) as Dm. rewrite Eq in Dm. set (r := n * B mod d) in *.
      assert (R : B <= r) by nia.
      assert (Big : 2 ^ 23 <= n * B / d) by (apply Z.div_le_lower_bound; lia). rewrite Eq in Big. unfold p24 in Hn. change (2 ^ 24) with (2 * 2 ^ 23) in Hn. set (P := 2 ^ 23) in *. clearbody P.
      assert (2 * B > d). { assert (0 < q - 1) by nia. nia. }
      rewrite div_even_up by (fold r; lia). rewrite Eq. lia.
  - assert (En : n = p24 * d) by (destruct Hr as [Hr|Hr]; [specialize (E1 Hr); lia|exact Hr]). assert (d = 1) by nia. subst d. assert (e = 1) by (specialize (E2 En); lia). subst e. assert (q = p24) by lia. subst q n. cbn. lia.
Qed.
(** ** C132 *)
Lemma divided_axis_ok y s : 0 <= y <= p24 -> 0 < s <= p24 -> exists z, divided_axis y s = SOk z /\ least_multiple s y z.
Proof.
  intros Hy Hs. unfold divided_axis. destruct (Z.eqb_spec s 1) as [->|N1].
  { exists y. split; [reflexivity|]. split; [exists y; lia|lia]. }
  rewrite (proj2 (Z.leb_gt s 0)) by lia. destruct (Z.eqb_spec y 0) as [->|N0].
  { exists 0. split; [reflexivity|]. split; [exists 0; lia|lia]. }
  rewrite !float_of_exact by lia. set (q := (y + s - 1) / s).
  assert (Hq : (q - 1) * s < y <= q * s).
  { unfold q. pose proof (Z.mul_div_le (y + s - 1) s ltac:(lia)). pose proof (Z.mul_succ_div_gt (y + s - 1) s ltac:(lia)). nia. }
  rewrite (float_ceil y s q) by lia. assert (1 <= q) by nia. cbv zeta. rewrite !(proj2 (Z.ltb_ge int_max _)) by (unfold int_max; rewrite p24_val in *; nia). cbn [orb].
  exists (q * s). split; [reflexivity|]. split; [exists q; reflexivity|lia].
Qed.
Lemma F2_rev {B C} (R : B -> C -> Prop) : forall a b, Forall2 R a b -> Forall2 R (rev a) (rev b).
Proof. induction 1; cbn [rev]; [constructor|]. apply Forall2_app; [assumption|]. constructor; [assumption|constructor]. Qed.
(** the sizes are aligned with the last axes *)
Lemma divided_rev_ok : forall strides x rest, length x = length strides -> Forall (fun y => 0 <= y <= p24) x -> Forall (fun s => 0 < s <= p24) strides ->
  exists z, divided_rev (x ++ rest) strides = SOk (z ++ rest) /\ Forall2 (fun ys z => least_multiple (snd ys) (fst ys) z) (combine x strides) z.
Proof.
  induction strides as [|s strides IH]; intros [|y x] rest L Hx Hs; try discriminate; cbn [app divided_rev]; [exists []; split; [destruct rest; reflexivity|constructor]|].
  inversion Hx; subst. inversion Hs; subst. destruct (divided_axis_ok y s) as (z & -> & M); [assumption|assumption|]. cbn [bind2].
  destruct (IH x rest) as (zs & -> & F); [now injection L|assumption|assumption|]. cbn [bind2]. exists (z :: zs). split; [reflexivity|]. constructor; assumption.
Qed.
Lemma combine_rev_eq {B C} : forall (a : list B) (b : list C), length a = length b -> combine (rev a) (rev b) = rev (combine a b).
Proof.
  induction a as [|x a IH]; intros [|y b] L; try discriminate; [reflexivity|]. cbn [rev combine]. rewrite <- IH by (injection L; auto).
  assert (G : forall (u : list B) (v : list C) p q, length u = length v -> combine (u ++ [p]) (v ++ [q]) = combine u v ++ [(p, q)]).
  { clear. induction u as [|m u IH]; intros [|k v] p q L; try discriminate; [reflexivity|]. cbn [app combine]. now rewrite IH by (injection L; auto). }
  apply G. rewrite !rev_length. now injection L.
Qed.
Lemma divided_shape_ok lead shape strides : length shape = length strides -> Forall (fun y => 0 <= y <= p24) shape -> Forall (fun s => 0 < s <= p24) strides ->
  exists z, divided_shape (lead ++ shape) strides = SOk (lead ++ z) /\ Forall2 (fun ys z => least_multiple (snd ys) (fst ys) z) (combine shape strides) z.
Proof.
  intros L Hx Hs. unfold divided_shape. rewrite (proj2 (Nat.ltb_ge _ _)) by (rewrite app_length; lia). rewrite rev_app_distr.
  destruct (divided_rev_ok (rev strides) (rev shape) (rev lead)) as (z & -> & F); [rewrite !rev_length; exact L|now apply Forall_rev|now apply Forall_rev|].
  cbn [bind2]. exists (rev z). split; [rewrite rev_app_distr, rev_involutive; reflexivity|]. rewrite combine_rev_eq in F by exact L. apply F2_rev in F. now rewrite rev_involutive in F.
Qed.
(** The last axes are padded behind to the next multiples of the strides; nothing else changes. Sizes and strides up to 2^24. *)
Theorem C132_divided_partial {A} (value : A) (x : tensor A) lead shape strides : wf x -> t_shape x = lead ++ shape -> length strides = length shape -> positive_shape (t_shape x) -> tile_supports (t_dtype x) = true ->
  Forall (fun y => y <= p24) shape -> Forall (fun s => 0 < s <= p24) strides ->
  exists want out, divided strides value x = SOk (filled out) /\ wf out /\ Forall2 (fun ys z => least_multiple (snd ys) (fst ys) z) (combine shape strides) want /\
    window value (repeat 0 (length (t_shape x))) (lead ++ want) x out.
Proof.
  intros W Es L Hp Sup Hy Hs. assert (Hps : Forall (fun y => 0 < y) shape) by (rewrite Es in Hp; apply Forall_app in Hp; tauto).
  destruct (divided_shape_ok lead shape strides) as (want & Ed & F); [now symmetry| |exact Hs|].
  { rewrite Forall_forall in *. intros y Hi. specialize (Hy y Hi). specialize (Hps y Hi). lia. }
  unfold divided. rewrite Es, Ed. cbn [bind2]. set (pads := map _ _).
  assert (Lw : length want = length shape). { clear - F L. assert (G : length (combine shape strides) = length want) by (clear L; induction F; cbn [length]; auto). rewrite combine_length in G. lia. }
  assert (Lp : length pads = length (t_shape x)) by (unfold pads; rewrite map_length, combine_length, Es, !app_length; lia).
  assert (Lq : length (lead ++ want) = length (t_shape x)) by (rewrite Es, !app_length; lia).
  assert (Ge : Forall2 (fun y z => y <= z) (t_shape x) (lead ++ want)).
  { rewrite Es. apply Forall2_app; [clear; induction lead; constructor; [lia|assumption]|]. clear - F L. revert strides want L F. induction shape as [|y s IH]; intros [|k st] want L F; try discriminate; inversion F as [|? ? ? ? [_ M] F']; subst; constructor; [cbn [fst] in M; lia|]. eapply IH; [|exact F']. now injection L. }
  assert (Ew : lead ++ want = map (fun sp => fst sp + fst (snd sp) + snd (snd sp)) (combine (t_shape x) pads)).
  { unfold pads. rewrite <- Es. clear - Lq. revert Lq. generalize (lead ++ want) as l. generalize (t_shape x) as s. induction s as [|a s IH]; intros [|b l] Lq; try discriminate; [reflexivity|]. cbn [combine map fst snd]. rewrite <- IH by (injection Lq; auto). f_equal. lia. }
  destruct (pad_window pads value x (lead ++ want) W Lp Ew) as (out & E & Wo & P).
  - clear - Hp Ge. unfold positive_shape in *. induction Ge; constructor; inversion Hp; subst; [lia|auto].
  - exact Sup.
  - intros Hl. unfold pads. rewrite <- Es. clear - Ge Hl Lp. destruct Ge as [|a b s l Hab Ge]; [cbn; lia|]. cbn [combine map nth fst snd]. lia.
  - exists want, out. split; [exact E|]. split; [exact Wo|]. split; [exact F|]. rewrite <- Es, <- Lq. replace (repeat 0 (length (lead ++ want))) with (map (fun p : Z * Z => - fst p) pads); [exact P|].
    unfold pads. rewrite <- Es. clear - Lq. revert Lq. generalize (lead ++ want) as l. generalize (t_shape x) as s. induction s as [|a s IH]; intros [|b l] Lq; try discriminate; [reflexivity|]. cbn [length repeat combine map fst snd]. rewrite IH by (injection Lq; auto). reflexivity.
Qed.
(** More strides than axes are refused. *)
Theorem C132_refused {A} (value : A) (x : tensor A) strides : (length (t_shape x) < length strides)%nat -> divided strides value x = SErr.
Proof. intros H. unfold divided, divided_shape. rewrite (proj2 (Nat.ltb_lt _ _) H). reflexivity. Qed.
Print Assumptions C132_divided_partial.
Print Assumptions C132_refused.
Example C132_example : divided [2; 4] 0 (Tn 2 [1; 3; 3] [1; 2; 3; 4; 5; 6; 7; 8; 9]) = SOk (filled (Tn 2 [1; 4; 4] [1; 2; 3; 0; 4; 5; 6; 0; 7; 8; 9; 0; 0; 0; 0; 0])).
Proof. reflexivity. Qed.
(** Above 2^24 the size rounds as a float: one element more than a multiple is taken for the multiple, and the axis is left as it is not a multiple. *)
Theorem C132_float_refuted : exists y s, 0 < y /\ 0 < s /\ s <> 1 /\ exists z, divided_axis y s = SOk z /\ ~ least_multiple s y z /\ z < y.
Proof.
  exists 16777217, 16777216. split; [lia|]. split; [lia|]. split; [lia|]. exists 16777216. split; [reflexivity|]. split; [|lia]. intros [_ H]. lia.
Qed.
(** A stride of zero is not refused. *)
Theorem C132_zero_refuted : exists x : tensor Z, wf x /\ divided [0] 0 x = SUndef.
Proof. exists (Tn 2 [3] [1; 2; 3]). split; [split; [repeat constructor; lia|reflexivity]|reflexivity]. Qed.
Print Assumptions C132_float_refuted.
Print Assumptions C132_zero_refuted.
