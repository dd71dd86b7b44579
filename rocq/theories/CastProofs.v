(** Proofs about the conversions. *)
From Coq Require Import Ascii String List ZArith Bool Lia.
From Verif Require Import ShapeModel ShapeSpec ShapeProofs KernelBase KernelSpec KernelProofs EltwiseModel EltwiseKernelProofs CastModel CastSpec.
Import ListNotations.
Local Open Scope Z_scope.

Lemma scale_pos : 0 < scale.
Proof. reflexivity. Qed.
Lemma range_bits t : range t = match bits t with Some (w, true) => Some (- 2 ^ (w - 1), 2 ^ (w - 1) - 1) | Some (w, false) => Some (0, 2 ^ w - 1) | None => None end.
Proof.
  assert (H : t < 1 \/ 21 < t \/ In t [1;2;3;4;5;6;7;8;9;10;11;12;13;14;15;16;17;18;19;20;21]) by (cbn [In]; lia).
  destruct H as [H|[H|H]].
  - unfold range, bits. repeat (match goal with |- context[t =? ?k] => rewrite (proj2 (Z.eqb_neq t k)) by lia end). destruct t; try reflexivity; lia.
  - unfold range, bits. repeat (match goal with |- context[t =? ?k] => rewrite (proj2 (Z.eqb_neq t k)) by lia end).
    destruct t as [|p|p]; try reflexivity. do 5 (destruct p as [p|p|]; try reflexivity; try lia).
  - cbn [In] in H. repeat (destruct H as [<-|H]; [reflexivity|]). destruct H.
Qed.
Lemma range_fits t lo hi : range t = Some (lo, hi) <-> exists w s, bits t = Some (w, s) /\ lo <= hi /\ hi - lo + 1 = 2 ^ w /\ (forall n, fits w s n <-> lo <= n <= hi) /\ lo <= 0 <= hi /\ (lo, hi) = (if s then (- 2 ^ (w - 1), 2 ^ (w - 1) - 1) else (0, 2 ^ w - 1)).
Proof.
  rewrite range_bits.
  assert (B : forall w s, bits t = Some (w, s) -> w = 8 \/ w = 16 \/ w = 32 \/ w = 64).
  { unfold bits. intros w s E. destruct t as [|p|p]; try discriminate. do 5 (destruct p as [p|p|]; try discriminate; try (injection E as <- <-; auto)). }
  destruct (bits t) as [[w s]|].
  - specialize (B w s eq_refl). split.
    + intros E. exists w, s. split; [reflexivity|]. destruct s; injection E as <- <-; unfold fits; destruct B as [-> |[-> |[-> | ->]]]; cbn; (split; [lia|split; [lia|split; [intros; lia|split; [lia|reflexivity]]]]).
    + intros (w' & s' & [= <- <-] & _ & _ & _ & _ & E). destruct s; now rewrite E.
  - split; [discriminate|]. intros (w & s & [=] & _).
Qed.

(** ** integers *)
Lemma wrap_mod lo hi z : lo <= hi -> lo <= wrap lo hi z <= hi /\ (wrap lo hi z - z) mod (hi - lo + 1) = 0.
Proof.
  intros H. unfold wrap. pose proof (Z.mod_pos_bound (z - lo) (hi - lo + 1)) as B. split; [lia|].
  pose proof (Z.div_mod (z - lo) (hi - lo + 1)) as D.
  replace (lo + (z - lo) mod (hi - lo + 1) - z) with ((- ((z - lo) / (hi - lo + 1))) * (hi - lo + 1)) by lia.
  apply Z.mod_mul. lia.
Qed.
Lemma wrap_id lo hi z : lo <= z <= hi -> wrap lo hi z = z.
Proof. intros H. unfold wrap. rewrite Z.mod_small by lia. lia. Qed.

(** ** rounding *)
Lemma nearest_spec d v : 0 <= d -> exists q, nearest d v = q * 2 ^ d /\ 2 * Z.abs (v - nearest d v) <= 2 ^ d /\ (2 * Z.abs (v - nearest d v) = 2 ^ d -> Z.even q = true).
Proof.
  intros Hd. unfold nearest. set (u := 2 ^ d). assert (Hu : 0 < u) by (apply Z.pow_pos_nonneg; lia).
  pose proof (Z.div_mod v u) as D. pose proof (Z.mod_pos_bound v u Hu) as B.
  destruct ((2 * (v mod u) <? u) || ((2 * (v mod u) =? u) && Z.even (v / u))) eqn:E.
  - exists (v / u). split; [reflexivity|]. assert (X : v - v / u * u = v mod u) by lia. rewrite X.
    apply orb_true_iff in E. destruct E as [E|E].
    + apply Z.ltb_lt in E. split; [lia|]. lia.
    + apply andb_true_iff in E. destruct E as [E1 E2]. apply Z.eqb_eq in E1. split; [lia|]. intros _. exact E2.
  - exists (v / u + 1). split; [reflexivity|]. assert (X : v - (v / u + 1) * u = v mod u - u) by lia. rewrite X.
    apply orb_false_iff in E. destruct E as [E1 E2]. apply Z.ltb_ge in E1. split; [lia|]. intros T.
    assert (T' : 2 * (v mod u) = u) by lia. rewrite (proj2 (Z.eqb_eq _ _) T') in E2. cbn [andb] in E2.
    rewrite Z.even_add, E2. reflexivity.
Qed.
Lemma nearest_multiple d v w' : 0 <= d -> (exists q, w' = q * 2 ^ d) -> Z.abs (v - nearest d v) <= Z.abs (v - w').
Proof.
  intros Hd (q' & ->). destruct (nearest_spec d v Hd) as (q & E & H & _). rewrite E in *. set (u := 2 ^ d) in *.
  assert (Hu : 0 < u) by (apply Z.pow_pos_nonneg; lia).
  destruct (Z.eq_dec q q') as [->|N]; [lia|].
  assert (u <= Z.abs (q * u - q' * u)) by (replace (q * u - q' * u) with ((q - q') * u) by lia; rewrite Z.abs_mul, (Z.abs_eq u) by lia; nia).
  lia.
Qed.
Lemma nearest_exact d v : 0 <= d -> (exists q, v = q * 2 ^ d) -> nearest d v = v.
Proof. intros Hd H. pose proof (nearest_multiple d v v Hd H). lia. Qed.
Lemma nearest_pow d k v : 0 <= d <= k -> Z.abs v < 2 ^ k -> Z.abs (nearest d v) <= 2 ^ k.
Proof.
  intros Hd Hv. destruct (nearest_spec d v) as (q & E & H & _); [lia|]. rewrite E in *.
  assert (K : 2 ^ k = 2 ^ (k - d) * 2 ^ d) by (rewrite <- Z.pow_add_r by lia; f_equal; lia).
  assert (0 < 2 ^ d) by (apply Z.pow_pos_nonneg; lia). rewrite Z.abs_mul, (Z.abs_eq (2 ^ d)) by lia.
  assert (Z.abs q <= 2 ^ (k - d)); [|nia].
  assert (Z.abs (q * 2 ^ d) <= Z.abs v + Z.abs (v - q * 2 ^ d)) by lia. rewrite Z.abs_mul, (Z.abs_eq (2 ^ d)) in H1 by lia.
  assert (Z.abs q * 2 ^ d < (2 ^ (k - d) + 1) * 2 ^ d) by lia. nia.
Qed.

Lemma spacing_sig p emin v : 0 < p -> 0 <= emin + 1074 -> let d := Z.max (Z.log2 (Z.abs v) - (p - 1)) (emin + 1074) in
  0 <= d /\ significand p emin (nearest d v).
Proof.
  intros Hp He d. assert (Hd : 0 <= d) by lia. split; [exact Hd|].
  destruct (nearest_spec d v Hd) as (q & E & _). rewrite E.
  assert (Hv : Z.abs v < 2 ^ (d + p)).
  { destruct (Z.eq_dec (Z.abs v) 0) as [Z0|NZ]; [rewrite Z0; apply Z.pow_pos_nonneg; lia|].
    pose proof (Z.log2_spec (Z.abs v)) as L. assert (0 < Z.abs v) by lia. apply (Z.lt_le_trans _ (2 ^ Z.succ (Z.log2 (Z.abs v)))); [apply L; lia|].
    apply Z.pow_le_mono_r; lia. }
  pose proof (nearest_pow d (d + p) v ltac:(lia) Hv) as B. rewrite E in B.
  rewrite Z.pow_add_r, Z.abs_mul, (Z.abs_eq (2 ^ d)) in B by (try lia; apply Z.pow_nonneg; lia).
  assert (0 < 2 ^ d) by (apply Z.pow_pos_nonneg; lia).
  assert (Bq : Z.abs q <= 2 ^ p) by nia.
  destruct (Z.eq_dec (Z.abs q) (2 ^ p)) as [Eq|N].
  - exists (Z.sgn q * 2 ^ (p - 1)), (d - 1074 + 1). split; [|split].
    + replace (d - 1074 + 1 + 1074) with (d + 1) by lia. rewrite Z.pow_add_r by lia.
      replace q with (Z.sgn q * Z.abs q) at 1 by (rewrite Z.mul_comm; apply Z.abs_sgn). rewrite Eq.
      replace p with (p - 1 + 1) at 1 by lia. rewrite Z.pow_add_r by lia. ring.
    + rewrite Z.abs_mul. assert (2 ^ p = 2 * 2 ^ (p - 1)) by (replace p with (Z.succ (p - 1)) at 1 by lia; apply Z.pow_succ_r; lia).
      assert (0 < 2 ^ (p - 1)) by (apply Z.pow_pos_nonneg; lia). destruct q; cbn [Z.sgn Z.abs]; lia.
    + lia.
  - exists q, (d - 1074). split; [f_equal; f_equal; lia|]. split; lia.
Qed.
Lemma spacing_nearest p emin v w' : 0 < p -> 0 <= emin + 1074 -> significand p emin w' ->
  let d := Z.max (Z.log2 (Z.abs v) - (p - 1)) (emin + 1074) in Z.abs (v - nearest d v) <= Z.abs (v - w').
Proof.
  intros Hp He (m & e & -> & Hm & Hemin) d. assert (Hd : 0 <= d) by lia.
  destruct (Z_le_gt_dec d (e + 1074)) as [H|H].
  { apply nearest_multiple; [exact Hd|]. exists (m * 2 ^ (e + 1074 - d)). rewrite <- Z.mul_assoc, <- Z.pow_add_r by lia. f_equal. f_equal. lia. }
  assert (Ed : d = Z.log2 (Z.abs v) - (p - 1)) by lia.
  assert (Hv : 0 < Z.abs v).
  { destruct (Z.eq_dec (Z.abs v) 0) as [Z0|NZ]; [rewrite Z0 in Ed; cbn in Ed; lia|lia]. }
  pose proof (proj1 (Z.log2_spec (Z.abs v) Hv)) as L. set (k := Z.log2 (Z.abs v)) in *.
  pose proof (nearest_multiple d v (Z.sgn v * 2 ^ k) Hd) as M.
  assert (X : exists q, Z.sgn v * 2 ^ k = q * 2 ^ d).
  { exists (Z.sgn v * 2 ^ (p - 1)). rewrite <- Z.mul_assoc, <- Z.pow_add_r by lia. f_equal. f_equal. lia. }
  specialize (M X).
  assert (W : Z.abs (m * 2 ^ (e + 1074)) < 2 ^ k).
  { rewrite Z.abs_mul, (Z.abs_eq (2 ^ _)) by (apply Z.pow_nonneg; lia).
    apply (Z.lt_le_trans _ (2 ^ p * 2 ^ (e + 1074))); [apply Z.mul_lt_mono_pos_r; [apply Z.pow_pos_nonneg; lia|exact Hm]|].
    rewrite <- Z.pow_add_r by lia. apply Z.pow_le_mono_r; lia. }
  assert (0 < 2 ^ k) by (apply Z.pow_pos_nonneg; [lia|apply Z.log2_nonneg]).
  destruct v as [|v|v]; cbn [Z.sgn Z.abs] in *; lia.
Qed.
(** [round] gives the rounded number *)
Lemma round_spec p emin emax v : 0 < p -> 0 <= emin + 1074 -> exists w, rounded p emin v w /\
  round p emin emax (Num v) = if 2 ^ (emax + 1074) <=? Z.abs w then Inf (v <? 0) else Num w.
Proof.
  intros Hp He. cbn [round]. set (d := Z.max _ _). exists (nearest d v). split; [|reflexivity].
  destruct (spacing_sig p emin v Hp He) as [Hd S]. fold d in Hd, S. split; [exact S|]. split.
  - intros w' Hw. exact (spacing_nearest p emin v w' Hp He Hw).
  - destruct (nearest_spec d v Hd) as (q & E & H & T). exists d, q. auto.
Qed.
Lemma round_exact p emin emax x : 0 < p -> 0 <= emin + 1074 -> binary p emin emax x -> round p emin emax x = x.
Proof.
  intros Hp He H. destruct x as [v|b|]; try reflexivity. destruct H as [S B].
  destruct (round_spec p emin emax v Hp He) as (w & (_ & N & _) & E). rewrite E. specialize (N v S).
  assert (w = v) by lia. subst w. rewrite (proj2 (Z.leb_gt _ _) B). reflexivity.
Qed.
Lemma round_binary p emin emax x : 0 < p -> 0 <= emin + 1074 -> binary p emin emax (round p emin emax x).
Proof.
  intros Hp He. destruct x as [v|b|]; try exact I. destruct (round_spec p emin emax v Hp He) as (w & (S & _) & E). rewrite E.
  destruct (2 ^ (emax + 1074) <=? Z.abs w) eqn:B; [exact I|]. apply Z.leb_gt in B. split; assumption.
Qed.
