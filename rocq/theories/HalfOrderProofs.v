(** Software floating point: order. *)
From Coq Require Import ZArith Bool Lia.
From Verif Require Import HalfModel HalfSpec HalfProofs HalfValueProofs.
Local Open Scope Z_scope.

(** conversion keeps the order of the fields above the subnormal range *)
Lemma move_mono src dst m m' : 0 <= m <= m' -> move src dst m <= move src dst m'.
Proof.
  intros H. unfold move. destruct (Z.ltb_spec (fraction src) (fraction dst)).
  - apply Z.mul_le_mono_nonneg_r; [|lia]. apply Z.pow_nonneg. lia.
  - apply Z.div_le_mono; [|lia]. apply pow_pos. lia.
Qed.

Lemma converted_mono src dst s e m s' e' m' : format_ok src -> format_ok dst ->
  fields src s e m -> fields src s' e' m' -> (e < e' \/ e = e' /\ m <= m') ->
  (e = 0 /\ m = 0 \/ 1 <= e /\ 1 <= e - bias_of src + bias_of dst) -> (e' = 0 /\ m' = 0 \/ 1 <= e' /\ 1 <= e' - bias_of src + bias_of dst) ->
  exists d k d' k', converted src dst s e m = pack dst s d k /\ converted src dst s' e' m' = pack dst s' d' k' /\
    fields dst s d k /\ fields dst s' d' k' /\ d < 2 ^ exponent dst - 1 /\ d' < 2 ^ exponent dst - 1 /\
    mag dst d k <= mag dst d' k' /\ (e = 0 /\ m = 0 -> mag dst d k = 0) /\ (e' = 0 /\ m' = 0 -> mag dst d' k' = 0).
Proof.
  intros Os Od F F' Lex N N'. pose proof (pow_ge4 dst Od) as (P1 & P2).
  assert (Hs : s = 0 \/ s = 1) by apply F. assert (Hs' : s' = 0 \/ s' = 1) by apply F'.
  assert (Z0 : forall s, s = 0 \/ s = 1 -> fields dst s 0 0) by (intros; split; [assumption|lia]).
  assert (Mx : forall s, s = 0 \/ s = 1 -> fields dst s (2 ^ exponent dst - 2) (2 ^ fraction dst - 1)) by (intros; split; [assumption|lia]).
  assert (Mv : forall s e m, fields src s e m -> 1 <= e - bias_of src + bias_of dst -> e - bias_of src + bias_of dst <= 2 ^ exponent dst - 2 ->
    fields dst s (e - bias_of src + bias_of dst) (move src dst m)).
  { intros s0 e0 m0 F0 H1 H2. split; [apply F0|]. split; [lia|]. apply move_bound; auto. apply F0. }
  unfold converted.
  destruct N as [[-> ->]|[N1 N2]]; cbn [Z.eqb andb].
  - destruct (converted_fields src dst s' e' m' Os Od F') as (d' & k' & E' & Fd' & Ld'). unfold converted in E'.
    exists 0, 0, d', k'. split; [reflexivity|]. split; [exact E'|]. split; [now apply Z0|]. split; [exact Fd'|]. split; [lia|]. split; [exact Ld'|].
    split; [exact (mag_nonneg dst s' d' k' Od Fd')|]. split; [reflexivity|].
    intros [-> ->]. cbn [Z.eqb andb] in E'. apply (pack_inj dst Od) in E' as (_ & <- & <-); auto.
  - rewrite (proj2 (Z.eqb_neq e 0)) by lia. cbn [andb].
    destruct N' as [[-> ->]|[N1' N2']]; [exfalso; lia|]. rewrite (proj2 (Z.eqb_neq e' 0)) by lia. cbn [andb].
    rewrite !(proj2 (Z.ltb_ge _ 0)) by lia.
    destruct (Z.ltb_spec (2 ^ exponent dst - 2) (e - bias_of src + bias_of dst)) as [C|C],
      (Z.ltb_spec (2 ^ exponent dst - 2) (e' - bias_of src + bias_of dst)) as [C'|C']; try lia.
    + eexists _, _, _, _. split; [reflexivity|]. split; [reflexivity|]. split; [now apply Mx|]. split; [now apply Mx|].
      split; [lia|]. split; [lia|]. split; [lia|]. split; lia.
    + eexists _, _, _, _. split; [reflexivity|]. split; [reflexivity|]. pose proof (Mv _ _ _ F ltac:(lia) C) as FM. split; [exact FM|]. split; [now apply Mx|].
      split; [lia|]. split; [lia|]. split; [|split; lia].
      apply (mag_le dst s _ _ s' _ _ Od FM (Mx s' Hs')). destruct FM as (_ & _ & FM). lia.
    + eexists _, _, _, _. split; [reflexivity|]. split; [reflexivity|]. pose proof (Mv _ _ _ F ltac:(lia) C) as FM. pose proof (Mv _ _ _ F' ltac:(lia) C') as FM'.
      split; [exact FM|]. split; [exact FM'|]. split; [lia|]. split; [lia|]. split; [|split; lia].
      apply (mag_le dst s _ _ s' _ _ Od FM FM'). destruct Lex as [Lex|[-> Lex]]; [lia|]. right. split; [reflexivity|].
      apply move_mono. destruct F as (_ & _ & F). lia.
Qed.

Lemma full_field src dst s e m K : format_ok src -> format_ok dst -> fields src s e m -> 0 <= K + ulp_min src -> 0 <= K + ulp_min dst ->
  let v := (1 - 2 * s) * mag src e m * 2 ^ (K + ulp_min src) in
  full_precision src K v -> full_precision dst K v -> e = 0 /\ m = 0 \/ 1 <= e /\ 1 <= e - bias_of src + bias_of dst.
Proof.
  intros Os Od F Ks Kd v Hs Hd. pose proof (mag_nonneg src s e m Os F) as Mg. pose proof (pow_pos _ Ks) as Ps.
  assert (Av : Z.abs v = mag src e m * 2 ^ (K + ulp_min src)).
  { unfold v. rewrite <- Z.mul_assoc. apply abs_value; [apply F|]. apply Z.mul_nonneg_nonneg; lia. }
  unfold full_precision in *. rewrite Av in *.
  destruct Hs as [Hs|Hs].
  { left. apply (mag_zero src s e m Os F). assert (Z.abs v = 0) by lia. nia. }
  destruct Hd as [Hd|Hd].
  { left. apply (mag_zero src s e m Os F). assert (Z.abs v = 0) by lia. nia. }
  right. assert (He : 1 <= e) by (apply (normal_field src s e m K); auto). split; [exact He|].
  pose proof (binade src s e m K Os F He Ks) as Bin.
  assert (K + 2 - 2 ^ (exponent dst - 1) < K + e - bias_of src + 1) by (apply pow_lt_inv; lia).
  unfold bias_of in *. lia.
Qed.

Theorem convert_monotone src dst K a b va vb : format_ok src -> format_ok dst -> 0 <= K + ulp_min src -> 0 <= K + ulp_min dst ->
  means src K a va -> means src K b vb -> full_precision src K va -> full_precision dst K va ->
  full_precision src K vb -> full_precision dst K vb -> va <= vb ->
  exists va' vb', means dst K (convert src dst a) va' /\ means dst K (convert src dst b) vb' /\ va' <= vb'.
Proof.
  intros Os Od Ks Kd (s & e & m & F & Fin & -> & Ea) (s' & e' & m' & F' & Fin' & -> & Eb) H1 H2 H3 H4 Hle.
  fold (mag src e m) in Ea. fold (mag src e' m') in Eb. subst va vb.
  pose proof (full_field src dst s e m K Os Od F Ks Kd H1 H2) as N. pose proof (full_field src dst s' e' m' K Os Od F' Ks Kd H3 H4) as N'.
  rewrite !convert_fields by assumption.
  pose proof (mag_nonneg src s e m Os F) as M. pose proof (mag_nonneg src s' e' m' Os F') as M'. pose proof (pow_pos _ Ks) as Ps. pose proof (pow_pos _ Kd) as Pd.
  set (x := 2 ^ (K + ulp_min src)) in *. set (y := 2 ^ (K + ulp_min dst)) in *.
  assert (Hle' : (1 - 2 * s) * mag src e m <= (1 - 2 * s') * mag src e' m') by nia.
  assert (Close : forall d k d' k', converted src dst s e m = pack dst s d k -> converted src dst s' e' m' = pack dst s' d' k' ->
    fields dst s d k -> fields dst s' d' k' -> d < 2 ^ exponent dst - 1 -> d' < 2 ^ exponent dst - 1 ->
    (1 - 2 * s) * mag dst d k <= (1 - 2 * s') * mag dst d' k' ->
    exists va' vb', means dst K (converted src dst s e m) va' /\ means dst K (converted src dst s' e' m') vb' /\ va' <= vb').
  { intros d k d' k' E1 E2 F1 F2 L1 L2 Hv. exists ((1 - 2 * s) * mag dst d k * y), ((1 - 2 * s') * mag dst d' k' * y).
    split; [exists s, d, k; auto|]. split; [exists s', d', k'; auto|]. nia. }
  assert (Hs : s = 0 \/ s = 1) by apply F. assert (Hs' : s' = 0 \/ s' = 1) by apply F'.
  destruct (Z.eq_dec s s') as [Es|Es].
  - subst s'. destruct Hs as [-> | ->].
    + destruct (converted_mono src dst 0 e m 0 e' m' Os Od F F' (mag_le_lex src 0 e m 0 e' m' Os F F' ltac:(lia)) N N')
        as (d & k & d' & k' & E1 & E2 & F1 & F2 & L1 & L2 & G & _). apply (Close d k d' k'); auto. lia.
    + destruct (converted_mono src dst 1 e' m' 1 e m Os Od F' F (mag_le_lex src 1 e' m' 1 e m Os F' F ltac:(lia)) N' N)
        as (d & k & d' & k' & E1 & E2 & F1 & F2 & L1 & L2 & G & _). apply (Close d' k' d k); auto. lia.
  - destruct (converted_fields src dst s e m Os Od F) as (d & k & E1 & F1 & L1).
    destruct (converted_fields src dst s' e' m' Os Od F') as (d' & k' & E2 & F2 & L2).
    apply (Close d k d' k'); auto.
    pose proof (mag_nonneg dst s d k Od F1) as Q1. pose proof (mag_nonneg dst s' d' k' Od F2) as Q2.
    destruct Hs as [-> | ->], Hs' as [-> | ->]; try lia.
    (* positive below negative: both zero *)
    assert (Za : mag src e m = 0) by lia. assert (Zb : mag src e' m' = 0) by lia.
    apply (mag_zero src _ e m Os F) in Za as [-> ->]. apply (mag_zero src _ e' m' Os F') in Zb as [-> ->].
    unfold converted in E1, E2. cbn [Z.eqb andb] in E1, E2. pose proof (pow_ge4 dst Od) as (P1 & P2).
    apply (pack_inj dst Od) in E1; [|split; [now left|lia]|exact F1]. apply (pack_inj dst Od) in E2; [|split; [now right|lia]|exact F2].
    destruct E1 as (_ & <- & <-), E2 as (_ & <- & <-). unfold mag. cbn [Z.eqb]. lia.
Qed.

(** *** Comparisons *)
Lemma sign_bit f s e m : format_ok f -> fields f s e m -> Z.land (pack f s e m) (mask_sign f) = s * 2 ^ (exponent f + fraction f).
Proof.
  intros O F. pose proof (f_widths f O) as (H1 & H2 & H3). pose proof (low_bound f O _ _ _ F) as L.
  rewrite (pack_split f O). rewrite <- lor_low by lia. rewrite Z.land_lor_distr_l. unfold mask_sign. rewrite H3, shl by lia.
  rewrite (Z.land_comm (e * _ + m)), (land_low 1), Z.lor_0_r by lia.
  destruct (proj1 F) as [-> | ->]; [reflexivity|]. apply Z.land_diag.
Qed.

Lemma both_positive f s e m s' e' m' : format_ok f -> fields f s e m -> fields f s' e' m' ->
  (Z.land (Z.lor (pack f s e m) (pack f s' e' m')) (mask_sign f) =? 0) = (s =? 0) && (s' =? 0).
Proof.
  intros O F F'. rewrite Z.land_lor_distr_l, !sign_bit by assumption. pose proof (f_widths f O) as (H1 & H2 & H3).
  pose proof (pow_pos (exponent f + fraction f) ltac:(lia)) as P.
  destruct (proj1 F) as [-> | ->], (proj1 F') as [-> | ->]; cbn [Z.eqb andb].
  - reflexivity.
  - apply Z.eqb_neq. rewrite Z.lor_eq_0_iff. lia.
  - apply Z.eqb_neq. rewrite Z.lor_eq_0_iff. lia.
  - apply Z.eqb_neq. rewrite Z.lor_eq_0_iff. lia.
Qed.

Lemma pack_lex f s e m e' m' : format_ok f -> fields f s e m -> fields f s e' m' ->
  (pack f s e m < pack f s e' m' <-> mag f e m < mag f e' m').
Proof.
  intros O F F'. unfold pack. pose proof (pow_pos (fraction f) ltac:(destruct O; lia)) as P.
  assert (F0 := F). assert (F0' := F'). destruct F as (_ & He & Hm), F' as (_ & He' & Hm').
  split; intros H.
  - apply (mag_lt f s e m s e' m'); auto. destruct (Z.lt_total e e') as [|[-> |]]; [now left| |].
    + right. lia.
    + exfalso. nia.
  - destruct (Z.lt_ge_cases ((s * 2 ^ exponent f + e) * 2 ^ fraction f + m) ((s * 2 ^ exponent f + e') * 2 ^ fraction f + m')) as [|G]; [assumption|].
    exfalso. assert (mag f e' m' <= mag f e m); [|lia].
    apply (mag_le f s e' m' s e m); auto. destruct (Z.lt_total e' e) as [|[-> |]]; [now left| |].
    + right. lia.
    + exfalso. nia.
Qed.

Theorem comparisons f K a b va vb : format_ok f -> 0 <= K + ulp_min f -> means f K a va -> means f K b vb ->
  feq f a b = (va =? vb) /\ fne f a b = negb (va =? vb) /\ fge f a b = (vb <=? va) /\ fle f a b = (va <=? vb) /\
  fgt f a b = (vb <? va) /\ flt f a b = (va <? vb).
Proof.
  intros O HK (s & e & m & F & Fin & -> & Ea) (s' & e' & m' & F' & Fin' & -> & Eb).
  fold (mag f e m) in Ea. fold (mag f e' m') in Eb. subst va vb. pose proof (pow_pos _ HK) as P. set (x := 2 ^ (K + ulp_min f)) in *.
  pose proof (mag_nonneg f s e m O F) as M. pose proof (mag_nonneg f s' e' m' O F') as M'.
  pose proof (mag_zero f s e m O F) as Zr. pose proof (mag_zero f s' e' m' O F') as Zr'.
  assert (Hs : s = 0 \/ s = 1) by apply F. assert (Hs' : s' = 0 \/ s' = 1) by apply F'.
  assert (Iff : forall p q, (p * x =? q * x) = (p =? q) /\ (p * x <=? q * x) = (p <=? q)).
  { clear - P. intros p q. split.
    - destruct (Z.eqb_spec p q) as [-> |]; [apply Z.eqb_refl|]. apply Z.eqb_neq. nia.
    - destruct (Z.leb_spec p q); [apply Z.leb_le|apply Z.leb_gt]; nia. }
  assert (Eq : feq f (pack f s e m) (pack f s' e' m') = ((1 - 2 * s) * mag f e m =? (1 - 2 * s') * mag f e' m')).
  { unfold feq. rewrite !iszero_pack by assumption.
    destruct (Z.eqb_spec e 0), (Z.eqb_spec m 0), (Z.eqb_spec e' 0), (Z.eqb_spec m' 0); cbn [andb];
      try (symmetry; first [apply Z.eqb_eq; lia | apply Z.eqb_neq; lia]).
    all: destruct (Z.eqb_spec (pack f s e m) (pack f s' e' m')) as [Q|Q]; symmetry;
      [apply (pack_inj f O) in Q as (-> & -> & ->); auto; apply Z.eqb_refl|].
    all: apply Z.eqb_neq; intros Q'; apply Q; assert (s = s') by lia; subst s'; assert (Qm : mag f e m = mag f e' m') by lia.
    all: destruct (mag_le_lex f s e m s e' m' O F F' ltac:(lia)) as [|[? ?]]; [pose proof (mag_lt f s e m s e' m' O F F'); lia|];
      destruct (mag_le_lex f s e' m' s e m O F' F ltac:(lia)) as [|[? ?]]; [lia|]; f_equal; lia. }
  assert (Lt : forall t1 e1 m1 t2 e2 m2, fields f t1 e1 m1 -> fields f t2 e2 m2 ->
    ((1 - 2 * t1) * mag f e1 m1 <> (1 - 2 * t2) * mag f e2 m2) ->
    (if (t1 =? 0) && (t2 =? 0) then pack f t2 e2 m2 <? pack f t1 e1 m1 else pack f t1 e1 m1 <? pack f t2 e2 m2)
    = ((1 - 2 * t2) * mag f e2 m2 <=? (1 - 2 * t1) * mag f e1 m1)).
  { clear - O. intros t1 e1 m1 t2 e2 m2 F1 F2 N.
    pose proof (mag_nonneg f t1 e1 m1 O F1) as M1. pose proof (mag_nonneg f t2 e2 m2 O F2) as M2.
    pose proof (low_bound f O _ _ _ F1) as L1. pose proof (low_bound f O _ _ _ F2) as L2.
    assert (H1 : t1 = 0 \/ t1 = 1) by apply F1. assert (H2 : t2 = 0 \/ t2 = 1) by apply F2.
    destruct H1 as [-> | ->], H2 as [-> | ->]; cbn [Z.eqb andb].
    - pose proof (pack_lex f 0 e2 m2 e1 m1 O F2 F1) as PL.
      destruct (Z.ltb_spec (pack f 0 e2 m2) (pack f 0 e1 m1)); symmetry; [apply Z.leb_le|apply Z.leb_gt]; lia.
    - rewrite (proj2 (Z.ltb_lt _ _)); [symmetry; apply Z.leb_le; lia|]. rewrite !(pack_split f O). lia.
    - rewrite (proj2 (Z.ltb_ge _ _)); [symmetry; apply Z.leb_gt; lia|]. rewrite !(pack_split f O). lia.
    - pose proof (pack_lex f 1 e1 m1 e2 m2 O F1 F2) as PL.
      destruct (Z.ltb_spec (pack f 1 e1 m1) (pack f 1 e2 m2)); symmetry; [apply Z.leb_le|apply Z.leb_gt]; lia. }
  assert (Ge : fge f (pack f s e m) (pack f s' e' m') = ((1 - 2 * s') * mag f e' m' <=? (1 - 2 * s) * mag f e m)).
  { unfold fge. rewrite Eq, both_positive by assumption.
    destruct (Z.eqb_spec ((1 - 2 * s) * mag f e m) ((1 - 2 * s') * mag f e' m')) as [Q|Q]; cbn [orb].
    - symmetry. apply Z.leb_le. lia.
    - now apply Lt. }
  assert (Le : fle f (pack f s e m) (pack f s' e' m') = ((1 - 2 * s) * mag f e m <=? (1 - 2 * s') * mag f e' m')).
  { unfold fle. rewrite Eq, both_positive by assumption.
    destruct (Z.eqb_spec ((1 - 2 * s) * mag f e m) ((1 - 2 * s') * mag f e' m')) as [Q|Q]; cbn [orb].
    - symmetry. apply Z.leb_le. lia.
    - rewrite andb_comm. apply Lt; auto. }
  destruct (Iff ((1 - 2 * s) * mag f e m) ((1 - 2 * s') * mag f e' m')) as [I1 I2].
  destruct (Iff ((1 - 2 * s') * mag f e' m') ((1 - 2 * s) * mag f e m)) as [_ I3].
  unfold fne, fgt, flt. rewrite Eq, Ge, Le, !Z.ltb_antisym, I1, I2, I3. auto 10.
Qed.
