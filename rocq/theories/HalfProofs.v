(** Software floating point: proofs. *)
From Coq Require Import ZArith Bool Lia.
From Verif Require Import HalfModel HalfSpec.
Local Open Scope Z_scope.

Lemma shl a n : 0 <= n -> Z.shiftl a n = a * 2 ^ n.
Proof. intros; now apply Z.shiftl_mul_pow2. Qed.
Lemma shr a n : 0 <= n -> Z.shiftr a n = a / 2 ^ n.
Proof. intros; now apply Z.shiftr_div_pow2. Qed.
Lemma pow_pos n : 0 <= n -> 0 < 2 ^ n.
Proof. intros; apply Z.pow_pos_nonneg; lia. Qed.
Lemma land_mask a n : 0 <= n -> Z.land a (Z.shiftl 1 n - 1) = a mod 2 ^ n.
Proof. intros H. rewrite <- Z.land_ones by exact H. unfold Z.ones. f_equal. Qed.

Lemma land_low a b n : 0 <= n -> 0 <= b < 2 ^ n -> Z.land (a * 2 ^ n) b = 0.
Proof.
  intros Hn Hb. rewrite <- Z.shiftl_mul_pow2 by lia. apply Z.bits_inj'. intros k Hk. rewrite Z.land_spec, Z.bits_0.
  destruct (Z.lt_ge_cases k n).
  - now rewrite Z.shiftl_spec_low.
  - destruct (Z.eq_dec b 0) as [->|]; [now rewrite Z.bits_0, andb_false_r|].
    rewrite (Z.bits_above_log2 b k), andb_false_r; [reflexivity|lia|].
    apply Z.log2_lt_pow2; [lia|]. eapply Z.lt_le_trans; [apply Hb|]. apply Z.pow_le_mono_r; lia.
Qed.
Lemma lor_low a b n : 0 <= n -> 0 <= b < 2 ^ n -> Z.lor (a * 2 ^ n) b = a * 2 ^ n + b.
Proof. intros Hn Hb. pose proof (land_low a b n Hn Hb) as L. rewrite <- Z.lxor_lor by exact L. symmetry. now apply Z.add_nocarry_lxor. Qed.

Section Format.
Variable f : format.
Hypothesis OK : format_ok f.
Local Notation E := (exponent f).
Local Notation F := (fraction f).

Lemma f_widths : 2 <= E /\ 1 <= F /\ width f - 1 = E + F.
Proof using OK. unfold width. destruct OK. lia. Qed.

Lemma pack_split s e m : pack f s e m = s * 2 ^ (E + F) + (e * 2 ^ F + m).
Proof using OK. pose proof f_widths. unfold pack. rewrite Z.pow_add_r by lia. ring. Qed.

Lemma low_bound s e m : fields f s e m -> 0 <= e * 2 ^ F + m < 2 ^ (E + F).
Proof using OK.
  intros (_ & He & Hm). pose proof f_widths. rewrite Z.pow_add_r by lia.
  pose proof (pow_pos E ltac:(lia)). pose proof (pow_pos F ltac:(lia)). nia.
Qed.

Lemma pack_bound s e m : fields f s e m -> 0 <= pack f s e m < 2 ^ width f.
Proof using OK.
  intros H. pose proof (low_bound _ _ _ H) as L. rewrite pack_split. pose proof f_widths as (H1 & H2 & H3).
  replace (width f) with (1 + (E + F)) by lia. rewrite (Z.pow_add_r 2 1 (E + F)) by lia. change (2 ^ 1) with 2. destruct H as ([-> | ->] & _); lia.
Qed.

Lemma get_sign s e m : fields f s e m -> value_sign f (pack f s e m) = s.
Proof using OK.
  intros H. pose proof (pack_bound _ _ _ H) as Hb. pose proof (low_bound _ _ _ H) as L. pose proof f_widths as (H1 & H2 & H3).
  unfold value_sign, mask_sign. rewrite H3.
  rewrite Z.shiftr_land, Z.shiftr_shiftl_l by lia. rewrite Z.sub_diag. rewrite Z.shiftl_0_r.
  rewrite shr by lia. rewrite pack_split, Z.div_add_l by (pose proof (pow_pos (E + F)); lia). rewrite (Z.div_small (e * 2 ^ F + m)) by exact L.
  destruct H as ([-> | ->] & _); reflexivity.
Qed.

Lemma get_exponent s e m : fields f s e m -> value_exponent f (pack f s e m) = e - (2 ^ (E - 1) - 1).
Proof using OK.
  intros H. pose proof f_widths as (H1 & H2 & H3). pose proof (pow_pos F ltac:(lia)). pose proof (pow_pos E ltac:(lia)).
  unfold value_exponent, mask_exponent, bias.
  rewrite Z.shiftr_land, Z.shiftr_shiftl_l by lia. rewrite Z.sub_diag, Z.shiftl_0_r, land_mask, (shl 1 (E - 1)) by lia.
  rewrite shr by lia. unfold pack. rewrite Z.div_add_l by lia. destruct H as (_ & He & Hm).
  rewrite (Z.div_small m) by exact Hm. rewrite Z.add_0_r, Z.add_comm, Z.mod_add, Z.mod_small by lia. lia.
Qed.

Lemma get_fraction s e m : fields f s e m -> value_fraction f (pack f s e m) = m.
Proof using OK.
  intros H. pose proof f_widths as (H1 & H2 & H3). pose proof (pow_pos F ltac:(lia)).
  unfold value_fraction, mask_fraction. rewrite land_mask by lia. unfold pack. destruct H as (_ & He & Hm).
  rewrite Z.add_comm, Z.mod_add, Z.mod_small by lia. reflexivity.
Qed.

Lemma get_magnitude s e m : fields f s e m -> Z.land (pack f s e m) (Z.lnot (mask_sign f)) = e * 2 ^ F + m.
Proof using OK.
  intros H. pose proof (low_bound _ _ _ H) as L. pose proof f_widths as (H1 & H2 & H3).
  unfold mask_sign. rewrite H3. rewrite pack_split.
  assert (X : s * 2 ^ (E + F) + (e * 2 ^ F + m) = Z.lor (s * 2 ^ (E + F)) (e * 2 ^ F + m)) by (symmetry; apply lor_low; lia).
  rewrite X. rewrite Z.land_lor_distr_l.
  rewrite <- !Z.ldiff_land.
  assert (A : Z.ldiff (s * 2 ^ (E + F)) (Z.shiftl 1 (E + F)) = 0).
  { rewrite shl by lia. rewrite Z.mul_1_l. destruct H as ([-> | ->] & _); [apply Z.ldiff_0_l|]. rewrite Z.mul_1_l. apply Z.ldiff_diag. }
  assert (B : Z.ldiff (e * 2 ^ F + m) (Z.shiftl 1 (E + F)) = e * 2 ^ F + m).
  { apply Z.bits_inj'. intros k Hk. rewrite Z.ldiff_spec, Z.shiftl_1_l, Z.pow2_bits_eqb by lia.
    destruct (Z.eqb_spec (E + F) k) as [Ek|]; [subst k|now rewrite andb_true_r].
    cbn [negb]. rewrite andb_false_r. symmetry. destruct (Z.eq_dec (e * 2 ^ F + m) 0) as [->|]; [apply Z.bits_0|].
    apply Z.bits_above_log2; [lia|]. apply Z.log2_lt_pow2; lia. }
  rewrite A, B. apply Z.lor_0_l.
Qed.

Lemma iszero_pack s e m : fields f s e m -> iszero f (pack f s e m) = (e =? 0) && (m =? 0).
Proof using OK.
  intros H. pose proof f_widths as (H1 & H2 & H3). pose proof (pow_pos F ltac:(lia)).
  unfold iszero. rewrite get_magnitude by exact H. destruct H as (_ & He & Hm).
  destruct (Z.eqb_spec e 0), (Z.eqb_spec m 0); cbn [andb]; [apply Z.eqb_eq|apply Z.eqb_neq|apply Z.eqb_neq|apply Z.eqb_neq]; nia.
Qed.

Lemma assemble s e m : fields f s e m ->
  Z.land (Z.lor (Z.lor (Z.shiftl s (width f - 1)) (Z.land (Z.shiftl e F) (mask_exponent f))) m) (Z.shiftl 1 (width f) - 1) = pack f s e m.
Proof using OK.
  intros H. pose proof (low_bound _ _ _ H) as L. pose proof (pack_bound _ _ _ H) as P. pose proof f_widths as (H1 & H2 & H3).
  assert (Me : Z.land (Z.shiftl e F) (mask_exponent f) = e * 2 ^ F).
  { unfold mask_exponent. rewrite <- Z.shiftl_land, land_mask, shl by lia. destruct H as (_ & He & _). now rewrite Z.mod_small. }
  rewrite Me, H3, shl by lia. rewrite <- Z.lor_assoc. destruct H as (Hs & He & Hm).
  rewrite (lor_low e m) by lia. rewrite lor_low by lia. rewrite <- pack_split. rewrite land_mask by lia. now apply Z.mod_small.
Qed.

Lemma sign_only s e m : fields f s e m -> Z.shiftl s (width f - 1) = pack f s 0 0.
Proof using OK. intros H. pose proof f_widths as (H1 & H2 & H3). rewrite H3, shl by lia. rewrite pack_split. lia. Qed.

Lemma pack_inj s e m s' e' m' : fields f s e m -> fields f s' e' m' -> pack f s e m = pack f s' e' m' -> s = s' /\ e = e' /\ m = m'.
Proof using OK.
  intros H H' Q. pose proof (get_sign _ _ _ H) as A. pose proof (get_exponent _ _ _ H) as B. pose proof (get_fraction _ _ _ H) as C.
  rewrite Q in A, B, C. rewrite (get_sign _ _ _ H') in A. rewrite (get_exponent _ _ _ H') in B. rewrite (get_fraction _ _ _ H') in C. lia.
Qed.
End Format.

(** *** Conversion, on fields *)
Definition bias_of (f : format) : Z := 2 ^ (exponent f - 1) - 1.
Definition move (src dst : format) (m : Z) : Z :=
  if fraction src <? fraction dst then m * 2 ^ (fraction dst - fraction src) else m / 2 ^ (fraction src - fraction dst).

Lemma move_bound src dst m : format_ok src -> format_ok dst -> 0 <= m < 2 ^ fraction src -> 0 <= move src dst m < 2 ^ fraction dst.
Proof.
  intros [_ H1] [_ H2] H. unfold move. destruct (Z.ltb_spec (fraction src) (fraction dst)) as [Hl|Hl].
  - pose proof (pow_pos (fraction dst - fraction src) ltac:(lia)) as P.
    replace (2 ^ fraction dst) with (2 ^ fraction src * 2 ^ (fraction dst - fraction src)) by (rewrite <- Z.pow_add_r by lia; f_equal; lia). nia.
  - pose proof (pow_pos (fraction src - fraction dst) ltac:(lia)) as P.
    split; [apply Z.div_pos; lia|]. apply Z.div_lt_upper_bound; [lia|].
    rewrite <- Z.pow_add_r by lia. replace (fraction src - fraction dst + fraction dst) with (fraction src) by lia. lia.
Qed.

Definition converted (src dst : format) (s e m : Z) : Z :=
  if (e =? 0) && (m =? 0) then pack dst s 0 0 else
  let o := e - bias_of src + bias_of dst in
  if o <? 0 then pack dst s 0 1
  else if 2 ^ exponent dst - 2 <? o then pack dst s (2 ^ exponent dst - 2) (2 ^ fraction dst - 1)
  else pack dst s o (move src dst m).

Lemma pow_ge4 f : format_ok f -> 4 <= 2 ^ exponent f /\ 2 <= 2 ^ fraction f.
Proof.
  intros [H1 H2]. split; [change 4 with (2 ^ 2)|change 2 with (2 ^ 1) at 1]; apply Z.pow_le_mono_r; lia.
Qed.

Theorem convert_fields src dst s e m : format_ok src -> format_ok dst -> fields src s e m ->
  convert src dst (pack src s e m) = converted src dst s e m.
Proof.
  intros Os Od H. pose proof (pow_ge4 dst Od) as (P1 & P2). pose proof (iszero_pack src Os s e m H) as Zp. unfold iszero in Zp.
  unfold convert, converted. rewrite Zp, (get_sign src Os s e m H), (get_exponent src Os s e m H), (get_fraction src Os s e m H).
  assert (Hs : s = 0 \/ s = 1) by apply H.
  destruct ((e =? 0) && (m =? 0)).
  { apply (sign_only dst Od s 0 0). split; [exact Hs|]. lia. }
  destruct Od as [D1 D2]. assert (Eb : bias dst = bias_of dst) by (unfold bias, bias_of; rewrite shl by lia; lia).
  rewrite Eb. rewrite (shl 1 (exponent dst)), (shl 1 (fraction dst)) by lia. rewrite !Z.mul_1_l. fold (bias_of src).
  destruct (Z.ltb_spec (e - bias_of src + bias_of dst) 0) as [Hn|Hn].
  { rewrite <- (assemble dst (conj D1 D2) s 0 1); [reflexivity|]. split; [exact Hs|]. lia. }
  destruct (Z.ltb_spec (2 ^ exponent dst - 2) (e - bias_of src + bias_of dst)) as [Hm|Hm].
  { rewrite <- (assemble dst (conj D1 D2) s (2 ^ exponent dst - 2) (2 ^ fraction dst - 1)); [reflexivity|].
    split; [exact Hs|]. lia. }
  assert (Em : (if 0 <? fraction dst - fraction src then Z.shiftl m (fraction dst - fraction src) else Z.shiftr m (- (fraction dst - fraction src)))
               = move src dst m).
  { unfold move. destruct (Z.ltb_spec 0 (fraction dst - fraction src)), (Z.ltb_spec (fraction src) (fraction dst)); try lia.
    - now rewrite shl by lia.
    - rewrite shr by lia. f_equal. f_equal. lia. }
  rewrite Em. rewrite <- (assemble dst (conj D1 D2)); [reflexivity|].
  split; [exact Hs|]. split; [lia|]. apply move_bound; auto; [now split|apply H].
Qed.
