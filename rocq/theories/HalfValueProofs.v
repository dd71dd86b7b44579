(** Software floating point: values. *)
From Coq Require Import ZArith Bool Lia.
From Verif Require Import HalfModel HalfSpec HalfProofs.
Local Open Scope Z_scope.

Lemma pow_double n : 0 < n -> 2 ^ n = 2 * 2 ^ (n - 1).
Proof. intros H. rewrite <- (Z.pow_succ_r 2 (n - 1)) by lia. f_equal. lia. Qed.

Lemma bias_mono a b : 1 <= exponent a -> exponent a <= exponent b -> bias_of a <= bias_of b.
Proof. intros H1 H2. unfold bias_of. pose proof (Z.pow_le_mono_r 2 (exponent a - 1) (exponent b - 1) ltac:(lia) ltac:(lia)). lia. Qed.

(** there and back *)
Theorem round_trip a b c : format_ok a -> format_ok b -> exponent a <= exponent b -> fraction a <= fraction b ->
  finite a c -> convert b a (convert a b c) = c.
Proof.
  intros Oa Ob He Hf (s & e & m & H & Hfin & ->). rewrite convert_fields by assumption. unfold converted.
  pose proof (pow_ge4 a Oa) as (A1 & A2). pose proof (pow_ge4 b Ob) as (B1 & B2).
  assert (Hs : s = 0 \/ s = 1) by apply H.
  destruct (Z.eqb_spec e 0) as [E0|E0], (Z.eqb_spec m 0) as [M0|M0]; cbn [andb]; cycle 1.
  1-3: assert (NZ : ~ (e = 0 /\ m = 0)) by tauto.
  4: { rewrite convert_fields; [|assumption|assumption|split; [exact Hs|lia]]. unfold converted. cbn [Z.eqb andb]. now subst. }
  all: clear E0 M0.
  all: pose proof (bias_mono a b ltac:(destruct Oa; lia) He) as Bm; pose proof (pow_double (exponent a) ltac:(destruct Oa; lia)) as Pa;
    pose proof (pow_double (exponent b) ltac:(destruct Ob; lia)) as Pb; fold (bias_of a) in *.
  all: destruct H as (_ & Re & Rm).
  all: assert (Ho : 0 <= e - bias_of a + bias_of b <= 2 ^ exponent b - 2) by (unfold bias_of in *; lia).
  all: rewrite (proj2 (Z.ltb_ge _ _)) by lia; rewrite (proj2 (Z.ltb_ge _ _)) by lia.
  all: assert (Fm : fields b s (e - bias_of a + bias_of b) (move a b m))
    by (split; [exact Hs|]; split; [lia|]; now apply move_bound).
  all: rewrite (convert_fields b a _ _ _ Ob Oa Fm); unfold converted.
  all: replace (e - bias_of a + bias_of b - bias_of b + bias_of a) with e by ring.
  all: assert (Mm : move b a (move a b m) = m /\ (move a b m = 0 -> m = 0)).
  1,3,5: unfold move; destruct (Z.ltb_spec (fraction a) (fraction b)) as [L|L], (Z.ltb_spec (fraction b) (fraction a)) as [L'|L']; try lia.
  1,3,5: pose proof (pow_pos (fraction b - fraction a) ltac:(lia)); split; [apply Z.div_mul; lia|nia].
  1-3: replace (fraction b - fraction a) with 0 by lia; replace (fraction a - fraction b) with 0 by lia; change (2 ^ 0) with 1; rewrite !Z.div_1_r; split; auto.
  all: destruct Mm as [Mm Mz].
  all: assert (Nz : (e - bias_of a + bias_of b =? 0) && (move a b m =? 0) = false)
    by (destruct (Z.eqb_spec (e - bias_of a + bias_of b) 0), (Z.eqb_spec (move a b m) 0); cbn [andb]; try reflexivity; exfalso; apply NZ; split; [lia|auto]).
  all: rewrite Nz, (proj2 (Z.ltb_ge e 0)), (proj2 (Z.ltb_ge (2 ^ exponent a - 2) e)) by lia; now rewrite Mm.
Qed.

(** the result of a conversion, by fields *)
Lemma converted_fields src dst s e m : format_ok src -> format_ok dst -> fields src s e m ->
  exists e' m', converted src dst s e m = pack dst s e' m' /\ fields dst s e' m' /\ e' < 2 ^ exponent dst - 1.
Proof.
  intros Os Od H. pose proof (pow_ge4 dst Od) as (P1 & P2). assert (Hs : s = 0 \/ s = 1) by apply H.
  unfold converted.
  destruct ((e =? 0) && (m =? 0)); [exists 0, 0; split; [reflexivity|]; split; [split; [exact Hs|lia]|lia]|].
  destruct (Z.ltb_spec (e - bias_of src + bias_of dst) 0); [exists 0, 1; split; [reflexivity|]; split; [split; [exact Hs|lia]|lia]|].
  destruct (Z.ltb_spec (2 ^ exponent dst - 2) (e - bias_of src + bias_of dst)).
  - eexists _, _. split; [reflexivity|]. split; [split; [exact Hs|lia]|lia].
  - eexists _, _. split; [reflexivity|]. split; [split; [exact Hs|]|lia]. split; [lia|]. apply move_bound; auto. apply H.
Qed.

Theorem never_infinite src dst c : format_ok src -> format_ok dst -> pattern src c -> finite dst (convert src dst c).
Proof.
  intros Os Od (s & e & m & H & ->). rewrite convert_fields by assumption.
  destruct (converted_fields src dst s e m Os Od H) as (e' & m' & -> & F & L). exists s, e', m'. auto.
Qed.

(** *** Values *)
Definition mag (f : format) (e m : Z) : Z := if e =? 0 then m else (2 ^ fraction f + m) * 2 ^ (e - 1).

Lemma mag_nonneg f s e m : format_ok f -> fields f s e m -> 0 <= mag f e m.
Proof.
  intros O (_ & He & Hm). unfold mag. destruct (Z.eqb_spec e 0); [lia|].
  pose proof (pow_pos (e - 1) ltac:(lia)). pose proof (pow_ge4 f O). nia.
Qed.
Lemma mag_zero f s e m : format_ok f -> fields f s e m -> (mag f e m = 0 <-> e = 0 /\ m = 0).
Proof.
  intros O (_ & He & Hm). unfold mag. destruct (Z.eqb_spec e 0); [lia|].
  pose proof (pow_pos (e - 1) ltac:(lia)). pose proof (pow_ge4 f O). nia.
Qed.

Lemma mag_lt f s e m s' e' m' : format_ok f -> fields f s e m -> fields f s' e' m' ->
  (e < e' \/ e = e' /\ m < m') -> mag f e m < mag f e' m'.
Proof.
  intros O (_ & He & Hm) (_ & He' & Hm') H. pose proof (pow_ge4 f O) as (_ & P). unfold mag.
  destruct (Z.eqb_spec e 0), (Z.eqb_spec e' 0); try lia.
  - pose proof (pow_pos (e' - 1) ltac:(lia)). nia.
  - destruct H as [H|[-> H]].
    + assert (Q : 2 ^ (e' - 1) = 2 ^ (e' - e) * 2 ^ (e - 1)) by (rewrite <- Z.pow_add_r by lia; f_equal; lia).
      rewrite Q, Z.mul_assoc. apply Z.mul_lt_mono_pos_r; [apply pow_pos; lia|].
      rewrite (pow_double (e' - e)) by lia. pose proof (pow_pos (e' - e - 1) ltac:(lia)). nia.
    + apply Z.mul_lt_mono_pos_r; [apply pow_pos; lia|lia].
Qed.

Lemma mag_le_lex f s e m s' e' m' : format_ok f -> fields f s e m -> fields f s' e' m' ->
  mag f e m <= mag f e' m' -> e < e' \/ e = e' /\ m <= m'.
Proof.
  intros O F F' H. destruct (Z.lt_total e e') as [L|[L|L]]; [now left| |].
  - right. split; [exact L|]. destruct (Z.le_gt_cases m m'); [assumption|].
    pose proof (mag_lt f s' e' m' s e m O F' F). lia.
  - pose proof (mag_lt f s' e' m' s e m O F' F). lia.
Qed.

Lemma mag_le f s e m s' e' m' : format_ok f -> fields f s e m -> fields f s' e' m' ->
  (e < e' \/ e = e' /\ m <= m') -> mag f e m <= mag f e' m'.
Proof.
  intros O F F' H. destruct (Z.eq_dec e e') as [Ee|]; [destruct (Z.eq_dec m m') as [Em|]|].
  - subst. lia.
  - apply Z.lt_le_incl. apply (mag_lt f s e m s' e' m'); auto. lia.
  - apply Z.lt_le_incl. apply (mag_lt f s e m s' e' m'); auto. lia.
Qed.

(** the binade of a normal number *)
Lemma binade f s e m K : format_ok f -> fields f s e m -> 1 <= e -> 0 <= K + ulp_min f ->
  2 ^ (K + e - bias_of f) <= mag f e m * 2 ^ (K + ulp_min f) < 2 ^ (K + e - bias_of f + 1).
Proof.
  intros [O1 O2] (_ & He & Hm) H1 HK. unfold mag. destruct (Z.eqb_spec e 0); [lia|].
  assert (E1 : 2 ^ (K + e - bias_of f) = 2 ^ fraction f * 2 ^ (e - 1) * 2 ^ (K + ulp_min f)).
  { rewrite <- !Z.pow_add_r by lia. f_equal. unfold ulp_min, bias_of. lia. }
  rewrite (Z.pow_add_r 2 (K + e - bias_of f) 1); [|unfold ulp_min, bias_of in *; lia|lia]. change (2 ^ 1) with 2. rewrite E1.
  pose proof (pow_pos (e - 1) ltac:(lia)) as P1. pose proof (pow_pos (K + ulp_min f) HK) as P2. 
  set (x := 2 ^ (e - 1)) in *. set (y := 2 ^ (K + ulp_min f)) in *. assert (0 < x * y) by nia.
  rewrite <- !Z.mul_assoc. split; [|rewrite (Z.mul_comm _ 2), Z.mul_assoc]; nia.
Qed.
Lemma small f s e m K : format_ok f -> fields f s e m -> e = 0 -> 0 <= K + ulp_min f ->
  mag f e m * 2 ^ (K + ulp_min f) < 2 ^ (K + 2 - 2 ^ (exponent f - 1)).
Proof.
  intros [O1 O2] (_ & He & Hm) -> HK. unfold mag. cbn [Z.eqb].
  assert (E1 : 2 ^ (K + 2 - 2 ^ (exponent f - 1)) = 2 ^ fraction f * 2 ^ (K + ulp_min f)).
  { rewrite <- !Z.pow_add_r by lia. f_equal. unfold ulp_min. lia. }
  rewrite E1. apply Z.mul_lt_mono_pos_r; [now apply pow_pos|lia].
Qed.
Lemma pow_lt_inv a b : 2 ^ a < 2 ^ b -> a < b.
Proof. intros H. destruct (Z.lt_ge_cases a b); [assumption|]. pose proof (Z.pow_le_mono_r 2 b a ltac:(lia) ltac:(lia)). lia. Qed.

Lemma abs_value s x : (s = 0 \/ s = 1) -> 0 <= x -> Z.abs ((1 - 2 * s) * x) = x.
Proof. intros [-> | ->] H; lia. Qed.

Lemma normal_field f s e m K : format_ok f -> fields f s e m -> 0 <= K + ulp_min f ->
  2 ^ (K + 2 - 2 ^ (exponent f - 1)) <= mag f e m * 2 ^ (K + ulp_min f) -> 1 <= e.
Proof.
  intros O F HK H. destruct (Z.eq_dec e 0) as [E|]; [|destruct F; lia]. pose proof (small f s e m K O F E HK). lia.
Qed.

(** a number normal in both formats is truncated *)
Theorem convert_value src dst K c v : format_ok src -> format_ok dst -> 0 <= K + ulp_min src -> 0 <= K + ulp_min dst ->
  means src K c v -> normal_range src K v -> normal_range dst K v ->
  exists v', means dst K (convert src dst c) v' /\ Z.sgn v' = Z.sgn v /\ Z.abs v' <= Z.abs v /\
    (Z.abs v - Z.abs v') * 2 ^ fraction dst < Z.abs v' /\ (fraction src <= fraction dst -> v' = v).
Proof.
  intros Os Od Ks Kd (s & e & m & F & Fin & -> & ->) Ns Nd. fold (mag src e m) in *.
  assert (Hs : s = 0 \/ s = 1) by apply F.
  pose proof (mag_nonneg src s e m Os F) as Mg. pose proof (pow_pos _ Ks) as Ps. pose proof (pow_pos _ Kd) as Pd.
  assert (Av : Z.abs ((1 - 2 * s) * mag src e m * 2 ^ (K + ulp_min src)) = mag src e m * 2 ^ (K + ulp_min src)).
  { rewrite <- Z.mul_assoc. apply abs_value; [exact Hs|]. apply Z.mul_nonneg_nonneg; lia. }
  unfold normal_range in *. rewrite Av in *.
  assert (He : 1 <= e) by (apply (normal_field src s e m K); auto; lia).
  pose proof (binade src s e m K Os F He Ks) as Bin.
  assert (Ho : 1 <= e - bias_of src + bias_of dst <= 2 ^ exponent dst - 2).
  { assert (K + 2 - 2 ^ (exponent dst - 1) < K + e - bias_of src + 1) by (apply pow_lt_inv; lia).
    assert (K + e - bias_of src < K + 2 ^ (exponent dst - 1)) by (apply pow_lt_inv; lia).
    pose proof (pow_double (exponent dst) ltac:(destruct Od; lia)). unfold bias_of in *. lia. }
  assert (HU : 0 <= K + e - bias_of src - fraction src) by (clear - Ks He; unfold ulp_min, bias_of in *; lia).
  assert (HV : 0 <= K + e - bias_of src - fraction dst) by (clear - Kd Ho; unfold ulp_min in *; unfold bias_of at 2 in Ho; lia).
  rewrite convert_fields by assumption. unfold converted.
  rewrite (proj2 (Z.eqb_neq e 0)) by (clear - He; lia). cbn [andb]. rewrite (proj2 (Z.ltb_ge _ 0)) by (clear - Ho; lia). rewrite (proj2 (Z.ltb_ge _ _)) by (clear - Ho; lia).
  remember (e - bias_of src + bias_of dst) as o eqn:Eo.
  assert (Fm : fields dst s o (move src dst m)) by (split; [exact Hs|]; split; [lia|]; apply move_bound; auto; apply F).
  pose proof (binade dst s o (move src dst m) K Od Fm ltac:(lia) Kd) as Bin'.
  pose proof (mag_nonneg dst s o (move src dst m) Od Fm) as Mg'.
  exists ((1 - 2 * s) * mag dst o (move src dst m) * 2 ^ (K + ulp_min dst)).
  assert (Av' : Z.abs ((1 - 2 * s) * mag dst o (move src dst m) * 2 ^ (K + ulp_min dst)) = mag dst o (move src dst m) * 2 ^ (K + ulp_min dst)).
  { rewrite <- Z.mul_assoc. apply abs_value; [exact Hs|]. apply Z.mul_nonneg_nonneg; lia. }
  rewrite Av'.
  (* in units of the coarser format *)
  pose proof (pow_pos (e - 1) ltac:(lia)) as P1. pose proof (pow_pos (o - 1) ltac:(lia)) as P2.
  set (U := 2 ^ (e - 1) * 2 ^ (K + ulp_min src)) in *. set (V := 2 ^ (o - 1) * 2 ^ (K + ulp_min dst)) in *.
  assert (PU : 0 < U) by (unfold U; apply Z.mul_pos_pos; lia). assert (PV : 0 < V) by (unfold V; apply Z.mul_pos_pos; lia).
  assert (EU : U = 2 ^ (K + e - bias_of src - fraction src)).
  { unfold U. rewrite <- Z.pow_add_r by lia. f_equal. unfold ulp_min, bias_of. lia. }
  assert (EV : V = 2 ^ (K + e - bias_of src - fraction dst)).
  { unfold V. rewrite <- Z.pow_add_r by lia. f_equal. unfold ulp_min. subst o. unfold bias_of. lia. }
  assert (M1 : mag src e m * 2 ^ (K + ulp_min src) = (2 ^ fraction src + m) * U).
  { unfold mag, U. rewrite (proj2 (Z.eqb_neq e 0)) by lia. ring. }
  assert (M2 : mag dst o (move src dst m) * 2 ^ (K + ulp_min dst) = (2 ^ fraction dst + move src dst m) * V).
  { unfold mag, V. rewrite (proj2 (Z.eqb_neq o 0)) by lia. ring. }
  assert (Main : mag dst o (move src dst m) * 2 ^ (K + ulp_min dst) <= mag src e m * 2 ^ (K + ulp_min src) /\
     (mag src e m * 2 ^ (K + ulp_min src) - mag dst o (move src dst m) * 2 ^ (K + ulp_min dst)) < V /\
     (fraction src <= fraction dst -> mag dst o (move src dst m) * 2 ^ (K + ulp_min dst) = mag src e m * 2 ^ (K + ulp_min src))).
  { rewrite M1, M2. unfold move. destruct (Z.ltb_spec (fraction src) (fraction dst)) as [L|L].
    - assert (EE : U = 2 ^ (fraction dst - fraction src) * V).
      { rewrite EU, EV, <- Z.pow_add_r; [f_equal; clear; lia|clear - L; lia|assumption]. }
      assert (EF : 2 ^ fraction dst = 2 ^ fraction src * 2 ^ (fraction dst - fraction src)) by (destruct Os; rewrite <- Z.pow_add_r by lia; f_equal; lia).
      assert (Q : (2 ^ fraction dst + m * 2 ^ (fraction dst - fraction src)) * V = (2 ^ fraction src + m) * U) by (rewrite EE, EF; ring).
      rewrite Q. clear - PV. split; [apply Z.le_refl|]. split; [rewrite Z.sub_diag; exact PV|reflexivity].
    - assert (EE : V = 2 ^ (fraction src - fraction dst) * U).
      { rewrite EU, EV, <- Z.pow_add_r; [f_equal; clear; lia|clear - L; lia|assumption]. }
      assert (EF : 2 ^ fraction src = 2 ^ fraction dst * 2 ^ (fraction src - fraction dst)) by (destruct Od; rewrite <- Z.pow_add_r by lia; f_equal; lia).
      pose proof (pow_pos (fraction src - fraction dst) ltac:(lia)) as PD. set (D := 2 ^ (fraction src - fraction dst)) in *.
      pose proof (Z.div_mod m D ltac:(lia)) as DM. pose proof (Z.mod_pos_bound m D ltac:(lia)) as DB.
      rewrite EE, EF. 
      assert (R : (2 ^ fraction dst * D + m) * U - (2 ^ fraction dst + m / D) * (D * U) = (m mod D) * U) by (rewrite DM at 1; ring).
      assert (R2 : 0 <= (m mod D) * U < D * U) by (clear - DB PU; nia).
      remember ((2 ^ fraction dst * D + m) * U) as p1. remember ((2 ^ fraction dst + m / D) * (D * U)) as p2. remember (m mod D * U) as p3.
      clear Heqp1 Heqp2. split; [clear - R R2; lia|]. split; [clear - R R2; lia|].
      intros L'. assert (D = 1) by (unfold D; replace (fraction src - fraction dst) with 0 by (clear - L L'; lia); reflexivity).
      assert (m mod D = 0) by (clear - DB H; lia). assert (p3 = 0) by (subst p3; rewrite H0; reflexivity). clear - R H1. lia. }
  destruct Main as (G1 & G2 & G3).
  split; [|split; [|split; [exact G1|split]]].
  - exists s, o, (move src dst m). split; [exact Fm|]. split; [lia|]. split; reflexivity.
  - assert (X1 : 0 < mag src e m * 2 ^ (K + ulp_min src)).
    { rewrite M1. pose proof (pow_ge4 src Os) as Q. destruct F as (_ & _ & Fmm). clear - Q Fmm PU. apply Z.mul_pos_pos; lia. }
    assert (X2 : 0 < mag dst o (move src dst m) * 2 ^ (K + ulp_min dst)).
    { rewrite M2. pose proof (pow_ge4 dst Od) as Q. destruct Fm as (_ & _ & Fmm). clear - Q Fmm PV. apply Z.mul_pos_pos; lia. }
    clear - Hs X1 X2. rewrite <- !Z.mul_assoc. revert X1 X2. generalize (mag src e m * 2 ^ (K + ulp_min src)), (mag dst o (move src dst m) * 2 ^ (K + ulp_min dst)).
    intros a b X1 X2. destruct Hs as [-> | ->]; lia.
  - rewrite M2 in *. pose proof (pow_ge4 dst Od) as Q. destruct Fm as (_ & _ & Fmm). clear - G1 G2 Q Fmm PV.
    revert G1 G2. generalize (mag src e m * 2 ^ (K + ulp_min src)). intros X G1 G2. generalize dependent (2 ^ fraction dst). intros F2 Q Fmm G1 G2.
    apply Z.lt_le_trans with (V * F2); [apply Z.mul_lt_mono_pos_r; lia|]. rewrite (Z.mul_comm V). apply Z.mul_le_mono_nonneg_r; lia.
  - intros L. specialize (G3 L). rewrite <- !Z.mul_assoc. now rewrite G3.
Qed.
