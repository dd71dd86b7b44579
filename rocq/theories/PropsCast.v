(** Properties of the conversions of tensors. *)
From Coq Require Import Ascii String List ZArith Bool Lia.
From Verif Require Import ShapeModel ShapeSpec ShapeProofs KernelBase KernelSpec KernelProofs EltwiseModel EltwiseKernelProofs ActivationProofs CastModel CastSpec CastProofs.
Import ListNotations.
Local Open Scope Z_scope.

Lemma plain_support t : plain t -> support t = true.
Proof.
  unfold plain, support. rewrite range_bits. destruct (bits t) as [[w []]|]; auto. intros [H|[-> | ->]]; [congruence|reflexivity|reflexivity].
Qed.
Lemma plain_not_half t : plain t -> t =? 9 = false.
Proof. intros [H|[-> | ->]]; try reflexivity. apply Z.eqb_neq. intros ->. now apply H. Qed.

Section Cast.
Variables to_half of_half : num -> num.
Notation convert := (convert to_half of_half).
Notation cast := (cast to_half of_half).

Lemma convert_spec src dst a : plain src -> plain dst -> holds src a ->
  match convert src dst a with
  | SOk b => converted src dst a b
  | SUndef => forall b, ~ converted src dst a b
  | SErr => False
  end.
Proof.
  intros Ps Pd H. unfold CastModel.convert. rewrite (plain_not_half _ Ps). unfold converted.
  destruct (range dst) as [[lo hi]|] eqn:Rd.
  - apply range_fits in Rd. destruct Rd as (w & s & -> & Hlh & Hw & Hf & Hz & _).
    destruct (range src) as [[lo' hi']|] eqn:Rs.
    + apply range_fits in Rs. destruct Rs as (w' & s' & Bs & _). rewrite Bs. unfold holds in H. rewrite Bs in H.
      destruct H as (n & -> & _). unfold integer at 1. fold scale. rewrite Z.div_mul by (pose proof scale_pos; lia).
      destruct (wrap_mod lo hi n Hlh) as [W M]. exists n, (wrap lo hi n). split; [reflexivity|]. split; [reflexivity|]. split; [now apply Hf|]. now rewrite <- Hw.
    + rewrite range_bits in Rs. destruct (bits src) as [[w' []]|] eqn:Bs; try discriminate. unfold to_integer.
      destruct a as [v|b|]; [|intros b' (v & k & [=] & _)|intros b' (v & k & [=] & _)].
      pose proof scale_pos as Sp. fold scale. set (t := Z.quot v scale).
      assert (T : (0 <= v -> t * scale <= v < (t + 1) * scale) /\ (v <= 0 -> (t - 1) * scale < v <= t * scale)).
      { pose proof (Z.quot_rem' v scale) as Q. fold t in Q.
        split; intros Hv; [pose proof (Z.rem_bound_pos v scale Hv Sp); lia|].
        pose proof (Z.rem_bound_pos (- v) scale ltac:(lia) Sp) as B. rewrite Z.rem_opp_l in B by lia. lia. }
      destruct ((lo <=? t) && (t <=? hi)) eqn:E.
      * apply andb_true_iff in E. rewrite !Z.leb_le in E. exists v, t. split; [reflexivity|]. split; [reflexivity|]. split; [now apply Hf|]. exact T.
      * intros b (v' & k & [= <-] & _ & Fk & K1 & K2). apply Hf in Fk.
        assert (k = t) by (destruct (Z.le_ge_cases 0 v) as [Hv|Hv]; [specialize (K1 Hv); destruct T as [T _]; specialize (T Hv)|specialize (K2 Hv); destruct T as [_ T]; specialize (T Hv)]; nia).
        subst k. apply andb_false_iff in E. rewrite !Z.leb_gt in E. lia.
  - rewrite range_bits in Rd. destruct (bits dst) as [[w []]|] eqn:Bd; try discriminate.
    destruct Pd as [Pd|[-> | ->]]; [congruence| |]; cbn [Z.eqb]; [left|right]; (split; [reflexivity|]).
    + destruct a as [v|b|]; try reflexivity. destruct (round_spec 24 (-149) 128 v) as (w & R & E); try lia.
      exists w. split; [exact R|]. unfold round32. rewrite E. destruct (Z.leb_spec (2 ^ (128 + 1074)) (Z.abs w)); auto.
    + destruct a as [v|b|]; try reflexivity. destruct (round_spec 53 (-1074) 1024 v) as (w & R & E); try lia.
      exists w. split; [exact R|]. unfold round64. rewrite E. destruct (Z.leb_spec (2 ^ (1024 + 1074)) (Z.abs w)); auto.
Qed.

(** the loop visits every element once *)
Lemma cast_loop_events src dst x n : 0 <= n -> n = Z.of_nat (length x) ->
  (forall i v, In (i, v) (cast_loop to_half of_half src dst x n) <-> 0 <= i < n /\ v = match load x i with SOk a => convert src dst a | SErr => SErr | SUndef => SUndef end).
Proof.
  intros Hn El i v. unfold cast_loop. rewrite in_app_iff, in_flat_map, in_map_iff. split.
  - intros [(k & Hk & H)|(k & E & Hk)].
    + apply In_upto in Hk. cbn [In] in H.
      destruct H as [H|[H|[H|[H|[]]]]]; apply pair_equal_spec in H; destruct H as [<- <-]; (split; [Z.to_euclidean_division_equations; lia|reflexivity]).
    + apply pair_equal_spec in E. destruct E as [<- <-]. apply In_steps in Hk; [|lia]. destruct Hk as (j & Hj & -> & Hlt). split; [Z.to_euclidean_division_equations; lia|reflexivity].
  - intros [Hi ->]. destruct (Z_lt_le_dec i (n / 4 * 4)) as [H|H].
    + left. exists (i / 4). split; [apply In_upto; Z.to_euclidean_division_equations; lia|].
      assert (R : i = i / 4 * 4 \/ i = i / 4 * 4 + 1 \/ i = i / 4 * 4 + 2 \/ i = i / 4 * 4 + 3) by (Z.to_euclidean_division_equations; lia).
      cbn [In]. destruct R as [R|[R|[R|R]]]; rewrite <- R; auto 6.
    + right. exists i. split; [reflexivity|]. apply In_steps; [lia|]. exists (i - n / 4 * 4). lia.
Qed.

(** ** C112: cast converts every element. *)
Theorem C112_cast_partial x dst : wf x -> plain (t_dtype x) -> plain dst -> Forall (holds (t_dtype x)) (t_data x) -> t_dtype x <> dst ->
  (exists y, cast dst x = SOk (filled y) /\ wf y /\ t_dtype y = dst /\ t_shape y = t_shape x /\ Forall2 (converted (t_dtype x) dst) (t_data x) (t_data y)) \/
  (cast dst x = SUndef /\ exists a, In a (t_data x) /\ forall b, ~ converted (t_dtype x) dst a b).
Proof.
  intros [N W] Ps Pd Hh Nd. unfold CastModel.cast. rewrite (proj2 (Z.eqb_neq _ _) Nd), (plain_support _ Ps), (plain_support _ Pd). cbn [andb negb].
  rewrite prod_elements, <- W. set (n := Z.of_nat (length (t_data x))). set (src := t_dtype x) in *.
  pose proof (cast_loop_events src dst (t_data x) n ltac:(lia) eq_refl) as Ev.
  destruct (existsb (fun a => match convert src dst a with SUndef => true | _ => false end) (t_data x)) eqn:U.
  - right. apply existsb_exists in U. destruct U as (a & Ha & U).
    assert (Ca : convert src dst a = SUndef) by (destruct (convert src dst a); congruence).
    rewrite exec_undef; [split; [reflexivity|]|intros i v Hi|].
    + exists a. split; [exact Ha|]. pose proof (convert_spec src dst a Ps Pd) as C. rewrite Ca in C. apply C. rewrite Forall_forall in Hh. auto.
    + apply Ev in Hi. destruct Hi as [Hi ->]. destruct (load_ok (t_data x) i Hi) as (b & -> & Hb).
      apply nth_error_In in Hb. pose proof (convert_spec src dst b Ps Pd) as C. rewrite Forall_forall in Hh. specialize (C (Hh b Hb)).
      destruct (convert src dst b); [discriminate|contradiction|discriminate].
    + apply In_nth_error in Ha. destruct Ha as (k & Hk). exists (Z.of_nat k). apply Ev.
      assert (Hlt : (k < length (t_data x))%nat) by (apply nth_error_Some; congruence). split; [unfold n; lia|].
      rewrite (proj2 (load_inv (t_data x) (Z.of_nat k) a)); [now rewrite Ca|]. rewrite Nat2Z.id. split; [lia|exact Hk].
  - left.
    assert (OK : forall a, In a (t_data x) -> exists b, convert src dst a = SOk b /\ converted src dst a b).
    { intros a Ha. pose proof (convert_spec src dst a Ps Pd) as C. rewrite Forall_forall in Hh. specialize (C (Hh a Ha)).
      assert (X : convert src dst a <> SUndef).
      { intros E. assert (existsb (fun a => match convert src dst a with SUndef => true | _ => false end) (t_data x) = true); [|congruence].
        apply existsb_exists. exists a. split; [exact Ha|]. now rewrite E. }
      destruct (convert src dst a) as [b| |]; [eauto|contradiction|congruence]. }
    set (f := fun a => match convert src dst a with SOk b => b | _ => NaN end).
    exists (Tn dst (t_shape x) (map f (t_data x))).
    assert (E : exec (fresh n) (cast_loop to_half of_half src dst (t_data x) n) = SOk (map Some (map f (t_data x)))).
    { rewrite (exec_all (fun i => f (nth (Z.to_nat i) (t_data x) NaN))).
      - unfold n. now rewrite map_upto_f.
      - intros i v Hi. apply Ev in Hi. destruct Hi as [Hi ->]. split; [exact Hi|].
        destruct (load_ok (t_data x) i Hi) as (a & -> & Ha). rewrite (nth_error_nth _ _ NaN Ha).
        destruct (OK a (nth_error_In _ _ Ha)) as (b & Eb & _). unfold f. now rewrite Eb.
      - intros i Hi. apply in_map_iff. eexists (i, _). split; [reflexivity|]. apply Ev. split; [exact Hi|reflexivity]. }
    rewrite E. split; [reflexivity|]. split; [split; [exact N|cbn; now rewrite map_length]|]. split; [reflexivity|]. split; [reflexivity|]. cbn [t_data].
    clear E Ev n U Hh W. induction (t_data x) as [|a l IH]; [constructor|]. constructor.
    + destruct (OK a (or_introl eq_refl)) as (b & Eb & C). unfold f. now rewrite Eb.
    + apply IH. intros b Hb. apply OK. now right.
Qed.

(** cast fails exactly for types it does not know *)
Lemma exec_no_err {A} tr : forall (m : list (option A)), (forall i v, In (i, v) tr -> v <> SErr) -> exec m tr <> SErr.
Proof.
  clear. induction tr as [|[i v] tr IH]; intros m H; [discriminate|]. cbn [exec]. destruct v as [a| |].
  - unfold store. destruct (_ || _); [discriminate|]. apply IH. intros j w Hj. apply (H j w). now right.
  - elim (H i SErr); [now left|reflexivity].
  - discriminate.
Qed.
Lemma support_plain t : support t = true <-> plain t \/ t = 9.
Proof.
  split; [|intros [H| ->]; [now apply plain_support|reflexivity]]. unfold support, plain. rewrite range_bits. destruct (bits t) as [[w s]|].
  - intros _. left. left. discriminate.
  - rewrite !orb_true_iff, !Z.eqb_eq. intros [[H|H]|H]; auto.
Qed.
Theorem C112_refused x dst : wf x -> (cast dst x = SErr <-> t_dtype x <> dst /\ ~ ((plain (t_dtype x) \/ t_dtype x = 9) /\ (plain dst \/ dst = 9))).
Proof.
  intros [N W]. rewrite <- !support_plain. unfold CastModel.cast. destruct (Z.eqb_spec (t_dtype x) dst) as [E|Nd].
  { split; [discriminate|]. intros [H _]. contradiction. }
  destruct (support (t_dtype x)) eqn:S1; [destruct (support dst) eqn:S2|]; cbn [andb negb].
  - split; [|intros [_ H]; elim H; auto]. intros H. exfalso.
    assert (X : exec (fresh (prod (t_shape x))) (cast_loop to_half of_half (t_dtype x) dst (t_data x) (prod (t_shape x))) <> SErr).
    { apply exec_no_err. intros i v Hi. rewrite prod_elements, <- W in Hi. apply cast_loop_events in Hi; [|lia|reflexivity]. destruct Hi as [Hi ->].
      destruct (load_ok (t_data x) i Hi) as (a & -> & _). unfold CastModel.convert, to_integer.
      destruct (range dst) as [[lo hi]|]; [destruct (range (t_dtype x)) as [p|]|]; repeat match goal with |- context[match ?y with Num _ => _ | Inf _ => _ | NaN => _ end] => destruct y end; try discriminate.
      - destruct (_ && _); discriminate.
      - destruct (dst =? 10); [discriminate|]. destruct (dst =? 11); discriminate. }
    destruct (exec _ _); congruence.
  - split; [intros _; split; [exact Nd|]; intros [_ H]; discriminate|reflexivity].
  - split; [intros _; split; [exact Nd|]; intros [H _]; discriminate|reflexivity].
Qed.
(** nothing is converted when the type is the same *)
Theorem C112_same x : cast (t_dtype x) x = SOk (filled x).
Proof. unfold CastModel.cast. rewrite Z.eqb_refl. destruct x; reflexivity. Qed.

(** A value of both types is kept. *)
Theorem C112_exact src dst a b : plain src -> plain dst -> holds src a -> holds dst a -> converted src dst a b -> b = a.
Proof.
  intros Ps Pd Hs Hd C. unfold converted in C. unfold holds in Hs, Hd. pose proof scale_pos as Sp. unfold scale in Sp.
  destruct (bits dst) as [[w s]|] eqn:Bd.
  - assert (U : fits w s = fits w s) by reflexivity.
    assert (Rg : exists lo hi, range dst = Some (lo, hi)) by (rewrite range_bits, Bd; destruct s; eauto).
    destruct Rg as (lo & hi & Rg). apply range_fits in Rg. destruct Rg as (w0 & s0 & B0 & Hlh & Hw & Hf & _). rewrite Bd in B0. injection B0 as <- <-.
    destruct Hd as (n & -> & Fn). apply Hf in Fn. destruct (bits src) as [[w' s']|].
    + destruct C as (n' & k & E & -> & Fk & M). injection E as E. apply Z.mul_reg_r in E; [|lia]. subst n'. apply Hf in Fk. f_equal. f_equal.
      assert (D : exists q, k - n = 2 ^ w * q) by (apply Z.mod_divide in M; [destruct M as (q & ->); exists q; lia|rewrite <- Hw; lia]).
      destruct D as (q & D). rewrite <- Hw in D. assert (q = 0) by nia. lia.
    + destruct C as (v & k & [= <-] & -> & Fk & K1 & K2). f_equal. f_equal. destruct (Z.le_ge_cases 0 n) as [Hn|Hn].
      * specialize (K1 ltac:(nia)). nia.
      * specialize (K2 ltac:(nia)). nia.
  - assert (G : forall p emin emax, 0 < p -> 0 <= emin + 1074 -> binary p emin emax a -> rounds p emin emax a b -> b = a).
    { clear. intros p emin emax Hp He Ba Rb. destruct a as [v|i|]; cbn in Rb; auto. destruct Ba as [S B]. destruct Rb as (w & (_ & Nr & _) & D).
      specialize (Nr v S). assert (w = v) by lia. subst w. destruct D as [[_ ->]|[D _]]; [reflexivity|]. lia. }
    destruct C as [[-> C]|[-> C]], Hd as [[E Hd]|[E Hd]]; try discriminate; [apply (G 24 (-149) 128)|apply (G 53 (-1074) 1024)]; auto; clear; lia.
Qed.
(** Every value of a smaller type is one of a larger type. *)
Lemma integer_binary p emin emax n : 0 < p -> emin <= 0 -> p <= emax -> Z.abs n < 2 ^ p -> binary p emin emax (integer n).
Proof.
  intros Hp He Hm Hn. unfold binary, integer. split; [exists n, 0; auto|].
  rewrite Z.abs_mul, (Z.abs_eq (2 ^ 1074)) by (apply Z.pow_nonneg; lia). rewrite Z.pow_add_r by lia.
  apply Z.mul_lt_mono_pos_r; [apply Z.pow_pos_nonneg; lia|]. apply (Z.lt_le_trans _ (2 ^ p)); [exact Hn|]. apply Z.pow_le_mono_r; lia.
Qed.
Lemma bits_cases t w s : bits t = Some (w, s) -> w = 8 \/ w = 16 \/ w = 32 \/ w = 64.
Proof. unfold bits. intros E. destruct t as [|p|p]; try discriminate. do 5 (destruct p as [p|p|]; try discriminate; try (injection E as <- <-; auto)). Qed.
Theorem C112_embeds src dst a : embeds src dst = true -> holds src a -> holds dst a.
Proof.
  unfold embeds, holds. destruct (bits src) as [[w s]|] eqn:Bs; destruct (bits dst) as [[w' s']|] eqn:Bd; intros E H; try discriminate.
  - destruct H as (n & -> & F). exists n. split; [reflexivity|]. apply bits_cases in Bs, Bd. unfold fits in *.
    destruct s, s'; cbn [Bool.eqb negb andb] in E; try discriminate; first [apply Z.leb_le in E|apply Z.ltb_lt in E];
      destruct Bs as [-> |[-> |[-> | ->]]]; destruct Bd as [-> |[-> |[-> | ->]]]; cbn in F |- *; lia.
  - destruct H as (n & -> & F). apply bits_cases in Bs. apply orb_true_iff in E. rewrite !andb_true_iff, !Z.eqb_eq, !Z.leb_le in E.
    destruct E as [[-> E]|[-> E]]; [left|right]; (split; [reflexivity|]); apply integer_binary; try lia; unfold fits in F.
    + destruct Bs as [-> |[-> |[-> | ->]]]; try lia; destruct s; cbn in F |- *; lia.
    + destruct Bs as [-> |[-> |[-> | ->]]]; try lia; destruct s; cbn in F |- *; lia.
  - apply orb_true_iff in E. rewrite !andb_true_iff, orb_true_iff, !Z.eqb_eq in E.
    destruct H as [[-> H]|[-> H]], E as [[E1 E2]|[E1 E2]]; try discriminate; [destruct E2 as [-> | ->]| subst dst]; auto.
    right. split; [reflexivity|]. destruct a as [v|i|]; try exact I. destruct H as [(m & e & -> & Hm & He) B]. split.
    + exists m, e. split; [reflexivity|]. split; [|lia]. apply (Z.lt_le_trans _ (2 ^ 24)); [exact Hm|]. apply Z.pow_le_mono_r; lia.
    + apply (Z.lt_le_trans _ _ _ B). apply Z.pow_le_mono_r; lia.
Qed.
(** Casting to a larger type and back gives the tensor. *)
Theorem C112_round_trip x dst : wf x -> plain (t_dtype x) -> plain dst -> embeds (t_dtype x) dst = true -> Forall (holds (t_dtype x)) (t_data x) ->
  exists y, cast dst x = SOk (filled y) /\ t_dtype y = dst /\ t_shape y = t_shape x /\ t_data y = t_data x /\ cast (t_dtype x) y = SOk (filled x).
Proof.
  intros W Ps Pd Em Hh. destruct (Z.eq_dec (t_dtype x) dst) as [E|Nd].
  { exists x. rewrite <- E, C112_same. auto 6. }
  assert (Keep : forall z dst', wf z -> plain (t_dtype z) -> plain dst' -> t_dtype z <> dst' -> Forall (holds (t_dtype z)) (t_data z) -> Forall (holds dst') (t_data z) ->
    cast dst' z = SOk (filled (Tn dst' (t_shape z) (t_data z)))).
  { clear - to_half. intros z dst' W Ps Pd Nd H1 H2. destruct (C112_cast_partial z dst' W Ps Pd H1 Nd) as [(y & E & Wy & Dy & Sy & F)|(E & a & Ha & Na)].
    - rewrite E. f_equal. destruct y as [dy sy ly]. cbn [t_dtype t_shape t_data] in *. subst dy sy. enough (L : ly = t_data z) by now rewrite L.
      clear - F Ps Pd H1 H2. induction F as [|a b la lb C F IH]; [reflexivity|]. inversion H1; inversion H2; subst. f_equal; [|auto].
      apply (C112_exact (t_dtype z) dst'); auto.
    - exfalso. rewrite Forall_forall in H1, H2. pose proof (convert_spec (t_dtype z) dst' a Ps Pd (H1 a Ha)) as C.
      destruct (CastModel.convert to_half of_half (t_dtype z) dst' a) as [b| |] eqn:Ec; [exact (Na b C)|exact C|].
      (* undefined only if it does not fit *)
      unfold CastModel.convert in Ec. rewrite (plain_not_half _ Ps) in Ec. specialize (H1 a Ha). specialize (H2 a Ha).
      unfold holds in H2. destruct (range dst') as [[lo hi]|] eqn:Rd.
      + apply range_fits in Rd. destruct Rd as (w & s & Bd & _ & _ & Hf & _). rewrite Bd in H2. destruct H2 as (n & -> & Fn). apply Hf in Fn.
        destruct (range (t_dtype z)); [discriminate|]. unfold to_integer, integer in Ec. fold scale in Ec. pose proof scale_pos.
        rewrite Z.quot_mul in Ec by lia. rewrite (proj2 (Z.leb_le _ _) (proj1 Fn)), (proj2 (Z.leb_le _ _) (proj2 Fn)) in Ec. discriminate.
      + destruct (dst' =? 10); [discriminate|]. destruct (dst' =? 11); discriminate. }
  assert (Hd : Forall (holds dst) (t_data x)) by (rewrite Forall_forall in *; intros a Ha; eapply C112_embeds; eauto).
  exists (Tn dst (t_shape x) (t_data x)). split; [now apply Keep|]. split; [reflexivity|]. split; [reflexivity|]. split; [reflexivity|].
  rewrite Keep; cbn [t_dtype t_shape t_data]; auto.
Qed.
End Cast.
Print Assumptions C112_cast_partial.
Print Assumptions C112_refused.
Print Assumptions C112_same.
Print Assumptions C112_exact.
Print Assumptions C112_embeds.
Print Assumptions C112_round_trip.

Definition keep : num -> num := fun x => x.
(** int8 to int32, int32 to uint8, a double to int32, 2.5 and 3.5 *)
Example C112_example :
  cast keep keep 5 (Tn 1 [2; 3] (map integer [-128; -1; 0; 1; 5; 127])) = SOk (filled (Tn 5 [2; 3] (map integer [-128; -1; 0; 1; 5; 127]))) /\
  cast keep keep 2 (Tn 5 [5] (map integer [-1; 256; 300; 255; -256])) = SOk (filled (Tn 2 [5] (map integer [255; 0; 44; 255; 0]))) /\
  cast keep keep 5 (Tn 11 [2] [Num (5 * 2 ^ 1073); Num (- (7 * 2 ^ 1073))]) = SOk (filled (Tn 5 [2] (map integer [2; -3]))) /\
  cast keep keep 1 (Tn 11 [1] [integer 128]) = SUndef /\ cast keep keep 22 (Tn 1 [0] []) = SErr.
Proof. vm_compute. repeat split. Qed.
(** A 32-bit integer need not survive float32: 2^24 + 1. *)
Theorem C112_int_to_float_refuted :
  exists n y, fits 32 true n /\ cast keep keep 10 (Tn 5 [1] [integer n]) = SOk (filled y) /\ t_data y <> [integer n].
Proof. exists 16777217, (Tn 10 [1] [integer 16777216]). split; [split; vm_compute; congruence|]. split; [vm_compute; reflexivity|]. vm_compute. congruence. Qed.
(** A number that is not zero may become "false": 256 and 0.5. *)
Theorem C112_to_boolean_refuted :
  cast keep keep 21 (Tn 5 [1] [integer 256]) = SOk (filled (Tn 21 [1] [integer 0])) /\
  cast keep keep 21 (Tn 10 [1] [Num (2 ^ 1073)]) = SOk (filled (Tn 21 [1] [integer 0])).
Proof. vm_compute. split; reflexivity. Qed.
Print Assumptions C112_int_to_float_refuted.
Print Assumptions C112_to_boolean_refuted.
