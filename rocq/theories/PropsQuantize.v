(** C145: quantize. *)
From Coq Require Import List ZArith Bool Lia QArith Qround Qabs Lqa.
From Verif Require Import ShapeModel ShapeSpec ShapeProofs KernelBase KernelSpec KernelProofs ResizeModel ResizeProofs ZooModel PropsDivided QuantizeModel QuantizeSpec.
Import ListNotations.
Local Open Scope Z_scope.

Lemma round_away_spec v : nearest_away v (round_away v).
Proof.
  unfold round_away. destruct (Qle_bool 0 v) eqn:E.
  - apply Qle_bool_iff in E. destruct (floor_bounds (v + (1 # 2))) as [F1 F2]. set (z := Qfloor _) in *.
    assert (Hz : (0 <= z)%Z). { assert (-1 < z)%Z; [|lia]. apply inj_lt. change (inject_Z (-1)) with (- (1))%Q. lra. }
    apply inj_le in Hz. change (inject_Z 0) with 0%Q in Hz.
    split; [unfold nearest; apply Qabs_Qle_condition; lra|].
    intros T. rewrite (Qabs_pos v) by lra. rewrite Qabs_pos by lra. revert T. apply Qabs_case; intros; lra.
  - assert (L : (v < 0)%Q). { destruct (Qlt_le_dec v 0) as [H|H]; [exact H|]. apply Qle_bool_iff in H. congruence. }
    destruct (floor_bounds (- v + (1 # 2))) as [F1 F2]. set (z := Qfloor _) in *.
    assert (Hz : (0 <= z)%Z). { assert (-1 < z)%Z; [|lia]. apply inj_lt. change (inject_Z (-1)) with (- (1))%Q. lra. }
    apply inj_le in Hz. change (inject_Z 0) with 0%Q in Hz.
    split; [unfold nearest; rewrite inject_Z_opp; apply Qabs_Qle_condition; lra|].
    intros T. rewrite (Qabs_neg v) by lra. rewrite inject_Z_opp, Qabs_opp, Qabs_pos by lra. revert T. rewrite inject_Z_opp. apply Qabs_case; intros; lra.
Qed.

Lemma round_even_spec v : nearest v (round_even v).
Proof.
  unfold nearest, round_even. destruct v as [n d]. cbn [Qnum Qden].
  assert (H : 2 * Z.abs (n - div_even n (Zpos d) * Zpos d) <= Zpos d).
  { unfold div_even. cbv zeta. pose proof (Z.div_mod n (Zpos d) ltac:(lia)) as D. pose proof (Z.mod_pos_bound n (Zpos d) ltac:(lia)) as B.
    set (q := n / Zpos d) in *. set (r := n mod Zpos d) in *. clearbody q r.
    destruct (Z.ltb_spec (2 * r) (Zpos d)); [lia|]. destruct (Z.ltb_spec (Zpos d) (2 * r)); [lia|]. destruct (Z.even q); lia. }
  set (z := div_even _ _) in *. clearbody z. unfold Qabs, Qminus, Qplus, Qopp, inject_Z, Qle. cbn [Qnum Qden].
  rewrite !Pos.mul_1_r, !Z.mul_1_r, !Z.mul_1_l. replace (n + - z * Zpos d) with (n - z * Zpos d) by ring. lia.
Qed.

Lemma saturate_spec z : byte_of z (saturate z).
Proof. unfold byte_of, saturate. destruct (Z.ltb_spec 127 z); [lia|]. destruct (Z.ltb_spec z (-128)); lia. Qed.

Definition in_range (v : Q) : Prop := (- (2147483648) <= v /\ v <= 2147483647)%Q.

Lemma nearest_fits v z : in_range v -> nearest v z -> fits z = true.
Proof.
  intros [R1 R2] H. unfold nearest in H. apply Qabs_Qle_condition in H. unfold fits, int_min.
  apply andb_true_iff. rewrite !Z.leb_le. split.
  - assert (-2147483649 < z); [|lia]. apply inj_lt. change (inject_Z (-2147483649)) with (- (2147483649))%Q. lra.
  - assert (z < 2147483648); [|lia]. apply inj_lt. change (inject_Z 2147483648) with 2147483648%Q. lra.
Qed.

Lemma to_int8_ok v : in_range v -> to_int8 v = SOk (saturate (round_away v)).
Proof. intro H. unfold to_int8. cbv zeta. now rewrite (nearest_fits v _ H (proj1 (round_away_spec v))). Qed.
Lemma cvtps_ok v : in_range v -> cvtps v = round_even v.
Proof. intro H. unfold cvtps. cbv zeta. now rewrite (nearest_fits v _ H (round_even_spec v)). Qed.

Section Proofs.
Variable mul : Q -> Q -> Q.

(** the stores of the loop over the scales *)
Lemma groups_in x L : 0 < L -> forall scales index count d v, 0 <= index -> (index + L * Z.of_nat (length scales) <= count + L * Z.of_nat (length scales)) ->
  In (d, v) (groups mul x scales index count L) <->
  index <= d < Z.min count (index + L * Z.of_nat (length scales)) /\
  (d, v) = scalar mul x (nth (Z.to_nat ((d - index) / L)) scales 0%Q) d.
Proof.
  intro HL. induction scales as [|s scales IH]; intros index count d v Hi Hc; cbn [groups length].
  - split; [intros []|]. lia.
  - cbv zeta. rewrite in_app_iff, in_map_iff. set (k := Z.min L (count - index)).
    assert (Hk : 0 <= k <= L) by lia. rewrite (IH (index + k) count d v) by lia. split.
    + intros [(e & He & Hin)|[H1 H2]].
      * apply In_upto in Hin. assert (Hd : d = index + e) by (unfold scalar in He; congruence). split; [lia|].
        replace (d - index) with e by lia. rewrite Z.div_small by lia. cbn [Z.to_nat nth]. rewrite <- He, Hd. reflexivity.
      * assert (k = L) by lia. split; [lia|]. rewrite H2.
        replace (d - index) with ((d - (index + k)) + 1 * L) by lia. rewrite Z.div_add by lia.
        assert (0 <= (d - (index + k)) / L) by (apply Z.div_pos; lia).
        rewrite Z2Nat.inj_add by lia. change (Z.to_nat 1) with 1%nat. rewrite Nat.add_1_r. reflexivity.
    + intros [H1 H2]. destruct (Z.lt_ge_cases d (index + k)) as [Hlt|Hge].
      * left. exists (d - index). split; [|apply In_upto; lia]. rewrite H2. rewrite Z.div_small by lia. cbn [Z.to_nat nth].
        replace (index + (d - index)) with d by lia. reflexivity.
      * right. assert (k = L) by lia. split; [lia|]. rewrite H2.
        replace (d - index) with ((d - (index + k)) + 1 * L) by lia. rewrite Z.div_add by lia.
        assert (0 <= (d - (index + k)) / L) by (apply Z.div_pos; lia).
        rewrite Z2Nat.inj_add by lia. change (Z.to_nat 1) with 1%nat. rewrite Nat.add_1_r. reflexivity.
Qed.

(** Several scales, with any count per scale that leaves no element over. *)
Lemma groups_exec x scales count L : 0 <= count -> Z.of_nat (length x) = count -> 0 < L -> count <= L * Z.of_nat (length scales) ->
  (forall i, 0 <= i < count -> in_range (mul (nth (Z.to_nat i) x 0%Q) (nth (Z.to_nat (i / L)) scales 0%Q))) ->
  exec (fresh count) (groups mul x scales 0 count L) =
  SOk (map Some (map (fun i => saturate (round_away (mul (nth (Z.to_nat i) x 0%Q) (nth (Z.to_nat (i / L)) scales 0%Q)))) (upto count))).
Proof.
  intros Hc Hx HL Hcov HR.
  assert (Hsc : forall d v, (d, v) = scalar mul x (nth (Z.to_nat ((d - 0) / L)) scales 0%Q) d -> 0 <= d < count ->
    v = SOk (saturate (round_away (mul (nth (Z.to_nat d) x 0%Q) (nth (Z.to_nat (d / L)) scales 0%Q))))).
  { intros d v H Hd. unfold scalar in H. injection H as ->. rewrite Z.sub_0_r.
    unfold load. rewrite (proj2 (Z.ltb_ge d 0)) by lia. rewrite (nth_error_nth' x 0%Q) by lia. apply to_int8_ok. now apply HR. }
  apply exec_all.
  - intros d v H. apply groups_in in H; [|lia..]. destruct H as [H1 H2]. split; [lia|]. apply Hsc; [exact H2|lia].
  - intros d Hd. apply in_map_iff. eexists (d, _). split; [reflexivity|]. apply groups_in; [lia..|]. split; [lia|]. reflexivity.
Qed.

Lemma loop_count_exact g r : 0 < g -> 0 < r -> g * r <= p24 -> loop_count (g * r) g = r.
Proof.
  intros Hg Hr H. unfold loop_count. rewrite (proj2 (Z.eqb_neq (g * r) 0)) by nia. rewrite !float_of_exact by nia. apply float_ceil; nia.
Qed.

(** Several scales, or doubles: every element is the product with the scale of
    its row, rounded to the nearest integer (halves away from zero) and brought
    into the range of a byte.  Missing: more than 2^24 elements
    (C145_scale_of_row_refuted), products that fit no 32-bit integer
    (C145_saturate_refuted), and floats with one scale (C145_ties_refuted). *)
Theorem C145_rows_partial (scales : list Q) (x : tensor Q) d s : wf x -> t_shape x = d :: s ->
  Z.of_nat (length scales) = d -> 1 <= d -> t_dtype x = 10 /\ d <> 1 \/ t_dtype x = 11 ->
  elements (t_shape x) <= 2 ^ 24 ->
  (forall n c v, inside (t_shape x) (n :: c) -> elt x (n :: c) = Some v -> in_range (mul v (nth (Z.to_nat n) scales 0%Q))) ->
  exists out, quantize mul scales x = SOk (filled out) /\ wf out /\ t_dtype out = 1 /\ t_shape out = t_shape x /\
    forall n c v, inside (t_shape x) (n :: c) -> elt x (n :: c) = Some v ->
      exists z r, elt out (n :: c) = Some r /\ nearest_away (mul v (nth (Z.to_nat n) scales 0%Q)) z /\ byte_of z r.
Proof.
  intros [Wn Wd] Es Hl Hd Ht Hbig HR. rewrite Es in *.
  set (r := elements s). assert (Hr : 0 <= r) by (apply elements_nonneg; now inversion Wn).
  assert (Hcount : elements (d :: s) = d * r) by reflexivity. rewrite Hcount in *.
  set (value := fun i => saturate (round_away (mul (nth (Z.to_nat i) (t_data x) 0%Q) (nth (Z.to_nat (i / r)) scales 0%Q)))).
  assert (Hcell : forall i, 0 <= i < d * r -> exists n c, inside (d :: s) (n :: c) /\ position (d :: s) (n :: c) = i /\ n = i / r /\ elt x (n :: c) = Some (nth (Z.to_nat i) (t_data x) 0%Q)).
  { intros i Hi. destruct (coordinate_of (d :: s) i Wn) as (cc & Hin & Hp); [rewrite Hcount; exact Hi|].
    inversion Hin as [|? n ? c Hn Hc]; subst. exists n, c. split; [exact Hin|]. split; [reflexivity|]. split.
    - cbn [position]. pose proof (position_bound _ _ Hc) as B. change (elements s) with r in B |- *. rewrite Z.div_add_l by lia. rewrite Z.div_small by lia. lia.
    - unfold elt. rewrite Es. apply nth_error_nth'. pose proof (position_bound _ _ Hin) as B. rewrite Hcount in B. lia. }
  assert (HRi : forall i, 0 <= i < d * r -> in_range (mul (nth (Z.to_nat i) (t_data x) 0%Q) (nth (Z.to_nat (i / r)) scales 0%Q))).
  { intros i Hi. destruct (Hcell i Hi) as (n & c & Hin & _ & -> & Hv). exact (HR _ _ _ Hin Hv). }
  assert (Hprod : prod (d :: s) = d * r) by (rewrite prod_elements; reflexivity).
  assert (Run : quantize mul scales x = SOk (filled (Tn 1 (d :: s) (map value (upto (d * r)))))).
  { unfold quantize. rewrite Es. rewrite Hl, Z.eqb_refl. cbn [negb].
    assert (Hdt : (t_dtype x =? 10) || (t_dtype x =? 11) = true) by (destruct Ht as [[-> _]| ->]; reflexivity).
    rewrite Hdt. cbn [negb]. cbv zeta. rewrite Hprod.
    destruct scales as [|s0 [|s1 scales]]; [cbn in Hl; lia| |].
    - (* doubles with one scale *)
      cbn [length] in Hl. assert (d = 1) by lia. destruct Ht as [[_ Ht]|Ht]; [lia|]. rewrite Ht.
      change (11 =? 10) with false. cbv iota.
      rewrite (exec_all value).
      + unfold filled. reflexivity.
      + intros e v He. apply in_map_iff in He. destruct He as (i & He & Hi). apply In_upto in Hi. unfold scalar in He. injection He as <- <-. split; [exact Hi|].
        unfold load. rewrite (proj2 (Z.ltb_ge i 0)) by lia. rewrite (nth_error_nth' (t_data x) 0%Q) by lia.
        specialize (HRi i Hi). rewrite Z.div_small in HRi by nia. cbn [Z.to_nat nth] in HRi. unfold value. rewrite Z.div_small by nia. cbn [Z.to_nat nth]. now apply to_int8_ok.
      + intros e He. rewrite map_map. apply in_map_iff. exists e. split; [reflexivity|now apply In_upto].
    - destruct (Z.eq_dec r 0) as [H0|H0].
      + assert (E0 : d * r = 0) by lia. rewrite E0. unfold loop_count. cbn [Z.eqb]. cbn [groups]. cbv zeta.
        assert (G : forall l, groups mul (t_data x) l 0 0 0 = []).
        { induction l as [|a l IH]; [reflexivity|]. cbn [groups]. change (Z.min 0 (0 - 0)) with 0. cbn. exact IH. }
        change (Z.min 0 (0 - 0)) with 0. cbn [upto Z.to_nat seq map app]. change (upto 0) with (@nil Z). cbn [map app]. change (0 + 0) with 0. rewrite G. reflexivity.
      + rewrite loop_count_exact by (try exact Hbig; lia).
        rewrite (groups_exec (t_data x) (s0 :: s1 :: scales) (d * r) r); [reflexivity|nia|lia|lia|nia|exact HRi]. }
  eexists. split; [exact Run|]. split; [|split; [reflexivity|split; [reflexivity|]]].
  - split; [exact Wn|]. cbn [t_data t_shape]. rewrite map_length, length_upto, Hcount. lia.
  - intros n c v Hin Hv. pose proof (position_bound _ _ Hin) as B. rewrite Hcount in B.
    set (i := position (d :: s) (n :: c)) in *.
    assert (Hn : n = i / r).
    { inversion Hin as [|? ? ? ? Hn Hc]; subst. unfold i. cbn [position]. pose proof (position_bound _ _ Hc) as B'. change (elements s) with r in B' |- *. rewrite Z.div_add_l by lia. rewrite Z.div_small by lia. lia. }
    assert (Hvx : v = nth (Z.to_nat i) (t_data x) 0%Q).
    { unfold elt in Hv. rewrite Es in Hv. fold i in Hv. symmetry. now apply nth_error_nth. }
    exists (round_away (mul v (nth (Z.to_nat n) scales 0%Q))), (value i). split; [|split; [apply round_away_spec|]].
    + unfold elt. cbn [t_shape t_data]. fold i. rewrite nth_error_map, nth_error_upto by exact B. reflexivity.
    + unfold value. rewrite <- Hn, <- Hvx. apply saturate_spec.
Qed.

(** One scale and floats: nearest integers, with the two neighbours of a half
    chosen by position. *)
Theorem C145_one_scale_partial (scale : Q) (x : tensor Q) s : wf x -> t_dtype x = 10 -> t_shape x = 1 :: s ->
  (forall c v, inside (t_shape x) c -> elt x c = Some v -> in_range (mul v scale)) ->
  exists out, quantize mul [scale] x = SOk (filled out) /\ wf out /\ t_dtype out = 1 /\ t_shape out = t_shape x /\
    forall c v, inside (t_shape x) c -> elt x c = Some v -> exists z r, elt out c = Some r /\ nearest (mul v scale) z /\ byte_of z r.
Proof.
  intros [Wn Wd] Ht Es HR.
  set (count := elements (t_shape x)) in *. assert (Hc : 0 <= count) by (now apply elements_nonneg).
  set (q := count / 8). pose proof (Z.div_mod count 8 ltac:(lia)) as DM. pose proof (Z.mod_pos_bound count 8 ltac:(lia)) as DB. fold q in DM.
  set (rnd := fun i => if i <? q * 8 then round_even else round_away).
  set (value := fun i => saturate (rnd i (mul (nth (Z.to_nat i) (t_data x) 0%Q) scale))).
  assert (HRi : forall i, 0 <= i < count -> in_range (mul (nth (Z.to_nat i) (t_data x) 0%Q) scale)).
  { intros i Hi. destruct (coordinate_of (t_shape x) i Wn Hi) as (c & Hin & Hp). apply (HR c); [exact Hin|]. unfold elt. rewrite Hp. apply nth_error_nth'. lia. }
  assert (Hload : forall i, 0 <= i < count -> load (t_data x) i = SOk (nth (Z.to_nat i) (t_data x) 0%Q)).
  { intros i Hi. unfold load. rewrite (proj2 (Z.ltb_ge i 0)) by lia. now rewrite (nth_error_nth' (t_data x) 0%Q) by lia. }
  assert (Run : quantize mul [scale] x = SOk (filled (Tn 1 (t_shape x) (map value (upto count))))).
  { unfold quantize. rewrite Es. cbn [length Z.of_nat Pos.of_succ_nat Z.eqb Pos.eqb negb]. rewrite Ht. cbn [Z.eqb Pos.eqb orb negb]. cbv zeta.
    rewrite prod_elements. rewrite <- Es. fold count.
    rewrite (exec_all value); [reflexivity| |].
    - intros e v He. unfold one_scale_float in He. fold q in He. apply in_app_iff in He. destruct He as [He|He].
      + apply in_flat_map in He. destruct He as (i & Hi & He). apply in_map_iff in He. destruct He as (l & He & Hl). apply In_upto in Hi. apply In_upto in Hl.
        unfold lane in He. injection He as <- <-. assert (0 <= i * 8 + l < count) by lia. split; [assumption|].
        rewrite Hload by assumption. unfold value, rnd. rewrite (proj2 (Z.ltb_lt (i * 8 + l) (q * 8))) by lia. now rewrite cvtps_ok by (now apply HRi).
      + apply in_map_iff in He. destruct He as (k & He & Hk). apply In_upto in Hk. unfold scalar in He. injection He as <- <-.
        assert (0 <= q * 8 + k < count) by lia. split; [assumption|]. rewrite Hload by assumption. unfold value, rnd. rewrite (proj2 (Z.ltb_ge (q * 8 + k) (q * 8))) by lia.
        apply to_int8_ok. now apply HRi.
    - intros e He. unfold one_scale_float. fold q. rewrite map_app, in_app_iff. destruct (Z.lt_ge_cases e (q * 8)) as [Hlt|Hge].
      + left. apply in_map_iff. exists (lane mul (t_data x) scale e). split; [reflexivity|]. apply in_flat_map. exists (e / 8).
        pose proof (Z.div_mod e 8 ltac:(lia)). pose proof (Z.mod_pos_bound e 8 ltac:(lia)). split; [apply In_upto; lia|].
        apply in_map_iff. exists (e mod 8). split; [f_equal; lia|apply In_upto; lia].
      + right. rewrite map_map. apply in_map_iff. exists (e - q * 8). split; [cbn; lia|apply In_upto; lia]. }
  eexists. split; [exact Run|]. split; [|split; [reflexivity|split; [reflexivity|]]].
  - split; [exact Wn|]. cbn [t_data t_shape]. rewrite map_length, length_upto. fold count. lia.
  - intros c v Hin Hv. pose proof (position_bound _ _ Hin) as B. fold count in B. set (i := position (t_shape x) c) in *.
    assert (Hvx : v = nth (Z.to_nat i) (t_data x) 0%Q) by (unfold elt in Hv; fold i in Hv; symmetry; now apply nth_error_nth).
    exists (rnd i (mul v scale)), (value i). split; [|split].
    + unfold elt. cbn [t_shape t_data]. fold i. rewrite nth_error_map, nth_error_upto by exact B. reflexivity.
    + unfold rnd. destruct (i <? q * 8); [apply round_even_spec|apply round_away_spec].
    + unfold value. rewrite <- Hvx. apply saturate_spec.
Qed.

(** Refused: another number of scales than rows, other types. *)
Theorem C145_refused scales x d s : t_shape x = d :: s ->
  Z.of_nat (length scales) <> d \/ t_dtype x <> 10 /\ t_dtype x <> 11 -> quantize mul scales x = SErr.
Proof.
  intros Es H. unfold quantize. rewrite Es. destruct (Z.eqb_spec (Z.of_nat (length scales)) d) as [E|E]; [|reflexivity]. cbn [negb].
  destruct H as [H|[H1 H2]]; [contradiction|]. apply Z.eqb_neq in H1. apply Z.eqb_neq in H2. now rewrite H1, H2.
Qed.
End Proofs.
Print Assumptions C145_rows_partial.
Print Assumptions C145_one_scale_partial.
Print Assumptions C145_refused.

(** *** Witnesses *)
(** 0.5 nine times with scale 1: the first eight become 0, the ninth 1. *)
Theorem C145_ties_refuted :
  quantize Qmult [1%Q] (Tn 10 [1; 9] (repeat (1 # 2)%Q 9)) = SOk (filled (Tn 1 [1; 9] [0; 0; 0; 0; 0; 0; 0; 0; 1])).
Proof. vm_compute. reflexivity. Qed.
Print Assumptions C145_ties_refuted.

(** Three thousand million becomes -128 in a vector lane and is undefined in
    the rest, instead of 127. *)
Theorem C145_saturate_refuted :
  quantize Qmult [1%Q] (Tn 10 [1; 8] (repeat (3000000000 # 1)%Q 8)) = SOk (filled (Tn 1 [1; 8] (repeat (-128) 8))) /\
  quantize Qmult [1%Q] (Tn 10 [1; 1] [(3000000000 # 1)%Q]) = SUndef.
Proof. split; vm_compute; reflexivity. Qed.
Print Assumptions C145_saturate_refuted.

(** a count of elements per scale that is one too large *)
Lemma off_by_one n (x : list Q) (a b c : Q) : 0 < n -> loop_count (3 * n) 3 = n + 1 ->
  Z.of_nat (length x) = 3 * n -> (forall v s, In v x -> In s [a; b; c] -> in_range (v * s)%Q) ->
  exists out, quantize Qmult [a; b; c] (Tn 10 [3; n] x) = SOk (filled out) /\
    forall v, elt (Tn 10 [3; n] x) [1; 0] = Some v -> elt out [1; 0] = Some (saturate (round_away (v * a)%Q)).
Proof.
  intros Hn L Hx HR.
  set (value := fun i => saturate (round_away (nth (Z.to_nat i) x 0%Q * nth (Z.to_nat (i / (n + 1))) [a; b; c] 0%Q)%Q)).
  exists (Tn 1 [3; n] (map value (upto (3 * n)))).
  assert (E : exec (fresh (3 * n)) (groups Qmult x [a; b; c] 0 (3 * n) (n + 1)) = SOk (map Some (map value (upto (3 * n))))).
  { apply groups_exec; [lia|lia|lia|cbn [length]; lia|]. intros i Hi. apply HR; [apply nth_In; lia|].
    assert (0 <= i / (n + 1)) by (apply Z.div_pos; lia). assert (i / (n + 1) < 3) by (apply Z.div_lt_upper_bound; lia).
    apply nth_In. cbn [length]. lia. }
  split.
  - unfold quantize. cbn [t_shape t_dtype t_data]. change (Z.of_nat (length [a; b; c])) with 3. change (3 =? 3) with true. change (10 =? 10) with true. cbn [negb orb]. cbv zeta.
    assert (P : prod [3; n] = 3 * n) by (rewrite prod_elements; cbn [elements]; ring). rewrite P, L, E. reflexivity.
  - intros v Hv. unfold elt in *. cbn [t_shape t_data] in *.
    assert (P : position [3; n] [1; 0] = n) by (cbn [position elements]; ring). rewrite P in *.
    rewrite nth_error_map, nth_error_upto by lia. cbn [option_map]. unfold value.
    rewrite (nth_error_nth _ _ 0%Q Hv). rewrite Z.div_small by lia. reflexivity.
Qed.

(** Three rows of 5592409 elements (more than 2^24 together): the first element
    of the second row is multiplied by the scale of the first. *)
Theorem C145_scale_of_row_refuted (x : list Q) (a b c : Q) :
  Z.of_nat (length x) = 3 * 5592409 -> (forall v s, In v x -> In s [a; b; c] -> in_range (v * s)%Q) ->
  exists out, quantize Qmult [a; b; c] (Tn 10 [3; 5592409] x) = SOk (filled out) /\
    forall v, elt (Tn 10 [3; 5592409] x) [1; 0] = Some v -> elt out [1; 0] = Some (saturate (round_away (v * a)%Q)).
Proof. apply off_by_one; [reflexivity|]. vm_compute. reflexivity. Qed.
Print Assumptions C145_scale_of_row_refuted.

Example C145_example :
  quantize Qmult [2%Q; (1 # 2)%Q] (Tn 10 [2; 2] [(5 # 4)%Q; 100%Q; (-3)%Q; 7%Q]) = SOk (filled (Tn 1 [2; 2] [3; 127; -2; 4])).
Proof. vm_compute. reflexivity. Qed.
