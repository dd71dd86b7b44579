From Coq Require Import List ZArith Bool Lia.
From Verif Require Import ShapeModel ShapeSpec ShapeProofs KernelBase KernelSpec KernelProofs CoordProofs GatherNdProofs TileModel TileProofs
  PadModel PadSpec.
Import ListNotations.
Local Open Scope Z_scope.

Definition sum_shape (s : list Z) (pads : list (Z * Z)) : list Z :=
  map (fun sp => fst sp + fst (snd sp) + snd (snd sp)) (combine s pads).

Lemma pad_shape_eq s : forall pads, positive_shape (sum_shape s pads) -> pad_shape s pads = sum_shape s pads.
Proof.
  induction s as [|d s IH]; intros [|[p q] pads] H; try reflexivity.
  unfold pad_shape, sum_shape in *. cbn [combine map fst snd] in *. inversion H; subst. rewrite IH by assumption.
  destruct (Z.ltb_spec (d + (p + q)) 1); [lia|]. f_equal. lia.
Qed.

Lemma transpose_pad_ok s : forall pads c, length pads = length s -> length c = length s ->
  (transpose_pad c pads s = Some (moved pads c) /\ inside s (moved pads c)) \/
  (transpose_pad c pads s = None /\ ~ inside s (moved pads c)).
Proof.
  induction s as [|d s IH]; intros [|[p q] pads] [|k c] L1 L2; try discriminate.
  - left. split; [reflexivity|constructor].
  - cbn [transpose_pad]. unfold moved. cbn [combine map fst snd]. fold (moved pads c).
    destruct ((k - p <? 0) || (d <=? k - p)) eqn:E.
    + right. split; [reflexivity|]. intros H. inversion H; subst.
      apply orb_true_iff in E as [E|E]; [apply Z.ltb_lt in E|apply Z.leb_le in E]; lia.
    + apply orb_false_iff in E as [E1 E2]. apply Z.ltb_ge in E1. apply Z.leb_gt in E2.
      destruct (IH pads c) as [[E I]|[E I]]; [now injection L1|now injection L2| |]; rewrite E.
      * left. split; [reflexivity|]. constructor; [lia|exact I].
      * right. split; [reflexivity|]. intros H. inversion H; subst. contradiction.
Qed.

Lemma pad_stores_ok {A} (data : list A) s pads value o : forall n k,
  pad_stores data s pads value o n (Z.of_nat k) (coordinate o k) =
  map (fun j => (Z.of_nat j, match transpose_pad (coordinate o j) pads s with
          | Some x_coord => match to_index s x_coord with SOk j => load data j | _ => SUndef end
          | None => SOk value end)) (seq k n).
Proof.
  induction n as [|n IH]; intros k; [reflexivity|]. cbn [pad_stores seq map]. f_equal.
  replace (Z.of_nat k + 1) with (Z.of_nat (S k)) by lia. apply (IH (S k)).
Qed.

Lemma inside_dec s c : {inside s c} + {~ inside s c}.
Proof.
  revert c. induction s as [|d s IH]; intros [|k c].
  - left. constructor.
  - right. intros H; inversion H.
  - right. intros H; inversion H.
  - destruct (IH c) as [H|H].
    + destruct (Z_le_dec 0 k) as [H1|H1]; [destruct (Z_lt_dec k d) as [H2|H2]|].
      * left. constructor; [lia|exact H].
      * right. intros F. inversion F; subst. lia.
      * right. intros F. inversion F; subst. lia.
    + right. intros F. inversion F; subst. contradiction.
Qed.

(** what the data must look like *)
Definition padded_data {A} (s o : list Z) (pads : list (Z * Z)) (value : A) (data out : list A) : Prop :=
  forall c, inside o c ->
    (inside s (moved pads c) -> nth_error out (Z.to_nat (position o c)) = nth_error data (Z.to_nat (position s (moved pads c)))) /\
    (~ inside s (moved pads c) -> nth_error out (Z.to_nat (position o c)) = Some value).

Lemma generic_pad {A} (data : list A) s pads value o : length pads = length s -> length o = length s -> positive_shape o ->
  Z.of_nat (length data) = elements s ->
  exists out, exec (fresh (prod o)) (pad_stores data s pads value o (Z.to_nat (prod o)) 0 (start o)) = SOk (map Some out) /\
    Z.of_nat (length out) = elements o /\ padded_data s o pads value data out.
Proof.
  intros L1 L2 Ho Hd. rewrite prod_elements.
  set (g := fun c => match transpose_pad c pads s with
          | Some x_coord => match to_index s x_coord with SOk j => load data j | _ => SUndef end
          | None => SOk value end).
  assert (Hg : forall c, inside o c -> exists a, g c = SOk a /\
     (inside s (moved pads c) -> nth_error data (Z.to_nat (position s (moved pads c))) = Some a) /\
     (~ inside s (moved pads c) -> a = value)).
  { intros c Hc. pose proof (inside_length _ _ Hc) as Lc. unfold g.
    destruct (transpose_pad_ok s pads c L1 ltac:(lia)) as [[E I]|[E I]]; rewrite E.
    - pose proof (inside_length _ _ I) as Li. rewrite to_index_ok by lia. rewrite Li, Nat.sub_diag. cbn [skipn].
      destruct (load_ok data (position s (moved pads c))) as (a & Ha & Hn); [rewrite Hd; now apply position_bound|].
      exists a. split; [exact Ha|]. split; [auto|contradiction].
    - exists value. split; [reflexivity|]. split; [contradiction|reflexivity]. }
  destruct (coord_exec o g (pad_stores data s pads value o (Z.to_nat (elements o)) 0 (start o))) as (out & E & L & H).
  - eapply Forall_impl; [|exact Ho]. cbn; intros; lia.
  - intros _. apply (pad_stores_ok data s pads value o (Z.to_nat (elements o)) 0).
  - intros E. pose proof (elements_pos o Ho). lia.
  - intros c Hc. destruct (Hg c Hc) as (a & Ha & _). eauto.
  - exists out. split; [exact E|]. split; [exact L|]. intros c Hc. destruct (Hg c Hc) as (a & Ha & H1 & H2).
    specialize (H c a Hc Ha). rewrite H. split; [intros Hi; now rewrite H1|intros Hi; now rewrite H2].
Qed.

(** * Four axes *)
Definition plus (k f : list Z) : list Z := map (fun xy => fst xy + snd xy) (combine k f).

Lemma In_pad4 {A} (data : list A) s0 s1 s2 s3 p0 p1 p2 p3 o0 o1 o2 o3 d v :
  In (d, v) (flat_map (fun n =>
    flat_map (fun i =>
      flat_map (fun j =>
        let input_offset := (n + skip_in p0) * (s1 * (s2 * s3)) + (i + skip_in p1) * (s2 * s3)
                            + (j + skip_in p2) * s3 + skip_in p3 in
        let output_offset := (n + skip_out p0) * (o1 * (o2 * o3)) + (i + skip_out p1) * (o2 * o3)
                             + (j + skip_out p2) * o3 + skip_out p3 in
        if kept s3 p3 <? 12 then map (fun l => (output_offset + l, load data (input_offset + l))) (upto (kept s3 p3))
        else memcpy output_offset data input_offset (kept s3 p3))
      (upto (kept s2 p2))) (upto (kept s1 p1))) (upto s0)) <->
  exists k, inside [s0; kept s1 p1; kept s2 p2; kept s3 p3] k /\
    d = position [o0; o1; o2; o3] (plus k [skip_out p0; skip_out p1; skip_out p2; skip_out p3]) /\
    v = load data (position [s0; s1; s2; s3] (plus k [skip_in p0; skip_in p1; skip_in p2; skip_in p3])).
Proof.
  split.
  - intros H. apply in_flat_map in H. destruct H as (n & Hn & H). apply in_flat_map in H. destruct H as (i & Hi & H).
    apply in_flat_map in H. destruct H as (j & Hj & H). cbv zeta in H. rewrite In_upto in Hn, Hi, Hj.
    assert (K : exists l, 0 <= l < kept s3 p3 /\
      (d, v) = ((n + skip_out p0) * (o1 * (o2 * o3)) + (i + skip_out p1) * (o2 * o3) + (j + skip_out p2) * o3 + skip_out p3 + l,
        load data ((n + skip_in p0) * (s1 * (s2 * s3)) + (i + skip_in p1) * (s2 * s3) + (j + skip_in p2) * s3 + skip_in p3 + l))).
    { destruct (Z.ltb_spec (kept s3 p3) 12).
      - apply in_map_iff in H. destruct H as (l & <- & Hl). apply In_upto in Hl. eauto.
      - unfold memcpy in H. destruct (Z.ltb_spec (kept s3 p3) 0); [lia|].
        apply in_map_iff in H. destruct H as (l & <- & Hl). apply In_upto in Hl. eauto. }
    destruct K as (l & Hl & [= -> ->]). exists [n; i; j; l]. split; [repeat constructor; tauto|].
    unfold plus. cbn [combine map fst snd position elements]. split; [ring|f_equal; ring].
  - intros (k & Hk & -> & ->). inversion Hk as [|? n ? k1 Hn H1]; subst. inversion H1 as [|? i ? k2 Hi H2]; subst.
    inversion H2 as [|? j ? k3 Hj H3]; subst. inversion H3 as [|? l ? k4 Hl H4]; subst. inversion H4; subst.
    apply in_flat_map. exists n. rewrite In_upto. split; [exact Hn|].
    apply in_flat_map. exists i. rewrite In_upto. split; [exact Hi|].
    apply in_flat_map. exists j. rewrite In_upto. split; [exact Hj|]. cbv zeta.
    unfold plus. cbn [combine map fst snd position elements].
    assert (E : forall b : bool, (if b then map (fun l => ((n + skip_out p0) * (o1 * (o2 * o3)) + (i + skip_out p1) * (o2 * o3) + (j + skip_out p2) * o3 + skip_out p3 + l,
        load data ((n + skip_in p0) * (s1 * (s2 * s3)) + (i + skip_in p1) * (s2 * s3) + (j + skip_in p2) * s3 + skip_in p3 + l))) (upto (kept s3 p3))
        else memcpy ((n + skip_out p0) * (o1 * (o2 * o3)) + (i + skip_out p1) * (o2 * o3) + (j + skip_out p2) * o3 + skip_out p3) data
          ((n + skip_in p0) * (s1 * (s2 * s3)) + (i + skip_in p1) * (s2 * s3) + (j + skip_in p2) * s3 + skip_in p3) (kept s3 p3)) =
       map (fun l => ((n + skip_out p0) * (o1 * (o2 * o3)) + (i + skip_out p1) * (o2 * o3) + (j + skip_out p2) * o3 + skip_out p3 + l,
        load data ((n + skip_in p0) * (s1 * (s2 * s3)) + (i + skip_in p1) * (s2 * s3) + (j + skip_in p2) * s3 + skip_in p3 + l))) (upto (kept s3 p3))).
    { intros []; [reflexivity|]. unfold memcpy. destruct (Z.ltb_spec (kept s3 p3) 0); [lia|reflexivity]. }
    rewrite E. apply in_map_iff. exists l. rewrite In_upto. split; [|exact Hl]. f_equal; [ring|f_equal; ring].
Qed.

(** one axis *)
Lemma axis_forward s p k : 0 <= k < kept s p -> 0 <= s + fst p + snd p ->
  0 <= k + skip_in p < s /\ 0 <= k + skip_out p < s + fst p + snd p /\ k + skip_out p - fst p = k + skip_in p.
Proof.
  unfold kept, skip_in, skip_out. destruct p as [p q]; cbn [fst snd].
  destruct (Z.ltb_spec p 0), (Z.ltb_spec q 0), (Z.leb_spec 0 p); lia.
Qed.

Lemma axis_back s p c : 0 <= c < s + fst p + snd p -> 0 <= c - fst p < s ->
  0 <= c - skip_out p < kept s p /\ c - skip_out p + skip_in p = c - fst p.
Proof.
  unfold kept, skip_in, skip_out. destruct p as [p q]; cbn [fst snd].
  destruct (Z.ltb_spec p 0), (Z.ltb_spec q 0), (Z.leb_spec 0 p); lia.
Qed.

Lemma kept_whole s p : 0 <= fst p -> 0 <= snd p -> kept s p = s.
Proof. unfold kept. intros H1 H2. destruct (Z.ltb_spec (fst p) 0); [lia|]. destruct (Z.ltb_spec (snd p) 0); [lia|reflexivity]. Qed.

Lemma pad4 {A} (data : list A) s0 s1 s2 s3 p0 p1 p2 p3 value :
  let s := [s0; s1; s2; s3] in let pads := [p0; p1; p2; p3] in let o := sum_shape s pads in
  positive_shape o -> Z.of_nat (length data) = elements s -> 0 <= fst p0 -> 0 <= snd p0 ->
  exists out, exec (fresh (prod o)) (pad4_stores data s0 s1 s2 s3 p0 p1 p2 p3 value (s0 + fst p0 + snd p0) (s1 + fst p1 + snd p1) (s2 + fst p2 + snd p2) (s3 + fst p3 + snd p3)) = SOk (map Some out) /\
    Z.of_nat (length out) = elements o /\ padded_data s o pads value data out.
Proof.
  intros s pads o Ho Hd Hp0 Hq0. unfold pad4_stores. cbv zeta.
  change [s0 + fst p0 + snd p0; s1 + fst p1 + snd p1; s2 + fst p2 + snd p2; s3 + fst p3 + snd p3] with o.
  pose proof (elements_pos o Ho) as Po.
  assert (Fill : exec (fresh (prod o)) (map (fun k => (k, SOk value)) (upto (prod o))) = SOk (map Some (map (fun _ => value) (upto (prod o))))).
  { apply exec_all.
    - intros d v Hin. apply in_map_iff in Hin. destruct Hin as (k & [= <- <-] & Hk). apply In_upto in Hk. auto.
    - intros d Hdd. rewrite map_map. cbn [fst]. rewrite map_id. now apply In_upto. }
  rewrite (exec_app _ _ _ _ Fill). clear Fill.
  set (m0 := map Some (map (fun _ : Z => value) (upto (prod o)))).
  assert (Lm0 : Z.of_nat (length m0) = elements o).
  { unfold m0. rewrite !map_length, length_upto, prod_elements. lia. }
  assert (Hm0 : forall p, (p < length m0)%nat -> nth_error m0 p = Some (Some value)).
  { intros p Hp. unfold m0 in *. rewrite !map_length, length_upto in Hp. rewrite !nth_error_map.
    rewrite <- (Nat2Z.id p). rewrite nth_error_upto by lia. reflexivity. }
  set (tr := flat_map _ _).
  pose proof (fun d v => In_pad4 data s0 s1 s2 s3 p0 p1 p2 p3 (s0 + fst p0 + snd p0) (s1 + fst p1 + snd p1) (s2 + fst p2 + snd p2) (s3 + fst p3 + snd p3) d v) as Hin0.
  assert (Hin : forall d v, In (d, v) tr <-> exists c, inside o c /\ inside s (moved pads c) /\ d = position o c /\ v = load data (position s (moved pads c))).
  { intros d v. unfold tr. rewrite Hin0. clear Hin0. pose proof (kept_whole s0 p0 Hp0 Hq0) as K0.
    assert (Ho' : Forall (fun d => 0 < d) [s0 + fst p0 + snd p0; s1 + fst p1 + snd p1; s2 + fst p2 + snd p2; s3 + fst p3 + snd p3]) by exact Ho.
    assert (Q0 : 0 < s0 + fst p0 + snd p0) by (inversion Ho'; assumption).
    assert (Q1 : 0 < s1 + fst p1 + snd p1) by (inversion Ho' as [|? ? ? R1]; inversion R1; assumption).
    assert (Q2 : 0 < s2 + fst p2 + snd p2) by (inversion Ho' as [|? ? ? R1]; inversion R1 as [|? ? ? R2]; inversion R2; assumption).
    assert (Q3 : 0 < s3 + fst p3 + snd p3) by (inversion Ho' as [|? ? ? R1]; inversion R1 as [|? ? ? R2]; inversion R2 as [|? ? ? R3]; inversion R3; assumption).
    split.
    - intros (k & Hk & -> & ->). inversion Hk as [|? n ? k1 Hn TT1]; subst k. inversion TT1 as [|? i ? k2 Hi TT2]; subst k1.
      inversion TT2 as [|? j ? k3 Hj TT3]; subst k2. inversion TT3 as [|? w ? k4 Hl TT4]; subst k3. inversion TT4; subst k4.
      destruct (axis_forward s0 p0 n ltac:(rewrite K0; exact Hn) ltac:(lia)) as (A1 & B1 & C1). destruct (axis_forward s1 p1 i Hi ltac:(lia)) as (A2 & B2 & C2).
      destruct (axis_forward s2 p2 j Hj ltac:(lia)) as (A3 & B3 & C3). destruct (axis_forward s3 p3 w Hl ltac:(lia)) as (A4 & B4 & C4).
      exists (plus [n; i; j; w] [skip_out p0; skip_out p1; skip_out p2; skip_out p3]).
      assert (Em : moved pads (plus [n; i; j; w] [skip_out p0; skip_out p1; skip_out p2; skip_out p3]) = plus [n; i; j; w] [skip_in p0; skip_in p1; skip_in p2; skip_in p3]).
      { unfold moved, plus, pads. cbn [combine map fst snd]. now rewrite C1, C2, C3, C4. }
      rewrite Em. split; [|split; [|split; reflexivity]].
      + unfold o, sum_shape, s, pads, plus. cbn [combine map fst snd]. repeat constructor; lia.
      + unfold s, plus. cbn [combine map fst snd]. repeat constructor; lia.
    - intros (c & Hc & Hm & -> & ->). unfold o, sum_shape, s, pads in Hc. cbn [combine map fst snd] in Hc.
      inversion Hc as [|? n ? k1 Hn TT1]; subst c. inversion TT1 as [|? i ? k2 Hi TT2]; subst k1.
      inversion TT2 as [|? j ? k3 Hj TT3]; subst k2. inversion TT3 as [|? w ? k4 Hl TT4]; subst k3. inversion TT4; subst k4.
      unfold moved, pads in Hm |- *. cbn [combine map fst snd] in Hm |- *.
      assert (Hm' : Forall2 (fun d c => 0 <= c < d) [s0; s1; s2; s3] [n - fst p0; i - fst p1; j - fst p2; w - fst p3]) by exact Hm.
      inversion Hm' as [|? ? ? ? M0 Hm1]; subst. inversion Hm1 as [|? ? ? ? M1 Hm2]; subst. inversion Hm2 as [|? ? ? ? M2 Hm3]; subst.
      inversion Hm3 as [|? ? ? ? M3 Hm4]; subst.
      destruct (axis_back s0 p0 n Hn M0) as (A1 & B1). destruct (axis_back s1 p1 i Hi M1) as (A2 & B2).
      destruct (axis_back s2 p2 j Hj M2) as (A3 & B3). destruct (axis_back s3 p3 w Hl M3) as (A4 & B4).
      exists [n - skip_out p0; i - skip_out p1; j - skip_out p2; w - skip_out p3]. split; [repeat constructor; lia|].
      unfold plus. cbn [combine map fst snd]. rewrite B1, B2, B3, B4. split; [|reflexivity].
      replace (n - skip_out p0 + skip_out p0) with n by lia. replace (i - skip_out p1 + skip_out p1) with i by lia.
      replace (j - skip_out p2 + skip_out p2) with j by lia. replace (w - skip_out p3 + skip_out p3) with w by lia. reflexivity. }
  clear Hin0.
  set (f := fun d => nth (Z.to_nat (position s (moved pads (coordinate o (Z.to_nat d))))) data value).
  assert (Hf : forall c, inside o c -> inside s (moved pads c) ->
     nth_error data (Z.to_nat (position s (moved pads c))) = Some (f (position o c)) /\
     load data (position s (moved pads c)) = SOk (f (position o c))).
  { intros c Hc Hm. unfold f. rewrite (coordinate_position o c Ho Hc).
    destruct (load_ok data (position s (moved pads c))) as (a & Ha & Hn); [rewrite Hd; now apply position_bound|].
    assert (Ea : nth (Z.to_nat (position s (moved pads c))) data value = a) by (now apply nth_error_nth).
    rewrite Ea. auto. }
  destruct (exec_spec f tr m0) as (m' & E & L & N).
  { intros d v H. apply Hin in H. destruct H as (c & Hc & Hm & -> & ->). rewrite Lm0.
    split; [now apply position_bound|]. now apply Hf. }
  rewrite E.
  assert (Hsome : exists out, m' = map Some out).
  { apply all_some. intros p Hp. rewrite L in Hp. exact (exec_keeps_some _ _ _ E p value (Hm0 p Hp)). }
  destruct Hsome as [out ->]. exists out. split; [reflexivity|]. rewrite map_length in L. split; [lia|].
  intros c Hc. pose proof (position_bound _ _ Hc) as B.
  destruct (N (Z.to_nat (position o c)) ltac:(lia)) as [N1 N2]. rewrite Z2Nat.id in N1, N2 by lia.
  rewrite nth_error_map in N1, N2.
  split.
  - intros Hm. destruct (Hf c Hc Hm) as [Hf1 Hf2]. rewrite Hf1.
    assert (Hi : In (position o c) (map fst tr)).
    { apply in_map_iff. exists (position o c, load data (position s (moved pads c))). split; [reflexivity|]. apply Hin. exists c. auto. }
    specialize (N1 Hi). destruct (nth_error out _); cbn [option_map] in N1; [|discriminate N1]. injection N1 as ->. reflexivity.
  - intros Hm. assert (Hi : ~ In (position o c) (map fst tr)).
    { intros Hi. apply in_map_iff in Hi. destruct Hi as ([d v] & Ed & Hi). cbn in Ed. subst d. apply Hin in Hi.
      destruct Hi as (c' & Hc' & Hm' & Ep & _). apply Hm. now rewrite (position_inj o c c' Hc Hc' Ep). }
    specialize (N2 Hi). rewrite Hm0 in N2 by lia. destruct (nth_error out _); cbn in N2; congruence.
Qed.

Theorem pad_ok {A} pads (value : A) (x : tensor A) : wf x -> length pads = length (t_shape x) ->
  positive_shape (map (fun sp => fst sp + fst (snd sp) + snd (snd sp)) (combine (t_shape x) pads)) ->
  tile_supports (t_dtype x) = true ->
  (length pads = 4%nat -> 0 <= fst (nth 0 pads (0, 0)) /\ 0 <= snd (nth 0 pads (0, 0))) ->
  exists out, pad_run pads value x = SOk (filled out) /\ wf out /\ padded pads value x out.
Proof.
  intros [Wn Wd] L Ho Hs H4. unfold pad_run. rewrite L, Nat.eqb_refl. cbn [negb].
  fold (sum_shape (t_shape x) pads) in Ho.
  rewrite (pad_shape_eq _ _ Ho). set (s := t_shape x) in *. set (o := sum_shape s pads) in *.
  assert (Lo : length o = length s) by (unfold o, sum_shape; rewrite map_length, combine_length; lia).
  assert (No : nonneg_shape o) by (eapply Forall_impl; [|exact Ho]; cbn; intros; lia).
  destruct (forallb _ pads) eqn:Ez.
  - assert (Eo : o = s /\ forall c, length c = length s -> moved pads c = c).
    { clear - Ez L. unfold o, sum_shape. clear o. revert Ez L. generalize s. clear s. induction pads as [|[p q] pads IH]; intros [|d s] Ez L; try discriminate.
      - split; [reflexivity|]. intros [|k c] Lc; [reflexivity|discriminate].
      - cbn [forallb fst snd] in Ez. apply andb_true_iff in Ez as [E1 E2]. apply andb_true_iff in E1 as [E1 E3].
        apply Z.eqb_eq in E1, E3. subst p q. destruct (IH s E2) as [I1 I2]; [now injection L|].
        cbn [combine map fst snd]. split; [rewrite I1; f_equal; lia|]. intros [|k c] Lc; [discriminate|].
        unfold moved in *. cbn [combine map fst snd]. rewrite I2 by (now injection Lc). f_equal. lia. }
    destruct Eo as [Eo Em]. exists x. split; [destruct x; reflexivity|]. split; [split; assumption|].
    split; [reflexivity|]. split; [fold s; symmetry; exact Eo|]. intros c Hc. fold s in Hc |- *.
    rewrite Em by (symmetry; apply (inside_length _ _ Hc)). split; [reflexivity|contradiction].
  - rewrite Hs. cbn [negb].
    assert (K : forall tr, (exists out, exec (fresh (prod o)) tr = SOk (map Some out) /\ Z.of_nat (length out) = elements o /\
        padded_data s o pads value (t_data x) out) ->
      exists out, match exec (fresh (prod o)) tr with SOk m => SOk (Tn (t_dtype x) o m) | SErr => SErr | SUndef => SUndef end = SOk (filled out) /\
        wf out /\ padded pads value x out).
    { intros tr (out & E & Lo' & H). rewrite E. exists (Tn (t_dtype x) o out). split; [reflexivity|]. split; [split; assumption|].
      split; [reflexivity|]. split; [reflexivity|]. cbn [t_shape]. intros c Hc. exact (H c Hc). }
    apply K. clear K.
    assert (G : exists out, exec (fresh (prod o)) (pad_stores (t_data x) s pads value o (Z.to_nat (prod o)) 0 (start o)) = SOk (map Some out) /\
       Z.of_nat (length out) = elements o /\ padded_data s o pads value (t_data x) out).
    { apply generic_pad; auto. }
    clearbody s. subst o. clear - G H4 L Ho Wd.
    destruct s as [|s0 [|s1 [|s2 [|s3 [|s4 s']]]]]; try exact G.
    + destruct pads as [|p0 [|p1 [|p2 [|p3 [|]]]]]; try discriminate.
      destruct (H4 eq_refl) as [H1 H2]. cbn [nth] in H1, H2.
      exact (pad4 (t_data x) s0 s1 s2 s3 p0 p1 p2 p3 value Ho Wd H1 H2).
Qed.
