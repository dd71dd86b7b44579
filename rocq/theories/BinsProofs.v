(** Proofs about split_bins. *)
From Coq Require Import List ZArith Bool Lia.
From Verif Require Import BinsModel BinsSpec.
Import ListNotations.
Local Open Scope Z_scope.

Lemma range_empty b e : e <= b -> range b e = [].
Proof. intros H. unfold range. replace (Z.to_nat (e - b)) with 0%nat by lia. reflexivity. Qed.

Lemma range_app a b c : a <= b -> b <= c -> range a c = range a b ++ range b c.
Proof.
  intros H1 H2. unfold range.
  replace (Z.to_nat (c - a)) with (Z.to_nat (b - a) + Z.to_nat (c - b))%nat by lia.
  rewrite seq_app, map_app. f_equal. simpl.
  rewrite <- (Nat.add_0_l (Z.to_nat (b - a))) at 1.
  assert (G : forall n s d, map (fun i => a + Z.of_nat i) (seq (s + d) n)
     = map (fun i => (a + Z.of_nat d) + Z.of_nat i) (seq s n)).
  { induction n as [|n IH]; intros s d; [reflexivity|]. simpl. f_equal; [lia|]. apply (IH (S s)). }
  rewrite (G _ 0%nat). apply map_ext. intros. lia.
Qed.

Lemma indices_cons p l : indices (p :: l) = range (fst p) (snd p) ++ indices l.
Proof. reflexivity. Qed.

Definition bin_ok (step : Z) (p : Z * Z) : Prop := fst p < snd p <= fst p + step.

Lemma bins_loop_spec step second : 1 <= step -> forall fuel anchor,
  anchor < second -> second - 1 + step <= int_max ->
  second - anchor <= Z.of_nat fuel * step ->
  exists l, bins_loop fuel anchor second step = BOk l /\
    indices l = range anchor second /\
    Forall (bin_ok step) l /\
    Forall (fun p => snd p - fst p = step) (removelast l) /\
    (length l <= fuel)%nat /\ l <> [].
Proof.
  intros Hs. induction fuel as [|k IH]; intros anchor Ha Hm Hf; [lia|].
  simpl. destruct (Z.ltb_spec int_max (anchor + step)); [lia|].
  destruct (Z.ltb_spec (anchor + step) second) as [H1|H1].
  - destruct (IH (anchor + step) H1 Hm ltac:(lia)) as (l & E & E2 & E3 & E4 & E5 & E6). rewrite E.
    eexists. split; [reflexivity|]. split; [|split; [|split; [|split]]].
    + rewrite indices_cons, E2. simpl. symmetry. apply range_app; lia.
    + constructor; [unfold bin_ok; simpl; lia|exact E3].
    + destruct l as [|q l]; [congruence|]. cbn [removelast] in *. constructor; [simpl; lia|exact E4].
    + simpl. lia.
    + discriminate.
  - destruct (Z.ltb_spec anchor second); [|lia].
    eexists. split; [reflexivity|]. split; [|split; [|split; [|split]]].
    + unfold indices. simpl. apply app_nil_r.
    + constructor; [unfold bin_ok; simpl; lia|constructor].
    + constructor.
    + simpl. lia.
    + discriminate.
Qed.

Lemma bin_step_spec first second bins : first < second -> 1 < bins ->
  1 <= bin_step first second bins /\ second - first <= bins * bin_step first second bins /\
  (bin_step first second bins - 1) * bins < second - first.
Proof.
  intros H1 H2. unfold bin_step. set (q := - (- (second - first) / bins)).
  assert (Hq : (q - 1) * bins < second - first <= q * bins).
  { unfold q. pose proof (Z.div_mod (- (second - first)) bins ltac:(lia)).
    pose proof (Z.mod_pos_bound (- (second - first)) bins ltac:(lia)). nia. }
  destruct (Z.ltb_spec q 1); [|lia]. nia.
Qed.

Lemma split_bins_spec first second bins : first < second -> 1 <= bins ->
  second - 1 + bin_step first second bins <= int_max ->
  exists l, split_bins first second bins = BOk l /\
    indices l = range first second /\
    Forall (fun p => fst p < snd p) l /\
    Z.of_nat (length l) <= bins /\
    (exists size, Forall (fun p => snd p - fst p <= size) l /\
                  Forall (fun p => snd p - fst p = size) (removelast l)).
Proof.
  intros H1 H2 H3. unfold split_bins. destruct (Z.leb_spec second first); [lia|].
  destruct (Z.leb_spec bins 1) as [Hb|Hb].
  - eexists. split; [reflexivity|]. split; [unfold indices; simpl; apply app_nil_r|].
    split; [repeat constructor; exact H1|]. split; [simpl; lia|].
    exists (second - first). split; repeat constructor; simpl; lia.
  - destruct (bin_step_spec first second bins H1 Hb) as (S1 & S2 & S3).
    destruct (bins_loop_spec _ second S1 (Z.to_nat bins) first H1 H3) as (l & E & E2 & E3 & E4 & E5 & _).
    { rewrite Z2Nat.id by lia. exact S2. }
    exists l. split; [exact E|]. split; [exact E2|]. split; [|split].
    + eapply Forall_impl; [|exact E3]. unfold bin_ok. intros; lia.
    + lia.
    + exists (bin_step first second bins). split; [|exact E4].
      eapply Forall_impl; [|exact E3]. unfold bin_ok. intros; lia.
Qed.

(** the ceiling of the average: no more is put into one bin than necessary *)
Lemma split_bins_step first second bins l : first < second -> 1 < bins ->
  second - 1 + bin_step first second bins <= int_max ->
  split_bins first second bins = BOk l ->
  Forall (fun p => (snd p - fst p - 1) * bins < second - first) l.
Proof.
  intros H1 H2 H3 E. unfold split_bins in E. destruct (Z.leb_spec second first); [lia|].
  destruct (Z.leb_spec bins 1) as [Hb|Hb]; [lia|].
  destruct (bin_step_spec first second bins H1 Hb) as (S1 & S2 & S3).
  destruct (bins_loop_spec _ second S1 (Z.to_nat bins) first H1 H3) as (l' & E' & _ & E3 & _).
  { rewrite Z2Nat.id by lia. exact S2. }
  assert (l' = l) by congruence. subst l'.
  eapply Forall_impl; [|exact E3]. unfold bin_ok. intros p Hp. nia.
Qed.

Lemma split_bins_empty first second bins : second <= first -> split_bins first second bins = BOk [].
Proof. intros H. unfold split_bins. destruct (Z.leb_spec second first); [reflexivity|lia]. Qed.

(** a range in the lower half of [int] never overflows *)
Lemma small_enough first second bins : 0 <= first < second -> 1 <= bins -> second <= 1073741824 ->
  second - 1 + bin_step first second bins <= int_max.
Proof.
  intros H1 H2 H3. unfold int_max.
  destruct (Z.eq_dec bins 1) as [->|Hb].
  - unfold bin_step. rewrite Z.div_1_r. destruct (Z.ltb_spec (- - (second - first)) 1); lia.
  - destruct (bin_step_spec first second bins ltac:(lia) ltac:(lia)) as (S1 & S2 & S3). nia.
Qed.

Lemma parallel_ranges_spec pool b e : b <= e -> 0 <= b -> e <= 1073741824 ->
  exists l, parallel_ranges pool b e = BOk l /\ indices l = range b e.
Proof.
  intros H H0 H1. unfold parallel_ranges.
  assert (G : exists l, BOk [(b, e)] = BOk l /\ indices l = range b e).
  { eexists. split; [reflexivity|]. unfold indices. simpl. apply app_nil_r. }
  destruct pool as [n|]; [|exact G].
  destruct (_ && _) eqn:E; [|exact G].
  apply andb_true_iff in E. destruct E as [E1 E2]. apply Z.ltb_lt in E1, E2.
  destruct (split_bins_spec b e (Z.of_nat n)) as (l & Hl & Hi & _); try lia.
  { apply small_enough; lia. }
  eauto.
Qed.

Lemma split_bins_overflow : split_bins 0 2147483647 2 = BUndef.
Proof. reflexivity. Qed.

Lemma bin_step_ceil first second bins : first < second -> 1 <= bins ->
  bin_step first second bins = ceil_div (second - first) bins.
Proof.
  intros H1 H2. unfold bin_step, ceil_div. set (d := second - first) in *.
  assert (Hd : 0 < d) by (unfold d; lia). clearbody d.
  destruct (Z.ltb_spec (- (- d / bins)) 1) as [H|H].
  - exfalso. Z.to_euclidean_division_equations. nia.
  - Z.to_euclidean_division_equations. nia.
Qed.

Lemma split_bins_spec' first second bins : first < second -> 1 <= bins ->
  second - 1 + ceil_div (second - first) bins <= int_max ->
  exists l, split_bins first second bins = BOk l /\
    indices l = range first second /\
    Forall (fun p => fst p < snd p) l /\
    Z.of_nat (length l) <= bins /\
    (1 < bins -> Forall (fun p => snd p - fst p <= ceil_div (second - first) bins) l /\
                 Forall (fun p => snd p - fst p = ceil_div (second - first) bins) (removelast l)).
Proof.
  intros H1 H2 H3. rewrite <- bin_step_ceil in * by assumption.
  destruct (Z.leb_spec bins 1) as [Hb|Hb].
  - destruct (split_bins_spec first second bins H1 H2 H3) as (l & E1 & E2 & E3 & E4 & _).
    exists l. repeat split; auto; intros; lia.
  - unfold split_bins. destruct (Z.leb_spec second first); [lia|].
    destruct (Z.leb_spec bins 1); [lia|].
    destruct (bin_step_spec first second bins H1 Hb) as (S1 & S2 & S3).
    destruct (bins_loop_spec _ second S1 (Z.to_nat bins) first H1 H3) as (l & E & E2 & E3 & E4 & E5 & _).
    { rewrite Z2Nat.id by lia. exact S2. }
    exists l. split; [exact E|]. split; [exact E2|]. split; [|split].
    + eapply Forall_impl; [|exact E3]. unfold bin_ok. intros; lia.
    + lia.
    + intros _. split; [|exact E4]. eapply Forall_impl; [|exact E3]. unfold bin_ok. intros; lia.
Qed.
