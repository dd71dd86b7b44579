From Coq Require Import List ZArith Bool Lia FinFun.
From Verif Require Import ShapeModel ShapeSpec ShapeProofs KernelBase KernelSpec.
Import ListNotations.
Local Open Scope Z_scope.

Lemma In_upto n i : In i (upto n) <-> 0 <= i < n.
Proof.
  unfold upto. rewrite in_map_iff. split.
  - intros (k & <- & Hk). apply in_seq in Hk. lia.
  - intros H. exists (Z.to_nat i). rewrite in_seq. lia.
Qed.

Lemma length_upto n : length (upto n) = Z.to_nat n.
Proof. unfold upto. now rewrite map_length, seq_length. Qed.

Lemma nth_error_upto n i : 0 <= i < n -> nth_error (upto n) (Z.to_nat i) = Some i.
Proof.
  intros H. unfold upto. rewrite nth_error_map.
  rewrite (nth_error_nth' _ 0%nat) by (rewrite seq_length; lia).
  rewrite seq_nth by lia. cbn. f_equal. lia.
Qed.

Lemma NoDup_upto n : NoDup (upto n).
Proof. unfold upto. apply Injective_map_NoDup; [intros ? ?; lia|apply seq_NoDup]. Qed.

Lemma upto_0 n : n <= 0 -> upto n = [].
Proof. intros H. unfold upto. now replace (Z.to_nat n) with 0%nat by lia. Qed.

Lemma set_nth_length {A} (a : A) l : forall n, length (set_nth n a l) = length l.
Proof. induction l; intros [|n]; simpl; auto. Qed.

Lemma set_nth_same {A} (a : A) l : forall n, (n < length l)%nat -> nth_error (set_nth n a l) n = Some a.
Proof. induction l; intros [|n] H; simpl in *; try lia; auto. apply IHl. lia. Qed.

Lemma set_nth_other {A} (a : A) l : forall n k, n <> k -> nth_error (set_nth n a l) k = nth_error l k.
Proof. induction l; intros [|n] [|k] H; simpl in *; auto; try lia. Qed.

Lemma load_ok {A} (x : list A) i : 0 <= i < Z.of_nat (length x) ->
  exists a, load x i = SOk a /\ nth_error x (Z.to_nat i) = Some a.
Proof.
  intros H. unfold load. destruct (Z.ltb_spec i 0); [lia|].
  destruct (nth_error x (Z.to_nat i)) eqn:E; [eauto|]. apply nth_error_None in E. lia.
Qed.

Lemma load_inv {A} (x : list A) i a : load x i = SOk a <-> 0 <= i /\ nth_error x (Z.to_nat i) = Some a.
Proof.
  unfold load. destruct (Z.ltb_spec i 0); [split; [easy|lia]|].
  destruct (nth_error x (Z.to_nat i)) eqn:E; split; try easy.
  - intros [= ->]. auto.
  - intros [_ [= ->]]. auto.
Qed.

Lemma load_out {A} (x : list A) i : ~ (0 <= i < Z.of_nat (length x)) -> load x i = SUndef.
Proof.
  intros H. unfold load. destruct (Z.ltb_spec i 0); [easy|].
  destruct (nth_error x (Z.to_nat i)) eqn:E; [|easy].
  assert (nth_error x (Z.to_nat i) <> None) by congruence. apply nth_error_Some in H1. lia.
Qed.

(** Lists with the same entries. *)
Lemma nth_error_ext {A} (l l' : list A) : (forall i, nth_error l i = nth_error l' i) -> l = l'.
Proof.
  revert l'. induction l as [|a l IH]; intros [|b l'] H; auto.
  - specialize (H 0%nat); discriminate.
  - specialize (H 0%nat); discriminate.
  - f_equal; [specialize (H 0%nat); now injection H|]. apply IH. intros i. exact (H (S i)).
Qed.

Lemma store_ok {A} (m : list (option A)) i a : 0 <= i < Z.of_nat (length m) ->
  store m i a = SOk (set_nth (Z.to_nat i) (Some a) m).
Proof.
  intros H. unfold store. destruct (Z.ltb_spec i 0); [lia|].
  destruct (Z.leb_spec (Z.of_nat (length m)) i); [lia|]. reflexivity.
Qed.

(** What a list of stores does, when all stores to an index store the same
    value. *)
Lemma exec_spec {A} (f : Z -> A) tr : forall m,
  (forall d v, In (d, v) tr -> 0 <= d < Z.of_nat (length m) /\ v = SOk (f d)) ->
  exists m', exec m tr = SOk m' /\ length m' = length m /\
    forall i, (i < length m)%nat ->
      (In (Z.of_nat i) (map fst tr) -> nth_error m' i = Some (Some (f (Z.of_nat i)))) /\
      (~ In (Z.of_nat i) (map fst tr) -> nth_error m' i = nth_error m i).
Proof.
  induction tr as [|[d v] tr IH]; intros m H.
  - exists m. split; [reflexivity|]. split; [reflexivity|]. intros i Hi. split; [intros []|reflexivity].
  - destruct (H d v (or_introl eq_refl)) as [Hd ->]. cbn [exec]. rewrite store_ok by exact Hd.
    destruct (IH (set_nth (Z.to_nat d) (Some (f d)) m)) as (m' & E & L & N).
    { intros d' v' Hin. rewrite set_nth_length. apply H. now right. }
    exists m'. rewrite set_nth_length in *. split; [exact E|]. split; [exact L|].
    intros i Hi. destruct (N i Hi) as [N1 N2]. cbn [map fst]. split.
    + intros [E'|Hin]; [|auto].
      destruct (in_dec Z.eq_dec (Z.of_nat i) (map fst tr)); [auto|].
      rewrite N2 by assumption. subst d. rewrite Nat2Z.id, set_nth_same by lia. reflexivity.
    + intros Hn. rewrite N2 by (intros F; apply Hn; now right).
      apply set_nth_other. intros E'. apply Hn. left. lia.
Qed.

Theorem exec_all {A} (f : Z -> A) n tr :
  (forall d v, In (d, v) tr -> 0 <= d < n /\ v = SOk (f d)) ->
  (forall d, 0 <= d < n -> In d (map fst tr)) ->
  exec (fresh n) tr = SOk (map Some (map f (upto n))).
Proof.
  intros H1 H2. destruct (exec_spec f tr (fresh n)) as (m' & E & L & N).
  - intros d v Hin. unfold fresh. rewrite repeat_length. specialize (H1 _ _ Hin). split; [lia|apply H1].
  - rewrite E. f_equal. apply nth_error_ext. intros i. unfold fresh in L, N. rewrite repeat_length in L, N.
    destruct (Nat.lt_ge_cases i (Z.to_nat n)) as [Hi|Hi].
    + destruct (N i Hi) as [N1 _]. rewrite N1 by (apply H2; lia).
      rewrite !nth_error_map. rewrite <- (Nat2Z.id i) at 2. rewrite nth_error_upto by lia. reflexivity.
    + transitivity (@None (option A)); [apply nth_error_None; lia|]. symmetry. apply nth_error_None.
      rewrite !map_length, length_upto. exact Hi.
Qed.

(** An event that is undefined makes the whole run undefined, whatever the
    others are, as long as none is refused. *)
Lemma exec_undef {A} tr : forall (m : list (option A)),
  (forall d v, In (d, v) tr -> v <> SErr) ->
  (exists d, In (d, SUndef) tr) -> exec m tr = SUndef.
Proof.
  induction tr as [|[d v] tr IH]; intros m H [d' Hin]; [destruct Hin|].
  destruct Hin as [[= -> ->]|Hin]; [reflexivity|].
  cbn [exec]. destruct v as [a| |].
  - unfold store. destruct ((d <? 0) || (Z.of_nat (length m) <=? d)); [reflexivity|].
    apply IH; [|eauto]. intros; eapply H; right; eauto.
  - exfalso. exact (H d SErr (or_introl eq_refl) eq_refl).
  - reflexivity.
Qed.

(** Exactly once: the right number of stores and every index reached. *)
Lemma each_once n (l : list Z) : length l = Z.to_nat n ->
  (forall d, 0 <= d < n -> In d l) -> NoDup l.
Proof.
  intros H1 H2. apply NoDup_incl_NoDup with (l := upto n).
  - apply NoDup_upto.
  - rewrite length_upto. lia.
  - intros i Hi. apply In_upto in Hi. auto.
Qed.

(** tensors are determined by their elements *)
Lemma coordinate_of ds i : Forall (fun d => 0 <= d) ds -> 0 <= i < elements ds ->
  exists c, inside ds c /\ position ds c = i.
Proof.
  intros Hn. revert i. induction Hn as [|d ds Hd Hn IH]; intros i Hi.
  - exists []. split; [constructor|]. simpl in *. lia.
  - cbn [elements] in Hi. pose proof (elements_nonneg ds Hn).
    assert (0 < elements ds) by nia.
    destruct (IH (i mod elements ds)) as (c & Hc & Hp); [apply Z.mod_pos_bound; lia|].
    exists (i / elements ds :: c). split.
    + constructor; [|exact Hc]. split; [apply Z.div_pos; lia|]. apply Z.div_lt_upper_bound; nia.
    + cbn [position]. rewrite Hp. rewrite (Z.div_mod i (elements ds)) at 3 by lia. lia.
Qed.

Lemma elt_some {A} (t : tensor A) c : wf t -> inside (t_shape t) c -> exists a, elt t c = Some a.
Proof.
  intros [_ W] H. pose proof (position_bound _ _ H) as B. unfold elt.
  destruct (nth_error (t_data t) _) eqn:E; [eauto|]. apply nth_error_None in E. lia.
Qed.

Lemma tensor_ext {A} (t t' : tensor A) : wf t -> wf t' ->
  t_dtype t = t_dtype t' -> t_shape t = t_shape t' ->
  (forall c, inside (t_shape t) c -> elt t c = elt t' c) -> t = t'.
Proof.
  intros [N W] [_ W'] Ed Es H. destruct t as [dt s d], t' as [dt' s' d']. cbn in *. subst dt' s'. f_equal.
  apply nth_error_ext. intros i. destruct (Nat.lt_ge_cases i (length d)) as [Hi|Hi].
  - destruct (coordinate_of s (Z.of_nat i)) as (c & Hc & Hp); [exact N|lia|].
    specialize (H c Hc). unfold elt in H. cbn in H. rewrite Hp, Nat2Z.id in H. exact H.
  - transitivity (@None A); [|symmetry]; apply nth_error_None; lia.
Qed.

(** the result of a kernel whose stores are given by [f] on positions *)
Lemma elt_map {A} dt s (f : Z -> A) c : inside s c ->
  elt (Tn dt s (map f (upto (elements s)))) c = Some (f (position s c)).
Proof.
  intros H. unfold elt. cbn. rewrite nth_error_map, nth_error_upto by (now apply position_bound). reflexivity.
Qed.

Lemma wf_map {A} dt s (f : Z -> A) : Forall (fun d => 0 <= d) s -> wf (Tn dt s (map f (upto (elements s)))).
Proof.
  intros H. split; [exact H|]. cbn. rewrite map_length, length_upto. pose proof (elements_nonneg s H). lia.
Qed.

(** positions across a split of the shape *)
Lemma position_app a b x y : length a = length x ->
  position (a ++ b) (x ++ y) = position a x * elements b + position b y.
Proof.
  revert x. induction a as [|d a IH]; intros [|k x] H; try discriminate; [simpl; destruct b; simpl; lia|].
  cbn [app position]. rewrite IH by (injection H; auto). rewrite elements_app. lia.
Qed.

Lemma inside_app_inv a b c : inside (a ++ b) c -> exists x y, c = x ++ y /\ inside a x /\ inside b y.
Proof. intros H. apply Forall2_app_inv_l in H. destruct H as (x & y & H1 & H2 & ->). eauto. Qed.

Lemma axis_split {A} n (l : list A) d : nth_error l n = Some d -> l = firstn n l ++ d :: skipn (S n) l.
Proof.
  revert l. induction n as [|n IH]; intros [|x l] H; try discriminate.
  - injection H as ->. reflexivity.
  - cbn [firstn skipn app]. f_equal. apply IH. exact H.
Qed.

Lemma at_axis_app n f a x b : length a = n -> at_axis n f (a ++ x :: b) = a ++ f x :: b.
Proof. revert a. induction n; intros [|y a] H; try discriminate; [reflexivity|]. cbn. f_equal. apply IHn. now injection H. Qed.

Lemma at_axis_length n f l : length (at_axis n f l) = length l.
Proof. revert n. induction l; intros [|n]; simpl; auto. Qed.

(** a position, cut around one axis *)
Lemma position_mid a d b x k y : length a = length x ->
  position (a ++ d :: b) (x ++ k :: y) = (position a x * d + k) * elements b + position b y.
Proof. intros H. rewrite position_app by exact H. cbn [position elements]. nia. Qed.

Lemma length_memcpy {A} dst (x : list A) src n : 0 <= n -> length (memcpy dst x src n) = Z.to_nat n.
Proof. intros H. unfold memcpy. destruct (Z.ltb_spec n 0); [lia|]. now rewrite map_length, length_upto. Qed.

Lemma In_memcpy {A} dst (x : list A) src n d v : 0 <= n ->
  In (d, v) (memcpy dst x src n) <-> exists k, 0 <= k < n /\ d = dst + k /\ v = load x (src + k).
Proof.
  intros H. unfold memcpy. destruct (Z.ltb_spec n 0); [lia|]. rewrite in_map_iff. split.
  - intros (k & E & Hk). apply In_upto in Hk. injection E as <- <-. eauto.
  - intros (k & Hk & -> & ->). exists k. now rewrite In_upto.
Qed.

Lemma length_flat_map_const {A B} (f : A -> list B) l n : (forall a, In a l -> length (f a) = n) ->
  length (flat_map f l) = (length l * n)%nat.
Proof.
  induction l as [|a l IH]; intros H; [reflexivity|]. cbn [flat_map length Nat.mul]. rewrite app_length, IH, H.
  - reflexivity.
  - now left.
  - intros; apply H; now right.
Qed.

(** Stores to distinct indices. *)
Lemma exec_nodup {A} tr : forall (m : list (option A)),
  NoDup (map fst tr) ->
  (forall d v, In (d, v) tr -> 0 <= d < Z.of_nat (length m) /\ exists a, v = SOk a) ->
  exists m', exec m tr = SOk m' /\ length m' = length m /\
    (forall d a, In (d, SOk a) tr -> nth_error m' (Z.to_nat d) = Some (Some a)) /\
    (forall i, ~ In (Z.of_nat i) (map fst tr) -> nth_error m' i = nth_error m i).
Proof.
  induction tr as [|[d v] tr IH]; intros m ND H.
  - exists m. split; [reflexivity|]. split; [reflexivity|]. split; [intros ? ? []|reflexivity].
  - destruct (H d v (or_introl eq_refl)) as [Hd [a ->]]. cbn [exec]. rewrite store_ok by exact Hd.
    cbn [map fst] in ND. inversion ND as [|? ? Hn ND']; subst.
    destruct (IH (set_nth (Z.to_nat d) (Some a) m)) as (m' & E & L & N1 & N2); [exact ND'| |].
    { intros d' v' Hin. rewrite set_nth_length. apply H. now right. }
    exists m'. rewrite set_nth_length in *. split; [exact E|]. split; [exact L|]. split.
    + intros d' a' [Ei|Hin]; [|auto]. injection Ei as <- <-.
      rewrite N2 by (rewrite Z2Nat.id by lia; exact Hn). apply set_nth_same. lia.
    + intros i Hi. cbn [map fst] in Hi. rewrite N2 by (intros F; apply Hi; now right).
      apply set_nth_other. intros E'. apply Hi. left. lia.
Qed.

Lemma all_some {A} (m : list (option A)) : (forall i, (i < length m)%nat -> exists a, nth_error m i = Some (Some a)) ->
  exists l, m = map Some l.
Proof.
  induction m as [|o m IH]; intros H; [exists []; reflexivity|].
  destruct (H 0%nat) as [a Ha]; [simpl; lia|]. cbn in Ha. injection Ha as ->.
  destruct IH as [l ->]. { intros i Hi. apply (H (S i)). simpl; lia. }
  exists (a :: l). reflexivity.
Qed.

Theorem exec_once {A} n (tr : list (event A)) :
  length tr = Z.to_nat n ->
  (forall d v, In (d, v) tr -> 0 <= d < n /\ exists a, v = SOk a) ->
  (forall d, 0 <= d < n -> In d (map fst tr)) ->
  NoDup (map fst tr) /\
  exists data, exec (fresh n) tr = SOk (map Some data) /\ length data = Z.to_nat n /\
    forall d a, In (d, SOk a) tr -> nth_error data (Z.to_nat d) = Some a.
Proof.
  intros L H C. assert (ND : NoDup (map fst tr)).
  { apply (each_once n); [now rewrite map_length|exact C]. }
  split; [exact ND|].
  destruct (exec_nodup tr (fresh n) ND) as (m' & E & L' & N1 & N2).
  { intros d v Hin. unfold fresh. rewrite repeat_length. destruct (H _ _ Hin). split; [lia|assumption]. }
  unfold fresh in L'. rewrite repeat_length in L'.
  destruct (all_some m') as [data ->].
  { intros i Hi. assert (Hin : In (Z.of_nat i) (map fst tr)) by (apply C; lia).
    apply in_map_iff in Hin. destruct Hin as ([d v] & Ed & Hin). cbn in Ed. subst d.
    destruct (H _ _ Hin) as [_ [a ->]]. exists a. specialize (N1 _ _ Hin). now rewrite Nat2Z.id in N1. }
  exists data. split; [exact E|]. rewrite map_length in L'. split; [exact L'|].
  intros d a Hin. specialize (N1 _ _ Hin). rewrite nth_error_map in N1.
  destruct (nth_error data (Z.to_nat d)); [|discriminate]. cbn in N1. congruence.
Qed.
