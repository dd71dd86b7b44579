(** The element-wise kernels compute the broadcast. *)
From Coq Require Import List ZArith Lia Bool Arith.
From Verif Require Import ShapeModel ShapeSpec ShapeProofs KernelBase KernelSpec KernelProofs CoordProofs TileModel EltwiseModel EltwiseSpec EltwiseProofs.
Import ListNotations.
Local Open Scope Z_scope.

(** *** Executing *)
Lemma exec_puts {A} (tr : list (event A)) : forall m, (forall d v, In (d, v) tr -> v <> SErr) ->
  exec_instrs m (map (fun e => Put (fst e) (snd e)) tr) = exec m tr.
Proof.
  induction tr as [|[d v] tr IH]; intros m H; [reflexivity|]. cbn [map exec_instrs exec fst snd].
  destruct v as [a| |]; [|exfalso; eapply H; [now left|reflexivity]|reflexivity].
  destruct (store m d a); auto. apply IH. intros d' v' H'. eapply H. right. exact H'.
Qed.

Lemma exec_instrs_app {A} (p q : list (instr A)) : forall m m', exec_instrs m p = SOk m' -> exec_instrs m (p ++ q) = exec_instrs m' q.
Proof.
  induction p as [|[i [a| |]|i [f| |]] p IH]; intros m m' H; cbn [exec_instrs app] in *; try discriminate.
  - injection H as ->. reflexivity.
  - destruct (store m i a); try discriminate. now apply IH.
  - destruct (load m i) as [[a|]| |]; try discriminate. destruct (store m i (f a)); try discriminate. now apply IH.
Qed.

(** [n] elements, computed as [V] *)
Definition computes {A} (n : Z) (V : Z -> A) (p : list (instr A)) : Prop :=
  exec_instrs (fresh n) p = SOk (map Some (map V (upto n))).

Lemma puts_compute {A} n (V : Z -> A) (order : list Z) (v : Z -> sres A) :
  (forall i, In i order <-> 0 <= i < n) -> (forall i, 0 <= i < n -> v i = SOk (V i)) ->
  computes n V (map (fun i => Put i (v i)) order).
Proof.
  intros Ho Hv. unfold computes.
  assert (X : map (fun i => Put i (v i)) order = map (fun e : event A => Put (fst e) (snd e)) (map (fun i => (i, v i)) order))
    by (rewrite map_map; reflexivity).
  rewrite X. etransitivity; [apply exec_puts|].
  2:{ apply exec_all.
    + intros d w H. apply in_map_iff in H. destruct H as (i & [= <- <-] & Hi). apply Ho in Hi. split; [exact Hi|]. now apply Hv.
    + intros d Hd. rewrite map_map. cbn [fst]. rewrite map_id. now apply Ho. }
  - intros d w H. apply in_map_iff in H. destruct H as (i & [= <- <-] & Hi). apply Ho in Hi. rewrite Hv by exact Hi. discriminate.
Qed.

Lemma upds_exec {A} (us : list (Z * sres (A -> A))) : forall (data : list A),
  NoDup (map fst us) ->
  (forall i f, In (i, f) us -> 0 <= i < Z.of_nat (length data) /\ exists g, f = SOk g) ->
  exists data', exec_instrs (map Some data) (map (fun u => Upd (fst u) (snd u)) us) = SOk (map Some data') /\ length data' = length data /\
    (forall i g a, In (i, SOk g) us -> nth_error data (Z.to_nat i) = Some a -> nth_error data' (Z.to_nat i) = Some (g a)) /\
    (forall i, 0 <= i -> ~ In i (map fst us) -> nth_error data' (Z.to_nat i) = nth_error data (Z.to_nat i)).
Proof.
  induction us as [|[i f] us IH]; intros data N H.
  - exists data. split; [reflexivity|]. split; [reflexivity|]. split; [intros ? ? ? []|reflexivity].
  - cbn [map fst] in N. inversion N as [|? ? N1 N2]; subst.
    destruct (H i f) as (B & g & ->); [now left|].
    cbn [map exec_instrs fst snd].
    destruct (load_ok data i B) as (a & Ha & Hn).
    assert (L1 : load (map Some data) i = SOk (Some a)).
    { unfold load in *. destruct (i <? 0); [discriminate|]. rewrite nth_error_map, Hn. reflexivity. }
    rewrite L1. rewrite store_ok by (rewrite map_length; exact B).
    assert (Es : set_nth (Z.to_nat i) (Some (g a)) (map Some data) = map Some (set_nth (Z.to_nat i) (g a) data)).
    { clear. generalize (Z.to_nat i). induction data as [|x data IH]; intros [|k]; cbn; try reflexivity. now rewrite IH. }
    rewrite Es.
    destruct (IH (set_nth (Z.to_nat i) (g a) data) N2) as (data' & E & L & P1 & P2).
    { intros j f' Hj. rewrite set_nth_length. apply H. now right. }
    exists data'. split; [exact E|]. rewrite set_nth_length in L. split; [exact L|]. split.
    + intros j g' b [[= -> ->]|Hj] Hb.
      * rewrite P2 by (try lia; exact N1). rewrite Hn in Hb. injection Hb as ->. apply set_nth_same. lia.
      * apply (P1 j g' b Hj). rewrite set_nth_other; [exact Hb|].
        intros E'. destruct (H j (SOk g') ltac:(now right)) as [B' _]. assert (i = j) by lia. subst j.
        apply N1. apply in_map_iff. exists (i, SOk g'). auto.
    + intros j Hj0 Hj. cbn [In] in Hj. rewrite P2 by (try exact Hj0; tauto). apply set_nth_other. intros E'. apply Hj. left. lia.
Qed.

Lemma copy_upds_compute {A} n (x : list A) (us : list (Z * sres (A -> A))) (V : Z -> A) : 0 <= n ->
  (forall i, In i (map fst us) <-> 0 <= i < n) -> NoDup (map fst us) ->
  (forall i f, In (i, f) us -> exists g a, f = SOk g /\ load x i = SOk a /\ g a = V i) ->
  computes n V (copy x n ++ map (fun u => Upd (fst u) (snd u)) us).
Proof.
  intros Hn0 Hi Hnd H. unfold computes.
  assert (Hx : forall i, 0 <= i < n -> exists a, load x i = SOk a).
  { intros i Hb. apply Hi in Hb. apply in_map_iff in Hb. destruct Hb as ([j f] & <- & Hu). destruct (H j f Hu) as (g & a & _ & Ha & _). eauto. }
  assert (C : exists data, exec_instrs (fresh n) (copy x n) = SOk (map Some data) /\ Z.of_nat (length data) = n /\
     forall i, 0 <= i < n -> load x i = match nth_error data (Z.to_nat i) with Some a => SOk a | None => SUndef end).
  { destruct (Z.eq_dec n 0) as [->|Nz].
    - exists []. split; [reflexivity|]. split; [reflexivity|]. lia.
    - destruct (Hx 0 ltac:(lia)) as [a0 _].
      set (W := fun i => match load x i with SOk a => a | _ => a0 end).
      exists (map W (upto n)). split; [|split].
      + apply (puts_compute n W (upto n) (fun i => load x i)); [intros i; apply In_upto|].
        intros i Hb. unfold W. destruct (Hx i Hb) as [a ->]. reflexivity.
      + rewrite map_length, length_upto. lia.
      + intros i Hb. rewrite nth_error_map, nth_error_upto by exact Hb. cbn. unfold W. destruct (Hx i Hb) as [a ->]. reflexivity. }
  destruct C as (data & E & L & D). rewrite (exec_instrs_app _ _ _ _ E).
  destruct (upds_exec us data Hnd) as (data' & E' & L' & P1 & _).
  { intros i f Hu. split; [rewrite L; apply Hi; apply in_map_iff; exists (i, f); auto|]. destruct (H i f Hu) as (g & a & -> & _). eauto. }
  rewrite E'. do 2 f_equal. apply nth_error_ext. intros k. destruct (Nat.lt_ge_cases k (length data)) as [Hk|Hk].
  - assert (B : 0 <= Z.of_nat k < n) by lia. pose proof B as B'. apply Hi in B'. apply in_map_iff in B'. destruct B' as ([i f] & Ei & Hu).
    cbn in Ei. subst i. destruct (H _ f Hu) as (g & a & -> & Ha & Hg). rewrite (D _ B) in Ha.
    destruct (nth_error data (Z.to_nat (Z.of_nat k))) as [a'|] eqn:En; [|discriminate]. injection Ha as ->.
    pose proof (P1 _ g a Hu En) as Q. rewrite Nat2Z.id in Q. rewrite Q, Hg.
    rewrite nth_error_map. pose proof (nth_error_upto n (Z.of_nat k) B) as U. rewrite Nat2Z.id in U. now rewrite U.
  - rewrite (proj2 (nth_error_None data' k)) by lia. symmetry. apply nth_error_None. rewrite map_length, length_upto. lia.
Qed.

(** *** The vector loop visits every index once *)
Lemma In_steps lo hi by_ x : 0 < by_ -> In x (steps lo hi by_) <-> exists k, 0 <= k /\ x = lo + by_ * k /\ x < hi.
Proof.
  intros Hb. unfold steps. rewrite in_map_iff. split.
  - intros (k & <- & Hk). apply In_upto in Hk. exists k. split; [lia|]. split; [reflexivity|].
    Z.to_euclidean_division_equations. nia.
  - intros (k & H1 & -> & H2). exists k. split; [reflexivity|]. apply In_upto. split; [exact H1|].
    Z.to_euclidean_division_equations. nia.
Qed.

Lemma In_simd count i : 0 <= count -> In i (simd_order count) <-> 0 <= i < count.
Proof.
  intros H. unfold simd_order. rewrite in_app_iff, in_flat_map. rewrite Z.quot_div_nonneg by lia. split.
  - intros [(x & Hx & Hi)|Hi].
    + apply In_steps in Hx; [|lia]. destruct Hx as (k & Hk & -> & Hl). cbn [In] in Hi. lia.
    + apply In_steps in Hi; [|lia]. destruct Hi as (k & Hk & -> & Hl). Z.to_euclidean_division_equations. lia.
  - intros Hi. destruct (Z_lt_dec i (count / 4 * 4)) as [Hl|Hl].
    + left. exists (i / 4 * 4). split.
      * apply In_steps; [lia|]. exists (i / 4). Z.to_euclidean_division_equations. lia.
      * cbn [In]. Z.to_euclidean_division_equations. lia.
    + right. apply In_steps; [lia|]. exists (i - count / 4 * 4). lia.
Qed.

Lemma length_simd count : 0 <= count -> length (simd_order count) = Z.to_nat count.
Proof.
  intros H. unfold simd_order. rewrite app_length, (length_flat_map_const _ _ 4%nat) by reflexivity. unfold steps.
  rewrite !map_length, !length_upto. rewrite Z.quot_div_nonneg by lia. Z.to_euclidean_division_equations. lia.
Qed.

Lemma NoDup_simd count : 0 <= count -> NoDup (simd_order count).
Proof.
  intros H. apply (each_once count); [now apply length_simd|]. intros d Hd. now apply In_simd.
Qed.

Lemma map_flat_map' {X Y W} (g : Y -> W) (f : X -> list Y) (xs : list X) : map g (flat_map f xs) = flat_map (fun x => map g (f x)) xs.
Proof. induction xs as [|x xs IH]; [reflexivity|]. cbn [flat_map]. now rewrite map_app, IH. Qed.

Section Paths.
Context {A : Type}.
Variable k : kernel A.
Variable dtype : Z.
Variables (l r : list A) (ls rs os : list Z) (d0 : A).
Hypotheses (Hs : same_rank_broadcast ls rs os) (Po : positive_shape os)
  (Hl : Z.of_nat (length l) = elements ls) (Hr : Z.of_nat (length r) = elements rs).

Let n := elements os.
Definition lv (p : Z) : A := nth (Z.to_nat (src ls os p)) l d0.
Definition rv (p : Z) : A := nth (Z.to_nat (src rs os p)) r d0.

Lemma Hlv p : 0 <= p < n -> load l (src ls os p) = SOk (lv p).
Proof using Hs Po Hl.
  intros Hp. destruct (srb_fits _ _ _ Hs) as [F _]. destruct (load_ok l (src ls os p)) as (a & Ha & Hn); [rewrite Hl; now apply src_bound|].
  rewrite Ha. unfold lv. now rewrite (nth_error_nth _ _ d0 Hn).
Qed.
Lemma Hrv p : 0 <= p < n -> load r (src rs os p) = SOk (rv p).
Proof using Hs Po Hr.
  intros Hp. destruct (srb_fits _ _ _ Hs) as [_ F]. destruct (load_ok r (src rs os p)) as (a & Ha & Hn); [rewrite Hr; now apply src_bound|].
  rewrite Ha. unfold rv. now rewrite (nth_error_nth _ _ d0 Hn).
Qed.

Lemma n_pos : 0 < n.
Proof using Po. now apply elements_pos. Qed.

(** order of the simple loops *)
Lemma upto_us {B} (f : Z -> B) : map fst (map (fun i => (i, f i)) (upto n)) = upto n.
Proof. rewrite map_map. cbn [fst]. apply map_id. Qed.

Lemma same_path : ls = os -> rs = os -> computes n (fun p => k_op k (lv p) (rv p)) (same_run k dtype l r n).
Proof using All.
  intros El Er. pose proof n_pos.
  assert (L1 : forall p, 0 <= p < n -> load l p = SOk (lv p)).
  { intros p Hp. rewrite <- (Hlv p Hp). f_equal. rewrite El. symmetry. now apply src_refl. }
  assert (R1 : forall p, 0 <= p < n -> load r p = SOk (rv p)).
  { intros p Hp. rewrite <- (Hrv p Hp). f_equal. rewrite Er. symmetry. now apply src_refl. }
  unfold same_run. destruct (vec k dtype).
  - apply puts_compute; [intros i; apply In_simd; lia|]. intros i Hi. now rewrite L1, R1.
  - replace (map _ (upto n)) with (map (fun u : Z * sres (A -> A) => Upd (fst u) (snd u)) (map (fun i => (i, lift1 (fun y x => k_op k x y) (load r i))) (upto n)))
      by (rewrite map_map; reflexivity).
    apply copy_upds_compute; [lia|rewrite upto_us; intros i; apply In_upto|rewrite upto_us; apply NoDup_upto|].
    intros i f Hf. apply in_map_iff in Hf. destruct Hf as (j & [= -> <-] & Hj). apply In_upto in Hj.
    rewrite R1, L1 by exact Hj. cbn [lift1]. eexists _, _. split; [reflexivity|]. split; reflexivity.
Qed.

Lemma scalar_path : ls = os -> ones rs -> computes n (fun p => k_op k (lv p) (rv p)) (scalar_run k dtype l r n).
Proof using All.
  intros El Er. pose proof n_pos.
  assert (L1 : forall p, 0 <= p < n -> load l p = SOk (lv p)).
  { intros p Hp. rewrite <- (Hlv p Hp). f_equal. rewrite El. symmetry. now apply src_refl. }
  assert (R1 : forall p, 0 <= p < n -> load r 0 = SOk (rv p)).
  { intros p Hp. rewrite <- (Hrv p Hp). f_equal. symmetry. now apply src_all_ones. }
  unfold scalar_run. destruct (vec k dtype).
  - apply puts_compute; [intros i; apply In_simd; lia|]. intros i Hi. now rewrite L1, (R1 i Hi).
  - replace (map _ (upto n)) with (map (fun u : Z * sres (A -> A) => Upd (fst u) (snd u)) (map (fun i => (i, lift1 (fun y x => k_op k x y) (load r 0))) (upto n)))
      by (rewrite map_map; reflexivity).
    apply copy_upds_compute; [lia|rewrite upto_us; intros i; apply In_upto|rewrite upto_us; apply NoDup_upto|].
    intros i f Hf. apply in_map_iff in Hf. destruct Hf as (j & [= -> <-] & Hj). apply In_upto in Hj.
    rewrite (R1 i Hj), L1 by exact Hj. cbn [lift1]. eexists _, _. split; [reflexivity|]. split; reflexivity.
Qed.

Lemma scalar_cross_path : rs = os -> ones ls -> computes n (fun p => k_op k (lv p) (rv p)) (scalar_cross_run k dtype l r n).
Proof using All.
  intros Er El. pose proof n_pos.
  assert (L1 : forall p, 0 <= p < n -> load l 0 = SOk (lv p)).
  { intros p Hp. rewrite <- (Hlv p Hp). f_equal. symmetry. now apply src_all_ones. }
  assert (R1 : forall p, 0 <= p < n -> load r p = SOk (rv p)).
  { intros p Hp. rewrite <- (Hrv p Hp). f_equal. rewrite Er. symmetry. now apply src_refl. }
  unfold scalar_cross_run. destruct (vec k dtype).
  - apply puts_compute; [intros i; apply In_simd; lia|]. intros i Hi. now rewrite (L1 i Hi), R1.
  - replace (map _ (upto n)) with (map (fun u : Z * sres (A -> A) => Upd (fst u) (snd u)) (map (fun i => (i, lift1 (fun y x => k_op k y x) (load l 0))) (upto n)))
      by (rewrite map_map; reflexivity).
    apply copy_upds_compute; [lia|rewrite upto_us; intros i; apply In_upto|rewrite upto_us; apply NoDup_upto|].
    intros i f Hf. apply in_map_iff in Hf. destruct Hf as (j & [= -> <-] & Hj). apply In_upto in Hj.
    rewrite (L1 i Hj), R1 by exact Hj. cbn [lift1]. eexists _, _. split; [reflexivity|]. split; reflexivity.
Qed.

(** the broadcasting kernel *)
Lemma mod_coordinate_ok s c : cfits s os -> inside os c -> mod_coordinate s c = SOk (shown_aligned s c).
Proof using.
  clear. intros F. revert c. induction F as [|a d s o Ha F IH]; intros c Hc.
  - inversion Hc. reflexivity.
  - inversion Hc as [|? x ? c' Hx Hc']; subst. cbn [mod_coordinate]. unfold shown_aligned in *. cbn [combine map fst snd].
    rewrite IH by assumption. destruct (Z.eqb_spec a 0); [lia|]. cbn [lift1]. f_equal. f_equal.
    destruct (Z.eqb_spec a 1) as [->|]; [apply Z.rem_1_r|]. destruct Ha as [Ha|Ha]; [lia|]. subst a. apply Z.rem_small. lia.
Qed.

Lemma mod_load_ok (data : list A) s c : cfits s os -> inside os c -> mod_load data s c = load data (src s os (position os c)).
Proof using All.
  intros F Hc. unfold mod_load. rewrite (mod_coordinate_ok s c F Hc). destruct (src_position s os c F Hc) as [I E].
  pose proof (inside_length _ _ I) as L. rewrite to_index_ok by lia. rewrite L, Nat.sub_diag. cbn [skipn]. now rewrite E.
Qed.

Lemma compute_run_eq m : forall j, compute_run k l r ls rs os m (Z.of_nat j) (coordinate os j) =
  map (fun i => Put (Z.of_nat i) (lift2 (k_op k) (mod_load l ls (coordinate os i)) (mod_load r rs (coordinate os i)))) (seq j m).
Proof using.
  clear. induction m as [|m IH]; intros j; [reflexivity|]. cbn [compute_run seq map]. f_equal.
  replace (Z.of_nat j + 1) with (Z.of_nat (S j)) by lia. apply (IH (S j)).
Qed.

Lemma broadcast_path : computes n (fun p => k_op k (lv p) (rv p)) (broadcast_run k l r ls rs os).
Proof using All.
  unfold broadcast_run. rewrite prod_elements. fold n.
  pose proof (compute_run_eq (Z.to_nat n) 0) as E. unfold coordinate in E. cbn [times] in E. cbn [Z.of_nat] in E. rewrite E. clear E.
  replace (map _ (seq 0 (Z.to_nat n))) with
    (map (fun i => Put i (lift2 (k_op k) (mod_load l ls (coordinate os (Z.to_nat i))) (mod_load r rs (coordinate os (Z.to_nat i))))) (upto n)).
  2:{ unfold upto. rewrite map_map. apply map_ext. intros i. rewrite Nat2Z.id. reflexivity. }
  apply puts_compute; [intros i; apply In_upto|]. intros i Hi.
  destruct (coordinate_at os (Z.to_nat i) Po) as [I P]; [unfold n in Hi; lia|]. rewrite Z2Nat.id in P by lia.
  destruct (srb_fits _ _ _ Hs) as [F1 F2].
  rewrite !mod_load_ok by assumption. rewrite P. now rewrite Hlv, Hrv.
Qed.

(** the bias kernels *)
Lemma is_bias_from_spec count a : forall b i dim, is_bias_from count a b i = Some dim ->
  exists a1 a2 b1 b2, a = a1 ++ count :: a2 /\ b = b1 ++ count :: b2 /\ length a1 = length b1 /\ (dim = i + length b1)%nat.
Proof using.
  clear. induction a as [|x a IH]; intros [|y b] i dim H; try discriminate. cbn [is_bias_from] in H.
  destruct ((y =? count) && (x =? count)) eqn:E.
  - injection H as <-. apply andb_prop in E as [E1 E2]. apply Z.eqb_eq in E1, E2. subst x y. exists [], a, [], b. cbn. auto.
  - destruct (IH b (S i) dim H) as (a1 & a2 & b1 & b2 & -> & -> & L & ->). exists (x :: a1), a2, (y :: b1), b2. cbn. repeat split; auto; lia.
Qed.

Lemma bias_updates_path (update : A -> A -> A) (x bias : list A) (b1 b2 o1 o2 : list Z) ch (bv xv V : Z -> A) :
  os = o1 ++ ch :: o2 -> ones b1 -> ones b2 -> length b1 = length o1 ->
  (forall p, 0 <= p < n -> load bias (src (b1 ++ ch :: b2) os p) = SOk (bv p)) ->
  (forall p, 0 <= p < n -> load x p = SOk (xv p)) ->
  (forall p, 0 <= p < n -> update (bv p) (xv p) = V p) ->
  computes n V (copy x n ++ bias_updates k dtype update bias os (length o1)).
Proof using All.
  intros Eo O1 O2 L Hb Hx HV. pose proof n_pos as Np.
  assert (P := Po). rewrite Eo in P. apply Forall_app in P as [P1 P2]. inversion P2 as [|? ? Pc P3]; subst.
  pose proof (elements_pos _ P1) as E1. pose proof (elements_pos _ P3) as E2.
  assert (En : n = elements o1 * ch * elements o2) by (unfold n; rewrite elements_app; cbn [elements]; ring).
  assert (F1 : firstn (length o1) (o1 ++ ch :: o2) = o1) by (rewrite firstn_app, Nat.sub_diag, firstn_all; cbn; apply app_nil_r).
  assert (F2 : skipn (S (length o1)) (o1 ++ ch :: o2) = o2) by (rewrite skipn_app, skipn_all2 by lia; replace (S (length o1) - length o1)%nat with 1%nat by lia; reflexivity).
  assert (F3 : nth (length o1) (o1 ++ ch :: o2) 0 = ch) by (rewrite app_nth2, Nat.sub_diag by lia; reflexivity).
  unfold bias_updates. rewrite F1, F2, F3, !prod_elements.
  assert (G : forall order : list Z, (forall i, In i order <-> 0 <= i < elements o2) -> length order = Z.to_nat (elements o2) ->
    computes n V (copy x n ++ flat_map (fun n0 => flat_map (fun c => map (fun i => Upd ((n0 * ch + c) * elements o2 + i) (lift1 update (load bias c))) order) (upto ch)) (upto (elements o1)))).
  { intros order Ho Lo.
    set (us := flat_map (fun n0 => flat_map (fun c => map (fun i => ((n0 * ch + c) * elements o2 + i, lift1 update (load bias c))) order) (upto ch)) (upto (elements o1))).
    replace (flat_map _ (upto (elements o1))) with (map (fun u : Z * sres (A -> A) => Upd (fst u) (snd u)) us).
    2:{ unfold us. rewrite map_flat_map'. apply flat_map_ext. intros n0. rewrite map_flat_map'. apply flat_map_ext. intros c. rewrite map_map. reflexivity. }
    assert (Hus : forall j f, In (j, f) us <-> exists n0 c i, 0 <= n0 < elements o1 /\ 0 <= c < ch /\ 0 <= i < elements o2 /\
       j = (n0 * ch + c) * elements o2 + i /\ f = lift1 update (load bias c)).
    { intros j f. unfold us. rewrite in_flat_map. split.
      - intros (n0 & Hn0 & H). apply in_flat_map in H. destruct H as (c & Hc & H). apply in_map_iff in H. destruct H as (i & [= <- <-] & Hi).
        apply In_upto in Hn0, Hc. apply Ho in Hi. exists n0, c, i. auto.
      - intros (n0 & c & i & Hn0 & Hc & Hi & -> & ->). exists n0. rewrite In_upto. split; [exact Hn0|]. apply in_flat_map. exists c.
        rewrite In_upto. split; [exact Hc|]. apply in_map_iff. exists i. rewrite Ho. auto. }
    assert (Bd : forall n0 c i, 0 <= n0 < elements o1 -> 0 <= c < ch -> 0 <= i < elements o2 -> 0 <= (n0 * ch + c) * elements o2 + i < n).
    { intros n0 c i H1 H2 H3. rewrite En. assert (0 <= n0 * ch + c < elements o1 * ch) by nia. nia. }
    assert (Cov : forall j, In j (map fst us) <-> 0 <= j < n).
    { intros j. rewrite in_map_iff. split.
      - intros ([j' f] & Ej & H). cbn in Ej. subst j'. apply Hus in H. destruct H as (n0 & c & i & H1 & H2 & H3 & -> & _). now apply Bd.
      - intros Hj. set (q := j / elements o2). set (i := j mod elements o2). set (n0 := q / ch). set (c := q mod ch).
        assert (Ej : j = q * elements o2 + i) by (unfold q, i; rewrite Z.mul_comm; apply Z.div_mod; lia).
        assert (Hi : 0 <= i < elements o2) by (apply Z.mod_pos_bound; lia).
        assert (Eq : q = n0 * ch + c) by (unfold n0, c; rewrite Z.mul_comm; apply Z.div_mod; lia).
        assert (Hc : 0 <= c < ch) by (apply Z.mod_pos_bound; lia).
        assert (Hq : 0 <= q < elements o1 * ch) by nia. assert (Hn0 : 0 <= n0 < elements o1) by nia.
        exists (j, lift1 update (load bias c)). split; [reflexivity|]. apply Hus. exists n0, c, i. repeat split; try lia. }
    apply copy_upds_compute; [lia|exact Cov| |].
    - apply (each_once n); [|intros j Hj; now apply Cov]. rewrite map_length. unfold us.
      rewrite (length_flat_map_const _ _ (Z.to_nat (ch * elements o2))).
      + rewrite length_upto, En. rewrite <- Z2Nat.inj_mul by nia. f_equal. ring.
      + intros n0 _. rewrite (length_flat_map_const _ _ (Z.to_nat (elements o2))) by (intros; now rewrite map_length).
        rewrite length_upto. rewrite <- Z2Nat.inj_mul by nia. reflexivity.
    - intros j f H. apply Hus in H. destruct H as (n0 & c & i & H1 & H2 & H3 & -> & ->).
      pose proof (Bd n0 c i H1 H2 H3) as B. pose proof (Hb _ B) as Hbv.
      rewrite src_bias in Hbv by assumption. rewrite Hbv. cbn [lift1]. eexists _, _. split; [reflexivity|]. split; [now apply Hx|]. now apply HV. }
  destruct (Z.eqb_spec (elements o2) 1) as [E|E].
  - specialize (G (upto (elements o2)) (In_upto (elements o2)) (length_upto (elements o2))).
    replace (flat_map (fun n0 => map (fun c => Upd (n0 * ch + c) (lift1 update (load bias c))) (upto ch)) (upto (elements o1)))
      with (flat_map (fun n0 => flat_map (fun c => map (fun i => Upd ((n0 * ch + c) * elements o2 + i) (lift1 update (load bias c))) (upto (elements o2))) (upto ch)) (upto (elements o1))); [exact G|].
    rewrite E. change (upto 1) with [0]. apply flat_map_ext. intros n0. clear. induction (upto ch) as [|c cs IHc]; [reflexivity|]. cbn [flat_map map app] in *. rewrite IHc. f_equal. f_equal. ring.
  - destruct (vec k dtype); apply G.
    + intros i. apply In_simd. lia.
    + apply length_simd. lia.
    + intros i. apply In_upto.
    + apply length_upto.
Qed.

Lemma bias_split b x : elements b <> 0 -> positive_shape b -> forall b1 b2, b = b1 ++ x :: b2 -> x = elements b -> ones b1 /\ ones b2.
Proof using.
  clear. intros Nz P b1 b2 E Ex. subst b. apply Forall_app in P as [P1 P2]. inversion P2 as [|? ? Px P3]; subst.
  pose proof (elements_pos _ P1) as E1. pose proof (elements_pos _ P3) as E2. rewrite elements_app in Ex. cbn [elements] in Ex.
  assert (elements b1 * elements b2 = 1) by nia.
  split; apply elements_one_ones; auto; nia.
Qed.

Lemma bias_path dim : is_bias ls rs = Some dim -> computes n (fun p => k_op k (lv p) (rv p)) (bias_run k dtype l r os dim).
Proof using All.
  unfold is_bias. rewrite prod_elements. intros H. apply is_bias_from_spec in H.
  destruct H as (a1 & a2 & b1 & b2 & Ea & Eb & L & ->). cbn [Nat.add].
  pose proof (srb_positive _ _ _ (srb_sym _ _ _ Hs) Po) as Pr. pose proof (elements_pos _ Pr) as Er.
  destruct (bias_split rs (elements rs) ltac:(lia) Pr b1 b2 Eb eq_refl) as [O1 O2].
  (* the output is the left operand *)
  assert (Elo : ls = os).
  { destruct (srb_firstn (length b1) _ _ _ Hs) as [H1 H2].
    assert (X1 : firstn (length b1) ls = firstn (length b1) os).
    { apply (srb_ones _ _ _ (srb_sym _ _ _ H1)). rewrite Eb, firstn_app, Nat.sub_diag, firstn_all. cbn [firstn]. now rewrite app_nil_r. }
    assert (X2 : skipn (length b1) ls = skipn (length b1) os).
    { assert (Y1 : skipn (length b1) ls = elements rs :: a2) by (rewrite Ea, <- L, skipn_app, skipn_all, Nat.sub_diag; reflexivity).
      assert (Y2 : skipn (length b1) rs = elements rs :: b2) by (remember (elements rs) as er; rewrite Eb, skipn_app, skipn_all, Nat.sub_diag; reflexivity).
      rewrite Y1, Y2 in H2. rewrite Y1.
      inversion H2 as [|? ? o ? ? o' Hax Hrest Q1 Q2 Q3].
      f_equal; [unfold axis_broadcast in Hax; intuition lia|]. exact (srb_ones _ _ _ (srb_sym _ _ _ Hrest) O2). }
    rewrite <- (firstn_skipn (length b1) ls), <- (firstn_skipn (length b1) os). now rewrite X1, X2. }
  unfold bias_run. rewrite prod_elements. fold n. rewrite <- L.
  apply (bias_updates_path (fun y x => k_op k x y) l r b1 b2 a1 a2 (elements rs) rv lv).
  - now rewrite <- Elo.
  - exact O1.
  - exact O2.
  - now symmetry.
  - intros p Hp. rewrite <- Eb. now apply Hrv.
  - intros p Hp. rewrite <- (Hlv p Hp). f_equal. rewrite Elo. symmetry. now apply src_refl.
  - reflexivity.
Qed.

Lemma bias_cross_path dim : is_bias rs ls = Some dim -> computes n (fun p => k_op k (lv p) (rv p)) (bias_cross_run k dtype l r os dim).
Proof using All.
  unfold is_bias. rewrite prod_elements. intros H. apply is_bias_from_spec in H.
  destruct H as (a1 & a2 & b1 & b2 & Ea & Eb & L & ->). cbn [Nat.add].
  pose proof (srb_positive _ _ _ Hs Po) as Pl. pose proof (elements_pos _ Pl) as El.
  destruct (bias_split ls (elements ls) ltac:(lia) Pl b1 b2 Eb eq_refl) as [O1 O2].
  assert (Ero : rs = os).
  { destruct (srb_firstn (length b1) _ _ _ Hs) as [H1 H2].
    assert (X1 : firstn (length b1) rs = firstn (length b1) os).
    { apply (srb_ones _ _ _ H1). rewrite Eb, firstn_app, Nat.sub_diag, firstn_all. cbn [firstn]. now rewrite app_nil_r. }
    assert (X2 : skipn (length b1) rs = skipn (length b1) os).
    { assert (Y1 : skipn (length b1) rs = elements ls :: a2) by (rewrite Ea, <- L, skipn_app, skipn_all, Nat.sub_diag; reflexivity).
      assert (Y2 : skipn (length b1) ls = elements ls :: b2) by (remember (elements ls) as er; rewrite Eb, skipn_app, skipn_all, Nat.sub_diag; reflexivity).
      rewrite Y1, Y2 in H2. rewrite Y1.
      inversion H2 as [|? ? o ? ? o' Hax Hrest Q1 Q2 Q3].
      f_equal; [unfold axis_broadcast in Hax; intuition lia|]. exact (srb_ones _ _ _ Hrest O2). }
    rewrite <- (firstn_skipn (length b1) rs), <- (firstn_skipn (length b1) os). now rewrite X1, X2. }
  unfold bias_cross_run. rewrite prod_elements. fold n. rewrite <- L.
  apply (bias_updates_path (fun y x => k_op k y x) r l b1 b2 a1 a2 (elements ls) lv rv).
  - now rewrite <- Ero.
  - exact O1.
  - exact O2.
  - now symmetry.
  - intros p Hp. rewrite <- Eb. now apply Hlv.
  - intros p Hp. rewrite <- (Hrv p Hp). f_equal. rewrite Ero. symmetry. now apply src_refl.
  - reflexivity.
Qed.
End Paths.
