(** C147: constant_of_shape. *)
From Coq Require Import List ZArith Bool Lia.
From Verif Require Import ShapeModel ShapeSpec ShapeProofs KernelBase KernelSpec KernelProofs ConstantModel.
Import ListNotations.
Local Open Scope Z_scope.

Section Proofs.
Context {A : Type}.

Lemma put_spec (m : list (option A)) a src n : 0 <= a -> 0 <= n -> a + n <= Z.of_nat (length m) -> n <= Z.of_nat (length src) ->
  exists m', put m a src n = SOk m' /\ length m' = length m /\
    forall i, 0 <= i -> nth_error m' (Z.to_nat i) = if (a <=? i) && (i <? a + n) then nth_error src (Z.to_nat (i - a)) else nth_error m (Z.to_nat i).
Proof.
  intros Ha Hn Hm Hs. unfold put.
  rewrite (proj2 (Z.ltb_ge a 0)), (proj2 (Z.ltb_ge n 0)), (proj2 (Z.ltb_ge (Z.of_nat (length m)) (a + n))), (proj2 (Z.ltb_ge (Z.of_nat (length src)) n)) by lia.
  cbn [orb]. eexists. split; [reflexivity|].
  assert (L1 : length (firstn (Z.to_nat a) m) = Z.to_nat a) by (rewrite firstn_length; lia).
  assert (L2 : length (firstn (Z.to_nat n) src) = Z.to_nat n) by (rewrite firstn_length; lia).
  split; [rewrite !app_length, skipn_length, L1, L2; lia|].
  intros i Hi. destruct (Z.leb_spec a i) as [H1|H1]; cbn [andb].
  - rewrite nth_error_app2 by lia. rewrite L1. replace (Z.to_nat i - Z.to_nat a)%nat with (Z.to_nat (i - a)) by lia.
    destruct (Z.ltb_spec i (a + n)) as [H2|H2].
    + rewrite nth_error_app1 by lia.
      rewrite <- (firstn_skipn (Z.to_nat n) src) at 2. now rewrite nth_error_app1 by lia.
    + rewrite nth_error_app2 by lia. rewrite L2. rewrite <- (firstn_skipn (Z.to_nat (a + n)) m) at 2.
      rewrite nth_error_app2 by (rewrite firstn_length; lia). f_equal. rewrite firstn_length. lia.
  - rewrite nth_error_app1 by lia. rewrite <- (firstn_skipn (Z.to_nat a) m) at 2. now rewrite nth_error_app1 by lia.
Qed.

(** the bytes before [n] repeat the pattern *)
Definition repeats (m : list (option A)) (src : list A) (k n : Z) : Prop :=
  forall i, 0 <= i < n -> nth_error m (Z.to_nat i) = option_map Some (nth_error src (Z.to_nat (i mod k))).

Lemma copy_repeats m src k anchor n : 0 < k -> 0 <= n <= anchor -> (exists q, anchor = q * k) -> anchor + n <= Z.of_nat (length m) -> repeats m src k anchor ->
  exists m', copy_in m anchor n = SOk m' /\ length m' = length m /\ repeats m' src k (anchor + n).
Proof.
  intros Hk Hn [q Hq] Hl H. unfold copy_in. rewrite (proj2 (Z.ltb_ge anchor n)) by lia.
  destruct (put_spec m anchor m n) as (m' & E & L & N); [lia..|]. exists m'. split; [exact E|]. split; [exact L|].
  intros i Hi. rewrite N by lia. destruct (Z.leb_spec anchor i) as [H1|H1]; cbn [andb].
  - rewrite (proj2 (Z.ltb_lt i (anchor + n))) by lia. rewrite H by lia. replace ((i - anchor) mod k) with (i mod k); [reflexivity|].
    rewrite Hq. rewrite <- (Z_mod_plus_full (i - q * k) q k). f_equal. lia.
  - apply H. lia.
Qed.

Lemma doubling_repeats src k size : 0 < k -> forall fuel m anchor, size - anchor <= Z.of_nat fuel -> 0 < anchor -> (exists q, anchor = q * k) ->
  Z.of_nat (length m) = size -> repeats m src k (Z.min anchor size) ->
  exists m' anchor', doubling fuel m anchor size = Some (SOk (m', anchor')) /\ 0 < anchor' /\ size < 2 * anchor' /\ (exists q, anchor' = q * k) /\
    length m' = length m /\ repeats m' src k (Z.min anchor' size).
Proof.
  intros Hk. induction fuel as [|fuel IH]; intros m anchor Hf Ha Hq Hl Hr; cbn [doubling]; rewrite Z.shiftr_div_pow2 by lia; change (2 ^ 1) with 2.
  - rewrite (proj2 (Z.leb_gt anchor (size / 2))). 2: { apply Z.div_lt_upper_bound; lia. }
    exists m, anchor. split; [reflexivity|]. split; [exact Ha|]. split; [lia|]. auto.
  - destruct (Z.leb_spec anchor (size / 2)) as [H|H].
    + assert (H2 : 2 * anchor <= size) by (pose proof (Z.mul_div_le size 2 ltac:(lia)); lia).
      replace (Z.min anchor size) with anchor in Hr by lia.
      destruct (copy_repeats m src k anchor anchor Hk ltac:(lia) Hq ltac:(lia) Hr) as (m1 & -> & L1 & R1).
      rewrite Z.shiftl_mul_pow2 by lia. change (2 ^ 1) with 2.
      destruct (IH m1 (anchor * 2)) as (m' & a' & E & P1 & P2 & P3 & P4 & P5); [lia|lia| |lia| |].
      * destruct Hq as [q ->]. exists (q * 2). ring.
      * replace (Z.min (anchor * 2) size) with (anchor + anchor) by lia. exact R1.
      * exists m', a'. split; [exact E|]. split; [exact P1|]. split; [exact P2|]. split; [exact P3|]. split; [congruence|exact P5].
    + exists m, anchor. split; [reflexivity|]. split; [exact Ha|].
      split; [|auto]. destruct (Z.lt_ge_cases size (2 * anchor)) as [G|G]; [exact G|]. exfalso.
      assert (anchor <= size / 2) by (apply Z.div_le_lower_bound; lia). lia.
Qed.

(** A non-empty pattern is repeated over the whole memory, its last copy cut
    off, and nothing outside is touched; it takes at most as many rounds as
    there are bytes. *)
Theorem memset_repeats (m : list (option A)) (src : list A) fuel size k :
  Z.of_nat (length m) = size -> Z.of_nat (length src) = k -> 0 < k -> size <= Z.of_nat fuel ->
  exists m', memset fuel m size src k = Some (SOk m') /\ length m' = length m /\
    forall i, 0 <= i < size -> nth_error m' (Z.to_nat i) = option_map Some (nth_error src (Z.to_nat (i mod k))).
Proof.
  intros Hm Hs Hk Hf. unfold memset.
  destruct (put_spec m 0 (map Some src) (Z.min size k)) as (m1 & -> & L1 & N1); [lia|lia|lia|rewrite map_length; lia|].
  destruct (doubling_repeats src k size Hk fuel m1 k) as (m2 & a & -> & Pa & Ps & Pq & L2 & R2); [lia|lia|exists 1; ring|lia| |].
  - intros i Hi. rewrite N1 by lia. rewrite (proj2 (Z.leb_le 0 i)), (proj2 (Z.ltb_lt i (0 + Z.min size k))) by lia. cbn [andb].
    rewrite nth_error_map, Z.sub_0_r, Z.mod_small by lia. reflexivity.
  - destruct (Z.ltb_spec a size) as [H|H].
    + replace (Z.min a size) with a in R2 by lia.
      destruct (copy_repeats m2 src k a (size - a) Hk ltac:(lia) Pq ltac:(lia) R2) as (m3 & -> & L3 & R3).
      exists m3. split; [reflexivity|]. split; [lia|]. intros i Hi. apply R3. lia.
    + exists m2. split; [reflexivity|]. split; [lia|]. intros i Hi. apply R2. lia.
Qed.

(** An empty pattern never ends, whatever the memory. *)
Theorem memset_hangs (m : list (option A)) (src : list A) fuel : memset fuel m (Z.of_nat (length m)) src 0 = None.
Proof.
  unfold memset. destruct (put_spec m 0 (map Some src) (Z.min (Z.of_nat (length m)) 0)) as (m1 & -> & L1 & _); [lia..|].
  replace (doubling fuel m1 0 (Z.of_nat (length m))) with (@None (sres (list (option A) * Z))); [reflexivity|]. symmetry.
  set (size := Z.of_nat (length m)). assert (Hs : Z.of_nat (length m1) = size) by (unfold size; lia). clearbody size. clear L1. revert m1 Hs.
  induction fuel as [|fuel IH]; intros m1 Hs; cbn [doubling]; rewrite Z.shiftr_div_pow2 by lia; change (2 ^ 1) with 2;
    rewrite (proj2 (Z.leb_le 0 (size / 2))) by (apply Z.div_pos; lia); [reflexivity|].
  unfold copy_in. rewrite (proj2 (Z.ltb_ge 0 0)) by lia. destruct (put_spec m1 0 m1 0) as (m2 & -> & L2 & _); [lia..|].
  change (Z.shiftl 0 1) with 0. apply IH. lia.
Qed.
End Proofs.

Definition value_ok (v : tensor Z) (w : Z) : Prop :=
  Forall (fun d => 0 <= d) (t_shape v) /\ Z.of_nat (length (t_data v)) = elements (t_shape v) * w.

(** The result has the shape asked for and the type of the value; element [i]
    is element [i] modulo their number of the value, so for a value of one
    element every element is that one; without a value, the float 0.  Missing:
    a value with no elements (C147_hangs_refuted). *)
Theorem C147_constant_partial (value : option (tensor Z)) (shape : list Z) w fuel :
  constant_bytes (t_dtype (the_value value)) = Some w -> value_ok (the_value value) w -> 0 < elements (t_shape (the_value value)) ->
  Forall (fun d => 0 <= d) shape -> elements shape * w <= Z.of_nat fuel ->
  exists out, constant_of_shape fuel value shape = Some (SOk (filled out)) /\
    t_shape out = shape /\ t_dtype out = t_dtype (the_value value) /\ Z.of_nat (length (t_data out)) = elements shape * w /\
    forall i j, 0 <= i < elements shape -> 0 <= j < w ->
      nth_error (t_data out) (Z.to_nat (i * w + j)) =
      nth_error (t_data (the_value value)) (Z.to_nat ((i mod elements (t_shape (the_value value))) * w + j)).
Proof.
  set (v := the_value value). set (k := elements (t_shape v)). intros Hw [Vn Vd] Hk Hs Hf. fold k in Vd.
  assert (W : 0 < w). { unfold constant_bytes in Hw. repeat match goal with H : match ?d with _ => _ end = Some _ |- _ => destruct d; try discriminate end; injection Hw as <-; lia. }
  pose proof (elements_nonneg shape Hs) as Sn.
  destruct (memset_repeats (fresh (elements shape * w)) (t_data v) fuel (elements shape * w) (k * w)) as (m & E & L & N).
  { unfold fresh. rewrite repeat_length. nia. } { exact Vd. } { nia. } { exact Hf. }
  assert (Hl : length m = Z.to_nat (elements shape * w)) by (rewrite L; unfold fresh; apply repeat_length).
  (* every byte has been written *)
  set (out := map (fun o => match o with Some b => b | None => 0 end) m).
  assert (Hm : m = map Some out).
  { unfold out. rewrite map_map. apply nth_error_ext. intro i. rewrite nth_error_map. destruct (nth_error m i) as [o|] eqn:Ei; [|reflexivity].
    assert (Hi : (i < length m)%nat) by (apply nth_error_Some; congruence). specialize (N (Z.of_nat i) ltac:(lia)). rewrite Nat2Z.id, Ei in N.
    destruct (nth_error (t_data v) _); [|discriminate]. cbn in N. injection N as ->. reflexivity. }
  exists (Tn (t_dtype v) shape out). split; [|split; [reflexivity|split; [reflexivity|split]]].
  - unfold constant_of_shape. cbv zeta. change (the_value value) with v. rewrite Hw, !prod_elements. change (elements (t_shape v)) with k. rewrite E. unfold filled. cbn [t_dtype t_shape t_data]. now rewrite Hm at 1.
  - cbn [t_data]. unfold out. rewrite map_length, Hl. nia.
  - intros i j Hi Hj. cbn [t_data]. assert (B : 0 <= i * w + j < elements shape * w) by nia. specialize (N (i * w + j) B).
    rewrite Hm, nth_error_map in N.
    assert (M : (i * w + j) mod (k * w) = (i mod k) * w + j).
    { pose proof (Z.div_mod i k ltac:(lia)) as D. pose proof (Z.mod_pos_bound i k ltac:(lia)) as Bm. set (r := i mod k) in *. set (q := i / k) in *. clearbody r q. symmetry. apply Z.mod_unique with (q := q); [left; nia|subst i; ring]. }
    rewrite M in N. destruct (nth_error out _), (nth_error (t_data v) _); cbn in N; congruence.
Qed.
Print Assumptions C147_constant_partial.

(** Refused: a value of another type, whatever the rest. *)
Theorem C147_refused value shape fuel : constant_bytes (t_dtype (the_value value)) = None -> constant_of_shape fuel value shape = Some SErr.
Proof. intro H. unfold constant_of_shape. cbv zeta. now rewrite H. Qed.
Print Assumptions C147_refused.

(** With a value that has no elements the operator never returns. *)
Theorem C147_hangs_refuted shape fuel : Forall (fun d => 0 <= d) shape -> constant_of_shape fuel (Some (Tn 10 [0] [])) shape = None.
Proof.
  intro H. unfold constant_of_shape. cbn [the_value t_dtype t_shape t_data]. cbv zeta. cbn [constant_bytes]. change (prod [0] * 4) with 0.
  replace (prod shape * 4) with (Z.of_nat (length (@fresh Z (prod shape * 4)))) at 2; [now rewrite memset_hangs|].
  unfold fresh. rewrite repeat_length. rewrite prod_elements. pose proof (elements_nonneg shape H). lia.
Qed.
Print Assumptions C147_hangs_refuted.

Example C147_example : constant_of_shape 20 (Some (Tn 3 [3] [1; 0; 2; 0; 3; 0])) [2; 4] =
  Some (SOk (filled (Tn 3 [2; 4] [1; 0; 2; 0; 3; 0; 1; 0; 2; 0; 3; 0; 1; 0; 2; 0]))).
Proof. vm_compute. reflexivity. Qed.
Example C147_default : constant_of_shape 20 None [2; 1] = Some (SOk (filled (Tn 10 [2; 1] (repeat 0 8)))).
Proof. vm_compute. reflexivity. Qed.
