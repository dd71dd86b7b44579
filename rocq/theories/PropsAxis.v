(** Properties of the reductions along axes. *)
From Coq Require Import List ZArith Lia Bool Arith.
From Verif Require Import ShapeModel ShapeSpec ShapeProofs KernelBase KernelSpec KernelProofs CoordProofs TileModel EltwiseModel
  AxisModel AxisSpec AxisProofs AxisScanProofs AxisSumProofs.
Import ListNotations.
Local Open Scope Z_scope.

(** *** The words ArgMax reads *)
Lemma encode_decode v : is_int32 v ->
  let u := v mod 2^8 + 2^8 * (v / 2^8 mod 2^8) + 2^16 * (v / 2^16 mod 2^8) + 2^24 * (v / 2^24 mod 2^8) in
  (if u <? 2^31 then u else u - 2^32) = v.
Proof.
  intros H u. unfold is_int32 in H.
  assert (E : u = v mod 2^32).
  { unfold u. change (2^16) with (2^8 * 2^8). change (2^24) with (2^8 * 2^8 * 2^8). rewrite <- !Z.div_div by lia.
    Z.to_euclidean_division_equations. lia. }
  rewrite E. destruct (Z.ltb_spec (v mod 2^32) (2^31)); Z.to_euclidean_division_equations; lia.
Qed.

Lemma load_app_r {A} (a b : list A) i : 0 <= i -> load (a ++ b) (Z.of_nat (length a) + i) = load b i.
Proof.
  intros H. unfold load. destruct (Z.ltb_spec (Z.of_nat (length a) + i) 0), (Z.ltb_spec i 0); try lia.
  replace (Z.to_nat (Z.of_nat (length a) + i)) with (length a + Z.to_nat i)%nat by lia.
  now rewrite nth_error_app2, Nat.add_comm, Nat.add_sub by lia.
Qed.

Lemma load_words vs : Forall is_int32 vs -> forall q, 0 <= q < Z.of_nat (length vs) ->
  load_int32 (flat_map encode32 vs) q = load vs q.
Proof.
  induction 1 as [|v vs Hv Hvs IH]; intros q Hq; [cbn in Hq; lia|].
  cbn [length] in Hq. destruct (Z.eq_dec q 0) as [->|N].
  - transitivity (SOk v); [|reflexivity]. rewrite <- (encode_decode v Hv) at 2. reflexivity.
  - cbn [flat_map]. specialize (IH (q - 1) ltac:(lia)). unfold load_int32 in *.
    replace (4 * q) with (Z.of_nat (length (encode32 v)) + 4 * (q - 1)) by (cbn [encode32 length]; lia).
    rewrite <- !Z.add_assoc. rewrite !load_app_r by lia. rewrite IH. 
    change (v :: vs) with ([v] ++ vs). replace q with (Z.of_nat (length [v]) + (q - 1)) at 2 by (cbn [length]; lia).
    now rewrite load_app_r by lia.
Qed.

(** ** C43: the index of the greatest value, the first one of several; here
    for INT32 tensors: for all shapes, axes and values *)
Theorem C43_int32_partial dim (values : tensor Z) S d T :
  wf values -> Forall is_int32 (t_data values) ->
  t_shape values = S ++ d :: T -> axis_of dim (length (t_shape values)) (length S) -> 0 < d ->
  exists out, argmax_run dim (Tn 5 (t_shape values) (flat_map encode32 (t_data values))) = SOk (filled out) /\
    wf out /\ t_dtype out = 5 /\ t_shape out = S ++ T /\
    forall s t, inside S s -> inside T t ->
      exists m, elt out (s ++ t) = Some m /\ first_max Z.gtb d (fun k => elt values (s ++ k :: t)) m.
Proof.
  intros W V E A D. apply argmax_ok; auto. intros q Hq. cbn [t_data]. apply load_words; [exact V|]. rewrite (proj2 W). exact Hq.
Qed.
Print Assumptions C43_int32_partial.

Lemma float_mono a b : nonneg_float a -> nonneg_float b -> a < b -> float_value a < float_value b.
Proof.
  unfold nonneg_float, float_value. intros Ha Hb H.
  destruct (Z.ltb_spec a (2^31)); [|lia]. destruct (Z.ltb_spec b (2^31)); [|lia].
  rewrite !(Z.mod_small _ (2^31)) by lia. rewrite !Z.mul_1_l.
  pose proof (Z.div_mod a (2^23) ltac:(lia)) as Ea. pose proof (Z.div_mod b (2^23) ltac:(lia)) as Eb.
  pose proof (Z.mod_pos_bound a (2^23) ltac:(lia)) as Ma. pose proof (Z.mod_pos_bound b (2^23) ltac:(lia)) as Mb.
  change (2^23) with 8388608 in *. change (2^31) with 2147483648 in *.
  generalize dependent (a / 8388608). intros ea Ea. generalize dependent (b / 8388608). intros eb Eb.
  generalize dependent (a mod 8388608). intros ma Ea Ma. generalize dependent (b mod 8388608). intros mb Eb Mb.
  assert (0 <= ea) by lia. assert (ea <= eb) by lia.
  destruct (Z.eqb_spec ea 0), (Z.eqb_spec eb 0); try lia.
  - destruct (Z.eq_dec ea eb) as [E|N].
    + rewrite E in *. assert (ma < mb) by lia. apply Z.mul_lt_mono_pos_r; [apply Z.pow_pos_nonneg; lia|lia].
    + assert (P : 2^(eb - 1) = 2^(ea - 1) * 2^(eb - ea)) by (rewrite <- Z.pow_add_r by lia; f_equal; lia).
      rewrite P. assert (0 < 2^(ea - 1)) by (apply Z.pow_pos_nonneg; lia).
      assert (2 <= 2^(eb - ea)) by (replace (eb - ea) with (1 + (eb - ea - 1)) by lia; rewrite Z.pow_add_r by lia;
        assert (0 < 2^(eb - ea - 1)) by (apply Z.pow_pos_nonneg; lia); lia).
      rewrite (Z.mul_comm (2^(ea - 1))), Z.mul_assoc. apply Z.mul_lt_mono_pos_r; [assumption|].
      apply Z.lt_le_trans with ((8388608 + mb) * 2); [lia|]. apply Z.mul_le_mono_nonneg_l; lia.
Qed.

Lemma first_max_iff {A} (gt gt' : A -> A -> bool) n (f : Z -> option A) m :
  (forall a b i j, f i = Some a -> f j = Some b -> gt a b = gt' a b) -> first_max gt n f m -> first_max gt' n f m.
Proof.
  intros H (B & v & Ev & H1 & H2). split; [exact B|]. exists v. split; [exact Ev|]. split.
  - intros k Hk. destruct (H1 k Hk) as (w & Ew & G). exists w. split; [exact Ew|]. now rewrite <- (H w v k m Ew Ev).
  - intros k Hk. destruct (H2 k Hk) as (w & Ew & G). exists w. split; [exact Ew|]. now rewrite <- (H v w m k Ev Ew).
Qed.

(** ... and for FLOAT32 tensors without negative numbers, infinities or NaNs,
    [bits] holding the bits of each number *)
Theorem C43_float32_partial dim (bits : tensor Z) S d T :
  wf bits -> Forall nonneg_float (t_data bits) ->
  t_shape bits = S ++ d :: T -> axis_of dim (length (t_shape bits)) (length S) -> 0 < d ->
  exists out, argmax_run dim (Tn 10 (t_shape bits) (flat_map encode32 (t_data bits))) = SOk (filled out) /\
    wf out /\ t_dtype out = 5 /\ t_shape out = S ++ T /\
    forall s t, inside S s -> inside T t ->
      exists m, elt out (s ++ t) = Some m /\ first_max float_greater d (fun k => elt bits (s ++ k :: t)) m.
Proof.
  intros W V E A D.
  assert (V' : Forall is_int32 (t_data bits)) by (eapply Forall_impl; [|exact V]; unfold nonneg_float, is_int32; intros; lia).
  destruct (argmax_ok dim (Tn 10 (t_shape bits) (flat_map encode32 (t_data bits))) bits S d T) as (out & H1 & H2 & H3 & H4 & H5); auto.
  { intros q Hq. cbn [t_data]. apply load_words; [exact V'|]. rewrite (proj2 W). exact Hq. }
  exists out. split; [exact H1|]. split; [exact H2|]. split; [exact H3|]. split; [exact H4|].
  intros s t Hs Ht. destruct (H5 s t Hs Ht) as (m & Em & F). exists m. split; [exact Em|].
  eapply first_max_iff; [|exact F]. intros a b i j Ei Ej.
  assert (Q : forall c v, elt bits c = Some v -> nonneg_float v).
  { intros c v Hc. apply (proj1 (Forall_forall _ _) V). unfold elt in Hc. eapply nth_error_In; eauto. }
  apply Q in Ei, Ej. unfold float_greater. rewrite Z.gtb_ltb.
  destruct (Z.ltb_spec b a) as [Hlt|Hge].
  - symmetry. apply Z.ltb_lt. now apply float_mono.
  - symmetry. apply Z.ltb_ge. destruct (Z.eq_dec a b) as [->|]; [lia|]. apply Z.lt_le_incl. apply float_mono; auto. lia.
Qed.
Print Assumptions C43_float32_partial.

(** ... but not for the other tensors, since the data are read as int32
    whatever their type.  Negative floats: of -1.0 and -2.0 it chooses -2.0. *)
Theorem C43_negative_floats_refuted :
  exists bits, wf bits /\ t_data bits = [3212836864; 3221225472] /\ (* 0xBF800000, 0xC0000000 *)
    float_value 3212836864 = - 2^149 /\ float_value 3221225472 = - 2^150 /\
    argmax_run 0 (Tn 10 (t_shape bits) (flat_map encode32 (t_data bits))) = SOk (filled (Tn 5 [] [1])) /\
    ~ first_max float_greater 2 (fun k => elt bits [k]) 1.
Proof.
  exists (Tn 10 [2] [3212836864; 3221225472]). split; [split; [constructor; [lia|constructor]|reflexivity]|].
  split; [reflexivity|]. split; [vm_compute; reflexivity|]. split; [vm_compute; reflexivity|]. split; [vm_compute; reflexivity|].
  intros (_ & v & Ev & H & _). destruct (H 0 ltac:(lia)) as (w & Ew & G).
  cbn in Ev, Ew. injection Ev as <-. injection Ew as <-. vm_compute in G. discriminate.
Qed.
Print Assumptions C43_negative_floats_refuted.

(** INT64 [5; 7; 1] is read as the words 5, 0, 7: it answers 2, the smallest *)
Theorem C43_int64_refuted :
  argmax_run 0 (Tn 7 [3] (flat_map (fun v => encode32 v ++ encode32 (v / 2^32)) [5; 7; 1])) = SOk (filled (Tn 5 [] [2])).
Proof. vm_compute. reflexivity. Qed.
Print Assumptions C43_int64_refuted.

(** Types of fewer than four bytes: it reads outside its input, for all
    shapes and all data *)
Theorem C43_short_types_refuted dim (x : tensor Z) S d T bytes :
  t_shape x = S ++ d :: T -> positive_shape (S ++ d :: T) -> axis_of dim (length (t_shape x)) (length S) ->
  bytes < 4 -> Z.of_nat (length (t_data x)) = bytes * elements (t_shape x) -> argmax_run dim x = SUndef.
Proof.
  intros E P A B L. apply (argmax_short dim x S d T); auto. rewrite L. assert (0 < elements (t_shape x)) by (rewrite E; now apply elements_pos). nia.
Qed.
Print Assumptions C43_short_types_refuted.

(** an axis that is not there is refused, by all four *)
Theorem C43_axis_refused dim (x : tensor Z) : (forall axis, ~ axis_of dim (length (t_shape x)) axis) -> argmax_run dim x = SErr.
Proof. intros H. unfold argmax_run. now rewrite fix_dim_err. Qed.
Print Assumptions C43_axis_refused.

Example C43_example :
  axis_of (-1) 2 1 /\ Forall is_int32 [3; -1; 7; 7; -5; -5; -6; -9] /\
  argmax_run (-1) (Tn 5 [2; 4] (flat_map encode32 [3; -1; 7; 7; -5; -5; -6; -9])) = SOk (filled (Tn 5 [2] [2; 0])) /\
  argmax_run 0 (Tn 5 [2; 4] (flat_map encode32 [3; -1; 7; 7; -5; -5; -6; -9])) = SOk (filled (Tn 5 [4] [0; 0; 0; 0])) /\
  argmax_run (-3) (Tn 5 [2; 4] (flat_map encode32 [3; -1; 7; 7; -5; -5; -6; -9])) = SErr.
Proof.
  split; [split; [lia|right; lia]|]. split; [repeat (constructor; [unfold is_int32; lia|]); constructor|].
  split; [vm_compute; reflexivity|]. split; vm_compute; reflexivity.
Qed.

(** ** C83: Max holds the greatest value along the axis: for all shapes,
    axes, values and strict weak orders *)
Theorem C83_max {A} (gt : A -> A -> bool) (zero : A) dim keep_dims (x : tensor A) S d T : strict_weak gt ->
  wf x -> t_shape x = S ++ d :: T -> axis_of dim (length (t_shape x)) (length S) -> 0 < d -> tile_supports (t_dtype x) = true ->
  exists out, max_run gt zero dim keep_dims x = SOk (filled out) /\ wf out /\ t_dtype out = t_dtype x /\
    reduced (greatest gt) S [d] T (if keep_dims then [d] else []) x out.
Proof. intros. now apply max_ok. Qed.
Print Assumptions C83_max.

Theorem C83_axis_refused {A} (gt : A -> A -> bool) (zero : A) dim keep_dims (x : tensor A) :
  (forall axis, ~ axis_of dim (length (t_shape x)) axis) -> max_run gt zero dim keep_dims x = SErr.
Proof. intros H. unfold max_run. now rewrite fix_dim_err. Qed.
Print Assumptions C83_axis_refused.

Example C83_example :
  strict_weak Z.gtb /\
  max_run Z.gtb 0 1 true (Tn 5 [2; 2; 2] [1; 2; 3; 0; -5; -6; -7; -4]) = SOk (filled (Tn 5 [2; 1; 2] [3; 2; -5; -4])) /\
  max_run Z.gtb 0 (-3) false (Tn 5 [2; 2; 2] [1; 2; 3; 0; -5; -6; -7; -4]) = SOk (filled (Tn 5 [2; 2] [1; 2; 3; 0])).
Proof.
  split.
  - split; intros *; rewrite !Z.gtb_ltb; intros; rewrite ?Z.ltb_ge, ?Z.ltb_lt in *; lia.
  - split; vm_compute; reflexivity.
Qed.

(** ** C84: ReduceSum and ReduceMean hold, for each place outside the reduced
    axes, the sum of the values over them, added in the order of their
    indices from zero, and the quotient by their number: for all shapes,
    axes, values and additions *)
Theorem C84_sum {A} (add : A -> A -> A) (zero : A) dim keep_dims (x : tensor A) S d T :
  wf x -> t_shape x = S ++ d :: T -> axis_of dim (length (t_shape x)) (length S) -> tile_supports (t_dtype x) = true ->
  exists out, reduce_sum_run add zero dim keep_dims x = SOk (filled out) /\ wf out /\ t_dtype out = t_dtype x /\
    reduced (fun vs v => v = fold_left add vs zero) S [d] T (if keep_dims then [d] else []) x out.
Proof. intros. now apply reduce_sum_ok. Qed.
Print Assumptions C84_sum.

Theorem C84_axis_refused {A} (add : A -> A -> A) (zero : A) dim keep_dims (x : tensor A) :
  (forall axis, ~ axis_of dim (length (t_shape x)) axis) -> reduce_sum_run add zero dim keep_dims x = SErr.
Proof. intros H. unfold reduce_sum_run. now rewrite fix_dim_err. Qed.
Print Assumptions C84_axis_refused.

(** the axes all counted from the front, or all from the back *)
Theorem C84_mean_partial {A} (add : A -> A -> A) (div : A -> Z -> A) (zero : A) dims keep_dims (x : tensor A) S R T :
  wf x -> t_shape x = S ++ R ++ T -> R <> [] -> block_dims dims (length (t_shape x)) (length S) (length R) ->
  tile_supports (t_dtype x) = true -> (integer_dtype (t_dtype x) = true -> elements R <> 0) ->
  exists out, reduce_mean_run add div zero dims keep_dims x = SOk (filled out) /\ wf out /\ t_dtype out = t_dtype x /\
    reduced (fun vs v => v = div (fold_left add vs zero) (elements R)) S R T (if keep_dims then R else []) x out.
Proof. intros. now apply reduce_mean_ok. Qed.
Print Assumptions C84_mean_partial.

(** The check that the axes are consecutive looks at them before the negative
    ones are resolved: axes [-1; 0] pass as consecutive, and the input is
    read outside its memory. *)
Theorem C84_wrapped_axes_refuted :
  reduce_mean_run Z.add Z.div 0 [-1; 0] true (Tn 5 [2; 3] [1; 2; 3; 4; 5; 6]) = SUndef /\
  (* while the same axes in order, one written from the back, are refused *)
  reduce_mean_run Z.add Z.div 0 [0; -1] true (Tn 5 [2; 3] [1; 2; 3; 4; 5; 6]) = SErr.
Proof. split; vm_compute; reflexivity. Qed.
Print Assumptions C84_wrapped_axes_refuted.

Example C84_example :
  block_dims [-2; -1] 3 1 2 /\
  reduce_mean_run Z.add Z.div 0 [-2; -1] false (Tn 5 [2; 2; 3] [1; 2; 3; 4; 5; 9; 0; 0; 0; 0; 6; 6]) = SOk (filled (Tn 5 [2] [4; 2])) /\
  reduce_mean_run Z.add Z.div 0 [0; 1] true (Tn 5 [2; 2; 3] [1; 2; 3; 4; 5; 9; 0; 0; 0; 0; 6; 6]) = SOk (filled (Tn 5 [1; 1; 3] [1; 3; 4])) /\
  reduce_sum_run Z.add 0 (-2) false (Tn 5 [2; 2; 3] [1; 2; 3; 4; 5; 9; 0; 0; 0; 0; 6; 6]) = SOk (filled (Tn 5 [2; 3] [5; 7; 12; 0; 6; 6])).
Proof. split; [right; reflexivity|]. split; [vm_compute; reflexivity|]. split; vm_compute; reflexivity. Qed.
