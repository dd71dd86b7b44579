(** Properties of strided_slice. *)
From Coq Require Import List ZArith Lia Bool.
From Verif Require Import ShapeModel ShapeSpec KernelBase KernelSpec SliceModel SliceSpec SliceProofs.
Import ListNotations.
Local Open Scope Z_scope.

(** ** C36: the slice of one axis is Python's, except for an end of exactly
    minus the size with a negative step. *)
Theorem C36_axis_partial x begin end_ stride (begin_masked end_masked : bool) : 0 <= x -> stride <> 0 ->
  (stride < 0 -> end_masked = false -> end_ <> - x) ->
  let '(n, start, _) := infer_axis x begin end_ stride begin_masked end_masked in
  0 <= n /\
  py_slice x (unless begin_masked begin) (unless end_masked end_) stride (map (fun k => start + k * stride) (upto n)) /\
  forall k, 0 <= k < n -> 0 <= start + k * stride < x.
Proof.
  intros Hx Hs He. pose proof (infer_axis_ok x begin end_ stride begin_masked end_masked Hx Hs) as H.
  destruct (infer_axis x begin end_ stride begin_masked end_masked) as [[n b'] e'].
  destruct H as (H1 & H2 & H3). split; [exact H1|]. split; [|exact H3].
  unfold axis_indices, code_end in H2. unfold unless at 2. destruct end_masked; [exact H2|].
  destruct (Z.ltb_spec stride 0); destruct (Z.eqb_spec end_ (- x)); cbn [andb] in H2; auto.
  exfalso. now apply He.
Qed.
Print Assumptions C36_axis_partial.

(** In the remaining case the element 0 is included too. *)
Theorem C36_axis_refuted : exists x begin end_ stride, 0 < x /\ stride <> 0 /\
  let '(n, start, _) := infer_axis x begin end_ stride false false in
  ~ py_slice x (Some begin) (Some end_) stride (map (fun k => start + k * stride) (upto n)).
Proof.
  exists 3, 2, (-3), (-1). split; [lia|]. split; [lia|]. cbn [infer_axis]. intros [_ H]. destruct (H 2 ltac:(lia)) as [H2 _].
  specialize (H2 eq_refl). discriminate H2.
Qed.
Print Assumptions C36_axis_refuted.

(** Python's slice is one list. *)
Theorem C36_determined n b e step l l' : py_slice n b e step l -> py_slice n b e step l' -> l = l'.
Proof.
  intros [H1 H2] [H1' H2']. assert (L : length l = length l').
  { assert (A : forall k, (k < length l)%nat <-> (k < length l')%nat).
    { intros k. specialize (H2 (Z.of_nat k) ltac:(lia)). specialize (H2' (Z.of_nat k) ltac:(lia)).
      destruct (0 <? step); lia. }
    pose proof (A (length l)). pose proof (A (length l')). lia. }
  apply (nth_ext _ _ 0 0 L). intros k Hk. rewrite H1, H1' by lia. reflexivity.
Qed.
Print Assumptions C36_determined.

(** The whole operator: every sliced axis keeps Python's indices, the
    remaining axes are kept whole; every output element is written. *)
Theorem C36_tensor_partial {A} (x : tensor A) begin end_ stride begin_mask end_mask : wf x ->
  length end_ = length begin -> length stride = length begin -> (0 < length begin <= length (t_shape x))%nat ->
  Forall (fun s => s <> 0) stride ->
  (forall j, (j < length begin)%nat -> nth j stride 0 < 0 -> Z.testbit end_mask (Z.of_nat j) = false ->
     nth j end_ 0 <> - nth j (t_shape x) 0) ->
  exists out sel, slice_run begin end_ stride begin_mask end_mask 0 0 0 x = SOk (filled out) /\ wf out /\
    length sel = length (t_shape x) /\
    (forall j, (j < length begin)%nat ->
       py_slice (nth j (t_shape x) 0) (unless (Z.testbit begin_mask (Z.of_nat j)) (nth j begin 0))
         (unless (Z.testbit end_mask (Z.of_nat j)) (nth j end_ 0)) (nth j stride 0) (nth j sel [])) /\
    (forall j, (length begin <= j < length (t_shape x))%nat -> nth j sel [] = upto (nth j (t_shape x) 0)) /\
    selected sel x out.
Proof.
  intros W L1 L2 L3 Hs He. destruct (slice_ok x begin end_ stride begin_mask end_mask W L1 L2 L3 Hs)
    as (out & sel & E & Wo & (K1 & K2 & K3) & S).
  exists out, sel. split; [exact E|]. split; [exact Wo|]. split; [exact K1|]. split; [|split; [exact K3|exact S]].
  intros j Hj. specialize (K2 j Hj). specialize (He j Hj). unfold end_of, code_end, bit in K2.
  unfold unless at 2. destruct (Z.testbit end_mask (Z.of_nat j)); [exact K2|].
  destruct (Z.ltb_spec (nth j stride 0) 0); destruct (Z.eqb_spec (nth j end_ 0) (- nth j (t_shape x) 0)); cbn [andb] in K2; auto.
  exfalso. now apply He.
Qed.
Print Assumptions C36_tensor_partial.

(** Slices that do not fit are refused. *)
Theorem C36_refused {A} (x : tensor A) begin end_ stride begin_mask end_mask :
  length end_ <> length begin \/ length stride <> length begin \/ length begin = 0%nat \/
  (length (t_shape x) < length begin)%nat ->
  slice_run begin end_ stride begin_mask end_mask 0 0 0 x = SErr.
Proof.
  intros H. unfold slice_run, infer_slice.
  destruct (Nat.eqb_spec (length begin) (length end_)) as [E1|E1]; [|reflexivity].
  destruct (Nat.eqb_spec (length begin) (length stride)) as [E2|E2]; [|reflexivity]. cbn [andb negb].
  destruct (Nat.eqb_spec (length begin) 0); [reflexivity|].
  rewrite no_ellipsis. cbn [Nat.ltb Nat.leb Nat.eqb]. unfold infer_rest. rewrite no_new_axes.
  destruct (Nat.ltb_spec (length begin) (length (t_shape x))); [lia|].
  destruct (Nat.eqb_spec (length (t_shape x)) (length begin)); [lia|]. reflexivity.
Qed.
Print Assumptions C36_refused.

(** A zero step is not refused: the axis comes out empty. *)
Theorem C36_zero_step_refuted : exists (x : tensor Z) begin end_,
  slice_run [begin] [end_] [0] 0 0 0 0 0 x = SOk (filled (Tn (t_dtype x) [0] [])).
Proof. exists (Tn 10 [3] [5; 6; 7]), 0, 3. reflexivity. Qed.
Print Assumptions C36_zero_step_refuted.

Example C36_example_1 : slice_run [1; -1] [10; 0] [1; -2] 0 0 0 0 0 (Tn 10 [3; 4] [0; 1; 2; 3; 4; 5; 6; 7; 8; 9; 10; 11])
  = SOk (filled (Tn 10 [2; 2] [7; 5; 11; 9])).
Proof. reflexivity. Qed.
Example C36_example_2 : slice_run [1] [3] [1] 0 0 0 0 0 (Tn 10 [3; 2; 2] [0; 1; 2; 3; 4; 5; 6; 7; 8; 9; 10; 11])
  = SOk (filled (Tn 10 [2; 2; 2] [4; 5; 6; 7; 8; 9; 10; 11])).
Proof. reflexivity. Qed.
Example C36_example_mask : slice_run [7] [7] [-1] 1 1 0 0 0 (Tn 10 [3] [0; 1; 2]) = SOk (filled (Tn 10 [3] [2; 1; 0])).
Proof. reflexivity. Qed.

(** ** C77: the ellipsis, new-axis and shrink masks do not behave like the
    indexing notation. *)
(** x[0:1, ..., 0:1] on a matrix: numpy gives [1; 1], here a third axis *)
Theorem C77_ellipsis_refuted : exists (x : tensor Z), length (t_shape x) = 2%nat /\
  slice_run [0; 0; 0] [1; 0; 1] [1; 1; 1] 0 0 2 0 0 x = SOk (filled (Tn (t_dtype x) [1; 1; 1] (firstn 1 (t_data x)))).
Proof. exists (Tn 10 [2; 2] [5; 6; 7; 8]). split; reflexivity. Qed.
Print Assumptions C77_ellipsis_refuted.
(** too few axes for the slices around an ellipsis: undefined, not refused *)
Theorem C77_ellipsis_undefined : exists (x : tensor Z), wf x /\
  slice_run [0; 0; 0] [1; 1; 1] [1; 1; 1] 0 0 2 0 0 x = SUndef.
Proof. exists (Tn 10 [2] [5; 6]). split; [split; [repeat constructor; lia|reflexivity]|reflexivity]. Qed.
Print Assumptions C77_ellipsis_undefined.
(** x[newaxis] encoded as begin = end = 0 with the new-axis bit loses all
    elements *)
Theorem C77_new_axis_refuted : exists (x : tensor Z), t_data x <> [] /\
  slice_run [0] [0] [1] 0 0 0 1 0 x = SOk (filled (Tn (t_dtype x) [0; 2] [])).
Proof. exists (Tn 10 [2] [5; 6]). split; [discriminate|reflexivity]. Qed.
Print Assumptions C77_new_axis_refuted.
(** x[-1] encoded as begin = -1, end = 0 with the shrink bit is refused *)
Theorem C77_shrink_refuted : exists (x : tensor Z), wf x /\ t_data x <> [] /\
  slice_run [-1] [0] [1] 0 0 0 0 1 x = SErr.
Proof. exists (Tn 10 [2] [5; 6]). split; [split; [repeat constructor; lia|reflexivity]|]. split; [discriminate|reflexivity]. Qed.
Print Assumptions C77_shrink_refuted.
Example C77_works : slice_run [0; 1] [0; 2] [1; 1] 0 0 1 0 2 (Tn 10 [2; 2; 2] [0; 1; 2; 3; 4; 5; 6; 7])
  = SOk (filled (Tn 10 [2; 2] [1; 3; 5; 7])).
Proof. reflexivity. Qed.
