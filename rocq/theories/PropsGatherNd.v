(** Properties of gatherv2, gather_elements and scatter_nd. *)
From Coq Require Import List ZArith Lia.
From Verif Require Import ShapeModel ShapeSpec KernelBase KernelSpec GatherModel GatherNdModel GatherNdSpec GatherNdProofs.
Import ListNotations.
Local Open Scope Z_scope.

(** ** C78: gatherv2 reads the slice each index row points at. *)
Theorem C78_gather_nd {A} (x : tensor A) (indices : tensor Z) lead post many : wf x -> wf indices ->
  t_shape x = lead ++ post -> t_shape indices = many ++ [Z.of_nat (length lead)] -> lead ++ post <> [] ->
  (forall i, inside many i -> exists js, inside lead js /\ row_at indices i js) ->
  exists out, gathernd_run x indices = SOk (filled out) /\ wf out /\ gathered_nd x indices out.
Proof. exact (nd_exec x indices lead post many). Qed.
Print Assumptions C78_gather_nd.

(** Index rows longer than the rank are refused. *)
Theorem C78_refused {A} (x : tensor A) (indices : tensor Z) many a :
  t_shape indices = many ++ [a] -> Z.of_nat (length (t_shape x)) < a -> gathernd_run x indices = SErr.
Proof.
  intros H1 H2. unfold gathernd_run, gathernd_infer. rewrite H1.
  destruct (Nat.eqb (length (t_shape x)) 0); [reflexivity|]. rewrite (app_length many). cbn [length].
  rewrite Nat.add_1_r. cbn [Nat.eqb orb]. rewrite last_last. destruct (Z.ltb_spec (Z.of_nat (length (t_shape x))) a); [reflexivity|lia].
Qed.
Print Assumptions C78_refused.

Example C78_example : gathernd_run (Tn 10 [2; 2; 2] [0; 1; 2; 3; 4; 5; 6; 7]) (Tn 5 [3; 2] [1; 0; 0; 1; 1; 1])
  = SOk (filled (Tn 10 [3; 2] [4; 5; 2; 3; 6; 7])).
Proof. reflexivity. Qed.

(** ** C79: gather_elements takes along an axis, when the index tensor has
    size one there and the shape of the input elsewhere, and the axis is given
    as a non-negative number. *)
Theorem C79_take_along_partial {A} m_axis (x : tensor A) (indices : tensor Z) pre size post : wf x -> wf indices ->
  t_shape x = pre ++ size :: post -> m_axis = Z.of_nat (length pre) -> t_shape indices = pre ++ 1 :: post ->
  (forall k, In k (t_data indices) -> - size <= k < size) ->
  exists out, gather_elements_run m_axis x indices = SOk (filled out) /\ wf out /\ taken_along (length pre) x indices out.
Proof. exact (take_along_ok m_axis x indices pre size post). Qed.
Print Assumptions C79_take_along_partial.

(** More than one index along the axis: elements of the result are never
    written. *)
Theorem C79_elements_refuted : exists (x : tensor Z) indices out, wf x /\ wf indices /\ t_shape indices = t_shape x /\
  (forall k, In k (t_data indices) -> 0 <= k < 2) /\
  gather_elements_run 0 x indices = SOk out /\ In None (t_data out).
Proof.
  exists (Tn 10 [2; 2] [5; 6; 8; 9]), (Tn 5 [2; 2] [1; 0; 0; 1]), (Tn 10 [2; 2] [Some 8; Some 6; None; None]).
  split; [split; [repeat constructor; lia|reflexivity]|]. split; [split; [repeat constructor; lia|reflexivity]|].
  split; [reflexivity|]. split; [cbn; lia|]. split; [reflexivity|]. cbn. auto.
Qed.
Print Assumptions C79_elements_refuted.

(** A negative axis, which the check accepts, reads outside the shape. *)
Theorem C79_negative_axis_refuted {A} axis m_axis (x : tensor A) indices : axis_of m_axis (length (t_shape x)) axis -> m_axis < 0 ->
  gather_elements_run m_axis x indices = SUndef.
Proof.
  intros Ha Hn. unfold gather_elements_run. pose proof (GatherProofs.gather_axis_ok (t_shape x) m_axis) as G.
  destruct (gather_axis (t_shape x) m_axis); [|exfalso; exact (G _ Ha)|destruct G].
  unfold fix_all. destruct (Z.ltb_spec m_axis 0); [reflexivity|lia].
Qed.
Print Assumptions C79_negative_axis_refuted.

Example C79_example : gather_elements_run 1 (Tn 10 [2; 3] [0; 1; 2; 3; 4; 5]) (Tn 5 [2; 1] [2; -2]) = SOk (filled (Tn 10 [2; 1] [2; 4])).
Proof. reflexivity. Qed.

(** ** C80: scatter_nd replaces the indexed rows; later updates win; the other
    rows are copied. *)
Theorem C80_scatter_partial {A} (x updates : tensor A) (indices : tensor Z) d rest n ones : wf x -> wf updates -> wf indices ->
  t_dtype x = t_dtype updates -> t_shape x = d :: rest -> t_shape updates = n :: rest ->
  t_shape indices = n :: ones -> elements ones = 1 ->
  Forall (fun r => 0 <= r < d) (t_data indices) ->
  exists out, scatter_run x indices updates = SOk (filled out) /\ wf out /\ scattered x (t_data indices) updates out.
Proof. exact (scatter_ok x updates indices d rest n ones). Qed.
Print Assumptions C80_scatter_partial.

(** Index rows of more than one number: only one number per row is used, and
    as a flat position. *)
Theorem C80_rows_refuted : exists (x updates : tensor Z) indices out, wf x /\ wf indices /\ wf updates /\
  t_shape indices = [1; 2] /\ t_data indices = [1; 0] /\
  scatter_run x indices updates = SOk (filled out) /\ elt out [0; 1] = elt updates [0] /\ elt out [1; 0] = elt x [1; 0] /\
  elt updates [0] <> elt x [1; 0].
Proof.
  exists (Tn 10 [2; 2] [0; 0; 0; 0]), (Tn 10 [1] [9]), (Tn 5 [1; 2] [1; 0]), (Tn 10 [2; 2] [0; 9; 0; 0]).
  split; [split; [repeat constructor; lia|reflexivity]|]. split; [split; [repeat constructor; lia|reflexivity]|].
  split; [split; [repeat constructor; lia|reflexivity]|].
  split; [reflexivity|]. split; [reflexivity|]. split; [reflexivity|]. split; [reflexivity|]. split; [reflexivity|discriminate].
Qed.
Print Assumptions C80_rows_refuted.

Example C80_example : scatter_run (Tn 10 [3; 2] [0; 1; 2; 3; 4; 5]) (Tn 5 [3; 1] [2; 0; 2]) (Tn 10 [3; 2] [10; 11; 12; 13; 14; 15])
  = SOk (filled (Tn 10 [3; 2] [12; 13; 2; 3; 14; 15])).
Proof. reflexivity. Qed.
