(** Properties of gather. *)
From Coq Require Import List ZArith Lia.
From Verif Require Import ShapeModel ShapeSpec KernelBase KernelSpec GatherModel GatherSpec GatherProofs ConcatProofs.
Import ListNotations.
Local Open Scope Z_scope.

(** ** C38: gather picks the indexed slices; negative indices count from the
    end, provided the axis was given as a non-negative number. *)
Theorem C38_gather_partial {A} m_axis axis (x : tensor A) (indices : tensor Z) : wf x -> wf indices ->
  axis_of m_axis (length (t_shape x)) axis ->
  (forall k, In k (t_data indices) -> 0 <= from_end (nth axis (t_shape x) 0) k < nth axis (t_shape x) 0) ->
  0 <= m_axis \/ Forall (fun k => 0 <= k) (t_data indices) ->
  exists out, gather_run m_axis x indices = SOk (filled out) /\ wf out /\ gathered axis x indices out.
Proof. exact (gather_ok m_axis axis x indices). Qed.
Print Assumptions C38_gather_partial.

(** An axis out of range is refused. *)
Theorem C38_axis_refused {A} m_axis (x : tensor A) (indices : tensor Z) :
  (forall axis, ~ axis_of m_axis (length (t_shape x)) axis) -> gather_run m_axis x indices = SErr.
Proof.
  intros H. unfold gather_run. pose proof (gather_axis_ok (t_shape x) m_axis) as G.
  destruct (gather_axis (t_shape x) m_axis); [exfalso; exact (H _ G)|reflexivity|destruct G].
Qed.
Print Assumptions C38_axis_refused.

(** A negative axis together with a negative index reads outside the shape. *)
Theorem C38_negative_refuted : exists (x : tensor Z) indices axis, wf x /\ wf indices /\ axis_of (-1) (length (t_shape x)) axis /\
  (forall k, In k (t_data indices) -> 0 <= from_end (nth axis (t_shape x) 0) k < nth axis (t_shape x) 0) /\
  gather_run (-1) x indices = SUndef.
Proof.
  exists (Tn 10 [2] [5; 6]), (Tn 5 [1] [-1]), 0%nat.
  split; [split; [repeat constructor; lia|reflexivity]|]. split; [split; [repeat constructor; lia|reflexivity]|].
  split; [split; cbn; lia|]. split; [|reflexivity]. intros k [<-|[]]. cbn. lia.
Qed.
Print Assumptions C38_negative_refuted.

(** An index out of range is not refused: it reads outside the tensor. *)
Theorem C38_range_refuted {A} m_axis axis (x : tensor A) (indices : tensor Z) k : wf x -> 0 <= m_axis ->
  axis_of m_axis (length (t_shape x)) axis -> 0 < elements (t_shape x) ->
  In k (t_data indices) -> ~ (0 <= from_end (nth axis (t_shape x) 0) k < nth axis (t_shape x) 0) ->
  gather_run m_axis x indices = SUndef.
Proof. exact (gather_out_of_range m_axis axis x indices k). Qed.
Print Assumptions C38_range_refuted.
Example C38_range_example : gather_run 1 (Tn 10 [2; 2] [5; 6; 8; 9]) (Tn 5 [1] [2]) = SUndef.
Proof. reflexivity. Qed.

Example C38_example : gather_run 1 (Tn 10 [2; 3; 2] [0; 1; 2; 3; 4; 5; 6; 7; 8; 9; 10; 11]) (Tn 5 [2; 2] [2; -1; 0; 1])
  = SOk (filled (Tn 10 [2; 2; 2; 2] [4; 5; 4; 5; 0; 1; 2; 3; 10; 11; 10; 11; 6; 7; 8; 9])).
Proof. reflexivity. Qed.
Example C38_example_axis : gather_run (-1) (Tn 10 [2; 3] [0; 1; 2; 3; 4; 5]) (Tn 5 [2] [2; 0]) = SOk (filled (Tn 10 [2; 2] [2; 0; 5; 3])).
Proof. reflexivity. Qed.
