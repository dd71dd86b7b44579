(** Properties of where, broadcast and range. *)
From Coq Require Import List ZArith Lia Bool.
From Verif Require Import ShapeModel ShapeSpec ShapeProofs KernelBase KernelSpec KernelProofs TileModel EltwiseModel EltwiseSpec WhereModel WhereSpec WhereProofs.
Import ListNotations.
Local Open Scope Z_scope.

(** ** C102: where takes each element from its second or third argument,
    after broadcasting, and refuses exactly the shapes that do not broadcast.

    Missing for the full statement: axes of size zero and conditions that are
    not bytes; see the refutations. *)
Theorem C102_where_partial {A} (cond : tensor Z) (l r : tensor A) : wf cond -> wf l -> wf r ->
  positive_shape (t_shape cond) -> positive_shape (t_shape l) -> positive_shape (t_shape r) ->
  t_dtype l = t_dtype r -> tile_supports (t_dtype l) = true ->
  t_dtype cond = 21 \/ Forall (fun b => 0 <= b <= 255) (t_data cond) ->
  match where_run cond l r with
  | SOk m => exists out, m = filled out /\ wf out /\ selected cond l r out
  | SErr => forall o, ~ broadcast_of [t_shape cond; t_shape l; t_shape r] o
  | SUndef => False
  end.
Proof.
  intros Wc Wl Wr Pc Pl Pr D T B. pose proof (where_ok cond l r Wc Wl Wr Pc Pl Pr D T) as H.
  destruct (where_run cond l r) as [m| |]; auto. destruct H as (out & -> & Wo & Do & Br & H).
  exists out. split; [reflexivity|]. split; [exact Wo|]. split; [exact Do|]. split; [exact Br|].
  intros c Hc. destruct (H c Hc) as (b & a & a' & Eb & Ea & Ea' & Eo). exists b, a, a'.
  split; [exact Eb|]. split; [exact Ea|]. split; [exact Ea'|]. rewrite Eo. f_equal. unfold as_boolean.
  destruct B as [->|B]; [change (21 =? 21) with true; cbv iota; now destruct (b =? 0)|].
  assert (Hb : 0 <= b <= 255).
  { unfold elt in Eb. apply nth_error_In in Eb. rewrite Forall_forall in B. now apply B. }
  replace (b mod 256) with b by (symmetry; apply Z.mod_small; lia).
  destruct (t_dtype cond =? 21); now destruct (b =? 0).
Qed.
Print Assumptions C102_where_partial.

(** Arguments that broadcast are accepted, and the result does not depend on
    anything but the arguments: there is only one tensor with that meaning. *)
Theorem C102_accepted {A} (cond : tensor Z) (l r : tensor A) o : wf cond -> wf l -> wf r ->
  positive_shape (t_shape cond) -> positive_shape (t_shape l) -> positive_shape (t_shape r) ->
  t_dtype l = t_dtype r -> tile_supports (t_dtype l) = true -> t_dtype cond = 21 ->
  broadcast_of [t_shape cond; t_shape l; t_shape r] o ->
  exists out, where_run cond l r = SOk (filled out) /\ t_shape out = o /\ selected cond l r out /\
    forall out', wf out' -> selected cond l r out' -> out' = out.
Proof.
  intros Wc Wl Wr Pc Pl Pr D T B Ho.
  pose proof (C102_where_partial cond l r Wc Wl Wr Pc Pl Pr D T (or_introl B)) as H.
  destruct (where_run cond l r) as [m| |]; [|now elim (H o)|contradiction].
  destruct H as (out & -> & Wo & Sel). exists out. split; [reflexivity|].
  destruct Sel as (Do & Br & El). split; [exact (broadcast_of_unique _ _ _ Br Ho)|].
  split; [split; auto|]. intros out' Wo' (Do' & Br' & El').
  pose proof (broadcast_of_unique _ _ _ Br' Br) as Es.
  apply tensor_ext; auto; [congruence|]. intros c Hc. rewrite Es in El'. 
  destruct (El' c ltac:(congruence)) as (b & x & y & E1 & E2 & E3 & ->).
  destruct (El c ltac:(congruence)) as (b' & x' & y' & E1' & E2' & E3' & ->).
  rewrite E1 in E1'. rewrite E2 in E2'. rewrite E3 in E3'. now injection E1' as <-; injection E2' as <-; injection E3' as <-.
Qed.
Print Assumptions C102_accepted.

(** Operands of different types are refused, whatever their shapes. *)
Theorem C102_types {A} (cond : tensor Z) (l r : tensor A) : t_dtype l <> t_dtype r -> where_run cond l r = SErr.
Proof. intros H. unfold where_run. destruct (Z.eqb_spec (t_dtype l) (t_dtype r)); [contradiction|reflexivity]. Qed.
Print Assumptions C102_types.

(** A condition that is not zero but whose low byte is counts as false. *)
Theorem C102_low_byte_refuted : exists (cond l r : tensor Z),
  wf cond /\ wf l /\ wf r /\ t_data cond = [256] /\ where_run cond l r = SOk (filled r) /\ ~ selected cond l r r.
Proof.
  exists (Tn 5 [1] [256]), (Tn 10 [1] [7]), (Tn 10 [1] [8]). 
  split; [|split; [|split; [|split; [reflexivity|split; [reflexivity|]]]]];
    try (split; [apply Forall_forall; intros x Hx; cbn in Hx; lia|reflexivity]).
  intros (_ & _ & H). destruct (H [0]) as (b & a & a' & Eb & Ea & Ea' & Eo).
  - constructor; [lia|constructor].
  - cbn in *. injection Eb as <-. injection Ea as <-. injection Ea' as <-. discriminate.
Qed.
Print Assumptions C102_low_byte_refuted.

(** An axis of size zero broadcast with one of size one: the result should be
    empty, the remainder by zero is taken instead. *)
Theorem C102_empty_refuted : exists (cond l r : tensor Z),
  wf cond /\ wf l /\ wf r /\ broadcast_of [t_shape cond; t_shape l; t_shape r] [0] /\ where_run cond l r = SUndef.
Proof.
  exists (Tn 21 [1] [1]), (Tn 10 [0] []), (Tn 10 [1] [8]).
  split; [|split; [|split; [|split; [|reflexivity]]]];
    try (split; [apply Forall_forall; intros x Hx; cbn in Hx; lia|reflexivity]).
  split; [reflexivity|]. intros i Hi. cbn in Hi. assert (i = O) by lia. subst i. split.
  - intros s [<-|[<-|[<-|[]]]]; cbn; auto.
  - exists [0]. split; [right; left; reflexivity|reflexivity].
Qed.
Print Assumptions C102_empty_refuted.

Example C102_example :
  where_run (Tn 21 [2; 1] [1; 0]) (Tn 10 [2; 3] [1; 2; 3; 4; 5; 6]) (Tn 10 [3] [7; 8; 9])
  = SOk (filled (Tn 10 [2; 3] [1; 2; 3; 7; 8; 9])).
Proof. reflexivity. Qed.
Example C102_refused : where_run (Tn 21 [2] [1; 0]) (Tn 10 [3] [1; 2; 3]) (Tn 10 [1] [7]) = SErr.
Proof. reflexivity. Qed.

(** ** C103: broadcast repeats its argument along the axes of size one, and
    refuses exactly the shapes that do not broadcast.

    Missing for the full statement: axes of size zero; see the refutations. *)
Theorem C103_broadcast_partial {A} bytes (x : tensor A) shape : wf x -> positive_shape (t_shape x) -> positive_shape shape ->
  In bytes [1; 2; 4; 8] ->
  match broadcast_op_run bytes x shape with
  | SOk m => exists out, m = filled out /\ wf out /\ spread x shape out
  | SErr => forall o, ~ broadcast_of [t_shape x; shape] o
  | SUndef => False
  end.
Proof. exact (broadcast_op_ok bytes x shape). Qed.
Print Assumptions C103_broadcast_partial.

(** The result is the same whatever the width of the elements, that is
    whichever block copy is used to fill the memory. *)
Theorem C103_width {A} b1 b2 (x : tensor A) shape : wf x -> positive_shape (t_shape x) -> positive_shape shape ->
  In b1 [1; 2; 4; 8] -> In b2 [1; 2; 4; 8] -> broadcast_op_run b1 x shape = broadcast_op_run b2 x shape.
Proof.
  intros W Px Ps H1 H2. pose proof (broadcast_op_ok b1 x shape W Px Ps H1) as E1.
  pose proof (broadcast_op_ok b2 x shape W Px Ps H2) as E2.
  destruct (broadcast_op_run b1 x shape) as [m1| |], (broadcast_op_run b2 x shape) as [m2| |]; try contradiction; auto.
  - destruct E1 as (o1 & -> & W1 & D1 & B1 & P1), E2 as (o2 & -> & W2 & D2 & B2 & P2).
    pose proof (broadcast_of_unique _ _ _ B1 B2) as Es. f_equal. f_equal. apply tensor_ext; auto; [congruence|].
    intros c Hc. rewrite (proj2 (P1 c Hc)). rewrite Es in Hc. now rewrite (proj2 (P2 c Hc)).
  - destruct E1 as (o1 & _ & _ & _ & B1 & _). now elim (E2 (t_shape o1)).
  - destruct E2 as (o2 & _ & _ & _ & B2 & _). now elim (E1 (t_shape o2)).
Qed.
Print Assumptions C103_width.

(** Broadcasting what has been broadcast to the same shape changes nothing. *)
Theorem C103_idempotent {A} bytes (x out : tensor A) shape : wf x -> wf out -> positive_shape (t_shape x) -> positive_shape shape ->
  In bytes [1; 2; 4; 8] -> broadcast_op_run bytes x shape = SOk (filled out) ->
  broadcast_op_run bytes out (t_shape out) = SOk (filled out).
Proof.
  intros W Wo Px Ps Hb E. unfold broadcast_op_run. rewrite Nat.sub_diag.
  unfold front_append_ones. cbn [repeat app]. rewrite (proj2 (EltwiseProofs.shape_eqb_eq _ _) eq_refl). now destruct out.
Qed.
Print Assumptions C103_idempotent.

(** Sizes zero and one: the size should be zero, it is one, and the memory
    is read outside. *)
Theorem C103_empty_refuted :
  broadcast_op_run 4 (Tn 10 [1] [3]) [0] = SOk (filled (Tn 10 [1] [3])) /\ broadcast_of [[1]; [0]] [0] /\
  broadcast_op_run 4 (Tn 10 [0] ([] : list Z)) [1] = SUndef /\ broadcast_of [[0]; [1]] [0].
Proof.
  split; [reflexivity|]. split; [|split; [reflexivity|]].
  - split; [reflexivity|]. intros i Hi. cbn in Hi. assert (i = O) by lia. subst i. split.
    + intros s [<-|[<-|[]]]; cbn; auto.
    + exists [0]. split; [right; left; reflexivity|reflexivity].
  - split; [reflexivity|]. intros i Hi. cbn in Hi. assert (i = O) by lia. subst i. split.
    + intros s [<-|[<-|[]]]; cbn; auto.
    + exists [0]. split; [left; reflexivity|reflexivity].
Qed.
Print Assumptions C103_empty_refuted.

Example C103_example : broadcast_op_run 4 (Tn 10 [2; 1] [5; 6]) [2; 2; 3]
  = SOk (filled (Tn 10 [2; 2; 3] [5; 5; 5; 6; 6; 6; 5; 5; 5; 6; 6; 6])).
Proof. reflexivity. Qed.
Example C103_bytes : broadcast_op_run 1 (Tn 1 [1] [5]) [11] = SOk (filled (Tn 1 [11] [5; 5; 5; 5; 5; 5; 5; 5; 5; 5; 5])).
Proof. reflexivity. Qed.
Example C103_refused : broadcast_op_run 4 (Tn 10 [2] [5; 6]) [3] = SErr.
Proof. reflexivity. Qed.

(** ** C104: range counts from the first number by the step and stops before
    the limit.

    Missing for the full statement: going down by a step that does not divide
    the distance, empty ranges and a step of zero; see the refutations. *)
Theorem C104_range_partial first limit delta : fits32 first -> fits32 limit -> fits32 delta ->
  (0 < delta /\ - delta < limit - first <= 2147483647) \/
  (delta < 0 /\ - 2147483648 < limit - first <= 0 /\ (delta | limit - first)) ->
  exists l, range_run first limit delta = SOk (Tn 5 [Z.of_nat (length l)] l) /\ is_range first limit delta l.
Proof. intros F L D [[H1 H2]|(H1 & H2 & H3)]; [now apply range_up|now apply range_down]. Qed.
Print Assumptions C104_range_partial.

(** Going down by a step that does not divide the distance, the last number
    is always missing. *)
Theorem C104_down_refuted first limit delta : fits32 first -> fits32 limit -> fits32 delta -> delta < 0 ->
  - 2147483648 < limit - first < 0 -> ~ (delta | limit - first) ->
  exists l last, range_run first limit delta = SOk (Tn 5 [Z.of_nat (length l)] l) /\
    is_range first limit delta (l ++ [last]) /\ ~ is_range first limit delta l.
Proof.
  intros F L D N S Nd. destruct (range_down_short first limit delta F L D N S Nd) as (l & last & E & R).
  exists l, last. split; [exact E|]. split; [exact R|]. intros R'. specialize (R (length l)). specialize (R' (length l)).
  rewrite nth_error_app2, Nat.sub_diag in R by lia. cbn in R. destruct R as [[R B]|[R _]]; [|discriminate].
  destruct R' as [[R' _]|[_ B']]; [|contradiction].
  assert (X : nth_error l (length l) = None) by (apply nth_error_None; lia). congruence.
Qed.
Print Assumptions C104_down_refuted.

(** A step of zero divides by zero; an empty range with the first number far
    beyond the limit fails; one with a negative step is not empty. *)
Theorem C104_edges_refuted : (forall first limit, fits32 (limit - first) -> range_run first limit 0 = SUndef) /\
  (range_run 5 0 2 = SErr /\ is_range 5 0 2 []) /\
  (range_run 0 1 (-5) = SOk (Tn 5 [1] [0]) /\ is_range 0 1 (-5) []).
Proof.
  split; [|split; (split; [reflexivity|])].
  - intros f l H. unfold range_run, range_steps. rewrite int32_ok by exact H. reflexivity.
  - intros i. right. split; [now destruct i|]. unfold before. lia.
  - intros i. right. split; [now destruct i|]. unfold before. lia.
Qed.
Print Assumptions C104_edges_refuted.

Example C104_example : range_run 3 12 4 = SOk (Tn 5 [3] [3; 7; 11]) /\ range_run 9 3 (-3) = SOk (Tn 5 [2] [9; 6]) /\
  range_run 10 3 (-3) = SOk (Tn 5 [2] [10; 7]).
Proof. repeat split. Qed.
