(** Properties C08-C12 and C56: shapes, row-major order, packed tensors, slices. *)
From Coq Require Import List ZArith Bool Lia Arith.
From Verif Require Import ShapeModel ShapeSpec ShapeProofs TensorModel TensorSpec TensorProofs.
Import ListNotations.
Local Open Scope Z_scope.

(** ** C08 *)
(** reshape succeeds exactly when the requested shape has at most one
    wildcard and some shape that fits it has the same number of elements; the
    result is that shape. *)
Theorem C08_reshape_ok_iff :
  forall sizes requested s, positive_shape sizes ->
  (reshape sizes requested = SOk s <->
   one_wildcard requested /\ fits requested s /\ elements s = elements sizes).
Proof. exact reshape_ok_iff. Qed.
Print Assumptions C08_reshape_ok_iff.

(** There is at most one such shape, so the wildcard is determined. *)
Theorem C08_reshape_unique :
  forall sizes requested s s', positive_shape sizes ->
  one_wildcard requested -> fits requested s -> elements s = elements sizes ->
  fits requested s' -> elements s' = elements sizes -> s = s'.
Proof.
  intros sizes requested s s' Hp H1 F E F' E'.
  assert (A : reshape sizes requested = SOk s) by (apply reshape_ok_iff; auto).
  assert (B : reshape sizes requested = SOk s') by (apply reshape_ok_iff; auto).
  congruence.
Qed.
Print Assumptions C08_reshape_unique.

(** All other requests are an error, except for a wildcard together with a
    zero, which divides by zero. *)
Theorem C08_reshape_error_partial :
  forall sizes requested, positive_shape sizes ->
  (reshape sizes requested = SUndef <->
   length (filter (fun w => (w <? 0)%Z) requested) = 1%nat /\ In 0 requested).
Proof. exact reshape_undef_iff. Qed.
Print Assumptions C08_reshape_error_partial.

Theorem C08_reshape_error_refuted :
  exists sizes requested, positive_shape sizes /\ reshape sizes requested = SUndef.
Proof. exists [2; 3], [0; -1]. split; [repeat constructor|reflexivity]. Qed.
Print Assumptions C08_reshape_error_refuted.

Example reshape_wildcard : reshape [2; 3; 4] [4; -7; 2] = SOk [4; 3; 2] /\ reshape [2; 3; 4] [5; -1] = SErr
  /\ reshape [2; 3; 4] [-1; 2; -1] = SErr.
Proof. vm_compute. auto. Qed.

(** ** C09 *)
Theorem C09_flatten :
  forall sizes dim,
  length (flatten sizes dim) = S (Z.to_nat dim) /\
  elements (flatten sizes dim) = elements sizes /\
  forall i, (i < Z.to_nat dim)%nat -> nth i (flatten sizes dim) 1 = nth i sizes 1.
Proof. intros. split; [apply flatten_length|]. split; [apply flatten_elements|]. intros. now apply flatten_prefix. Qed.
Print Assumptions C09_flatten.

Example flatten_ex : flatten [2; 3; 4; 5] 2 = [2; 3; 20] /\ flatten [2; 3] 4 = [2; 3; 1; 1; 1].
Proof. vm_compute. auto. Qed.

(** ** C10 *)
Theorem C10_to_index_is_position :
  forall shape coordinate, inside shape coordinate ->
  to_index shape coordinate = SOk (position shape coordinate) /\
  0 <= position shape coordinate < elements shape.
Proof.
  intros shape c H. split; [|now apply position_bound].
  pose proof (inside_length _ _ H) as L. rewrite to_index_ok by lia.
  now rewrite L, Nat.sub_diag.
Qed.
Print Assumptions C10_to_index_is_position.

Theorem C10_to_coordinate_inverse :
  forall shape i, positive_shape shape -> 0 <= i < elements shape ->
  exists c, to_coordinate shape i = SOk c /\ inside shape c /\ to_index shape c = SOk i.
Proof.
  intros shape i Hp Hi. destruct (to_coordinate_ok shape i Hp Hi) as (c & E & I & P).
  exists c. split; auto. split; auto. rewrite <- P. now apply C10_to_index_is_position.
Qed.
Print Assumptions C10_to_coordinate_inverse.

Theorem C10_to_index_inverse :
  forall shape c, inside shape c ->
  exists i, to_index shape c = SOk i /\ to_coordinate shape i = SOk c.
Proof.
  intros shape c H. exists (position shape c). split; [now apply C10_to_index_is_position|].
  destruct (to_coordinate_ok shape (position shape c) (inside_positive _ _ H) (position_bound _ _ H)) as (c' & E & I & P).
  rewrite E. f_equal. now apply (position_inj shape).
Qed.
Print Assumptions C10_to_index_inverse.

(** Missing leading entries count as zero. *)
Theorem C10_short_coordinate :
  forall lead shape c, inside shape c ->
  to_index (lead ++ shape) c = SOk (position (lead ++ shape) (start lead ++ c)).
Proof.
  intros lead shape c H. pose proof (inside_length _ _ H) as L.
  rewrite to_index_ok by (rewrite app_length; lia).
  rewrite app_length, L. replace (length lead + length c - length c)%nat with (length lead) by lia.
  rewrite skipn_app, skipn_all, Nat.sub_diag. simpl. f_equal.
  induction lead as [|d lead IH]; auto.
Qed.
Print Assumptions C10_short_coordinate.

Theorem C10_count : forall shape, hype_count shape = elements shape.
Proof. exact hype_count_ok. Qed.
Print Assumptions C10_count.

Example index_ex : to_index [2; 3; 4] [1; 2; 3] = SOk 23 /\ to_coordinate [2; 3; 4] 23 = SOk [1; 2; 3] /\
  inside [2; 3; 4] [1; 2; 3] /\ positive_shape [2; 3; 4].
Proof. split; [reflexivity|]. split; [reflexivity|]. split; repeat constructor; lia. Qed.

(** ** C11 *)
Theorem C11_iterator_visits_in_order :
  forall shape k, positive_shape shape ->
  inside shape (times k (increase shape) (start shape)) /\
  position shape (times k (increase shape) (start shape)) = Z.of_nat k mod elements shape.
Proof. exact iterate_ok. Qed.
Print Assumptions C11_iterator_visits_in_order.

Theorem C11_iterator_wraps :
  forall shape, positive_shape shape ->
  times (Z.to_nat (elements shape)) (increase shape) (start shape) = start shape.
Proof. exact iterate_wraps. Qed.
Print Assumptions C11_iterator_wraps.

Theorem C11_decrement_undoes :
  forall shape c, inside shape c -> decrease shape (increase shape c) = c /\ increase shape (decrease shape c) = c.
Proof. exact increase_decrease. Qed.
Print Assumptions C11_decrement_undoes.

Example iterate_ex : times 5 (increase [2; 3]) (start [2; 3]) = [1; 2] /\ times 6 (increase [2; 3]) (start [2; 3]) = [0; 0]
  /\ decrease [2; 3] [1; 0] = [0; 2].
Proof. vm_compute. auto. Qed.

(** ** C12 *)
(** After any history of pack (of at least one plain tensor), field
    assignment and refield calls, the tensor unpacks to what the list
    semantics says, and reading a field (negative indices included) reads
    that list. *)
Theorem C12_packed_tensor_histories_partial :
  forall (P : Type) (empty first : P) (history : list (lcall P)),
  Forall (fun c => forall l, c = LPack l -> l <> []) history ->
  let t := trun empty (simple first) (map concrete history) in
  let l := lrun empty [first] history in
  unpack t = map simple l /\ fields_count t = length l /\
  forall o, field t o = match slot (length l) o with
                        | Some i => match nth_error l i with Some x => Some (simple x) | None => None end
                        | None => None
                        end.
Proof.
  intros P empty first history H t l.
  assert (R : represents t l) by (apply run_ok; [reflexivity|exact H]).
  split; [exact R|]. split.
  - pose proof (f_equal (@length _) R) as E. rewrite map_length in E. exact E.
  - intros o. now apply field_ok.
Qed.
Print Assumptions C12_packed_tensor_histories_partial.

(** Packing nothing leaves the old fields in place. *)
Theorem C12_pack_nothing_refuted :
  exists (history : list (lcall Z)),
    unpack (trun 0 (simple 7) (map concrete history)) <> map simple (lrun 0 [7] history) /\
    lrun 0 [7] history = [0] /\
    fields_count (trun 0 (simple 7) (map concrete history)) = 3%nat.
Proof.
  exists [LPack [1; 2; 3]; LPack []]. vm_compute. split; [discriminate|auto].
Qed.
Print Assumptions C12_pack_nothing_refuted.

(** Packing a tensor that is itself packed in first place loses its fields. *)
Theorem C12_pack_packed_first_refuted :
  exists (t : tensor Z) (a b : tensor Z),
    fields_count a = 2%nat /\
    (exists a', field (pack 0 t [a; b]) 0 = Some a' /\ a' <> a).
Proof.
  exists (simple 0), (T 1 [simple 2]), (simple 3). split; [reflexivity|].
  eexists. split; [vm_compute; reflexivity|discriminate].
Qed.
Print Assumptions C12_pack_packed_first_refuted.

Example history_ex :
  lrun 0 [7] [LPack [1; 2; 3]; LSet (-1) 9; LRefield 5; LSet 0 4; LSet 9 1] = [4; 2; 9; 0; 0].
Proof. vm_compute. reflexivity. Qed.

(** ** C56 *)
Theorem C56_slice :
  forall (A : Type) (sizes : list Z) (data : list A) n rest b e,
  sizes = n :: rest -> positive_shape sizes -> Z.of_nat (length data) = elements sizes ->
  0 <= b < e -> e <= n ->
  exists part, slice sizes data b e = SOk ((e - b) :: rest, part) /\
    Z.of_nat (length part) = elements ((e - b) :: rest) /\
    forall i, (i < length part)%nat ->
      nth_error part i = nth_error data (Z.to_nat (b * elements rest) + i).
Proof. exact @slice_ok. Qed.
Print Assumptions C56_slice.

(** An end beyond the first size is not noticed. *)
Theorem C56_slice_out_of_range_refuted :
  exists (sizes : list Z) (data : list Z), positive_shape sizes /\ Z.of_nat (length data) = elements sizes /\
    slice sizes data 1 3 = SUndef.
Proof. exists [2; 2], [1; 2; 3; 4]. split; [repeat constructor|]. split; reflexivity. Qed.
Print Assumptions C56_slice_out_of_range_refuted.

Example slice_ex : slice [3; 2] [1; 2; 3; 4; 5; 6] 1 3 = SOk ([2; 2], [3; 4; 5; 6]).
Proof. reflexivity. Qed.

(** ** C57 *)
Theorem C57_has_shape :
  forall sizes, Forall (fun d => 0 <= d) sizes -> forall requested, has_shape sizes requested = true <-> fits requested sizes.
Proof. exact has_shape_iff. Qed.
Print Assumptions C57_has_shape.
