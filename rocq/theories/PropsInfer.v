(** Properties of the static inference of types and shapes. *)
From Coq Require Import List ZArith QArith Bool Lia.
From Verif Require Import ShapeModel KernelBase KernelSpec InferModel InferSpec InferProofs
  TransposeModel TileModel EltwiseModel GatherModel GatherNdModel PadModel BatchModel NmsModel.
From Verif Require ConcatModel AxisModel.
Import ListNotations.
Local Open Scope Z_scope.

(** ** C44: the prototype inferred for the output of an operator, from
    prototypes that describe its inputs, describes the output it computes. *)

(** *** operators for which it always does *)
Theorem C44_gather {A} (axis : Z) (x : tensor A) (idx : tensor Z) (px pi q : proto) (y : raw_tensor A) :
  describes px x -> describes pi idx ->
  infer_gather axis px pi = Some q -> gather_run axis x idx = SOk y -> describes q y.
Proof. apply infer_gather_ok. Qed.
Print Assumptions C44_gather.

Theorem C44_gatherv2 {A} (x : tensor A) (idx : tensor Z) (px pi q : proto) (y : raw_tensor A) :
  describes px x -> describes pi idx ->
  infer_gatherv2 px pi = Some q -> gathernd_run x idx = SOk y -> describes q y.
Proof. apply infer_gatherv2_ok. Qed.
Print Assumptions C44_gatherv2.

Theorem C44_argmax (dim : Z) (x : tensor Z) (p q : proto) (y : raw_tensor Z) : describes p x ->
  infer_argmax dim p = Some q -> AxisModel.argmax_run dim x = SOk y -> describes q y.
Proof. intros [_ S]. exact (infer_argmax_ok dim x p q y 0 S). Qed.
Print Assumptions C44_argmax.

Theorem C44_max {A} (gt : A -> A -> bool) (zero : A) (dim : Z) (keep : bool) (x : tensor A) (p q : proto) (y : raw_tensor A) :
  describes p x -> infer_reduction [dim] keep p = Some q -> AxisModel.max_run gt zero dim keep x = SOk y -> describes q y.
Proof. apply infer_max_ok. Qed.
Print Assumptions C44_max.

Theorem C44_reduce_sum {A} (add : A -> A -> A) (zero : A) (dim : Z) (keep : bool) (x : tensor A) (p q : proto) (y : raw_tensor A) :
  describes p x -> infer_reduction [dim] keep p = Some q ->
  AxisModel.reduce_sum_run add zero dim keep x = SOk y -> describes q y.
Proof. apply infer_sum_ok. Qed.
Print Assumptions C44_reduce_sum.

Theorem C44_batch_to_space {A} (ct cb cl cr bh bw : Z) (x : tensor A) (p q : proto) (y : raw_tensor A) :
  describes p x -> infer_b2s ct cb cl cr bh bw p = Some q -> b2s_run ct cb cl cr bh bw x = SOk y -> describes q y.
Proof. apply infer_b2s_ok. Qed.
Print Assumptions C44_batch_to_space.

Theorem C44_space_to_batch {A} (zero : A) (pt pb pl pr bh bw : Z) (x : tensor A) (p q : proto) (y : raw_tensor A) :
  describes p x -> infer_s2b pt pb pl pr bh bw p = Some q -> s2b_run zero pt pb pl pr bh bw x = SOk y -> describes q y.
Proof. apply infer_s2b_ok. Qed.
Print Assumptions C44_space_to_batch.

Theorem C44_tile {A} (repeats : list Z) (x : tensor A) (p q : proto) (y : raw_tensor A) :
  describes p x -> infer_tile repeats p = Some q -> tile_run repeats x = SOk y -> describes q y.
Proof. apply infer_tile_ok. Qed.
Print Assumptions C44_tile.

(** *** transpose: only with a permutation; without one the inferred shape is
    that of a scalar *)
Theorem C44_transpose_partial {A} (is_float : bool) (perm : list Z) (x : tensor A) (p q : proto) (y : raw_tensor A) :
  describes p x -> perm <> [] ->
  infer_transpose (Some perm) p = Some q -> transpose_run is_float (Some perm) x = SOk y -> describes q y.
Proof. intros D N I R. exact (infer_transpose_ok is_float perm x p q y D I N R). Qed.
Print Assumptions C44_transpose_partial.

Definition matrix : tensor Z := Tn 5 [2; 3] [1; 2; 3; 4; 5; 6].
Theorem C44_transpose_default_refuted : exists (p q : proto) (y : raw_tensor Z),
  describes p matrix /\ infer_transpose None p = Some q /\ transpose_run false None matrix = SOk y /\ ~ describes q y.
Proof.
  eexists (Proto 5 [2; 3]), (Proto 5 []), _.
  split; [split; [reflexivity|repeat constructor; now right]|]. split; [reflexivity|]. split; [vm_compute; reflexivity|].
  intros [_ S]. inversion S.
Qed.
Print Assumptions C44_transpose_default_refuted.

(** *** element-wise operators: the shape always, the type if the operands'
    types are the same *)
Theorem C44_eltwise_partial {A} (k : kernel A) (cast : Z -> Z -> A -> A) (l r : tensor A) (pl pr q : proto) (y : raw_tensor A) :
  describes pl l -> describes pr r -> infer_eltwise pl pr = Some q -> eltwise_run k cast l r = SOk y ->
  shape_ok (p_shape q) (t_shape y) /\ (t_dtype l = t_dtype r -> describes q y).
Proof.
  intros Dl Dr I R. destruct (infer_eltwise_ok k cast l r pl pr q y Dl Dr I R) as [S T].
  split; [exact S|]. intros E. split; [exact (T E)|exact S].
Qed.
Print Assumptions C44_eltwise_partial.

Theorem C44_eltwise_type_refuted : exists (l r : tensor Z) (pl pr q : proto) (y : raw_tensor Z),
  describes pl l /\ describes pr r /\ infer_eltwise pl pr = Some q /\
  eltwise_run (add_kernel Z.add) (fun _ _ v => v) l r = SOk y /\ ~ describes q y.
Proof.
  exists (Tn 5 [2] [1; 2]), (Tn 10 [2] [3; 4]), (Proto 5 [2]), (Proto 10 [2]), (Proto 5 [2]), (Tn 10 [2] [Some 4; Some 6]).
  split; [split; [reflexivity|repeat constructor; now right]|]. split; [split; [reflexivity|repeat constructor; now right]|].
  split; [reflexivity|]. split; [vm_compute; reflexivity|]. intros [D _]. discriminate D.
Qed.
Print Assumptions C44_eltwise_type_refuted.

(** *** concat: only if the size of the first input along the axis is known *)
Theorem C44_concat_partial {A} (dim : Z) (n : nat) (xs : list (tensor A)) (p : proto) (ps : list proto) (q : proto) (y : raw_tensor A) :
  Forall2 describes (p :: ps) xs -> axis_of dim (length (p_shape p)) n -> 0 <= nth n (p_shape p) 0 ->
  infer_concat dim (p :: ps) = Some q -> ConcatModel.concat_run dim xs = SOk y -> describes q y.
Proof.
  intros F [N1 N2] K I R. apply (infer_concat_ok dim xs (p :: ps) q y F I R).
  intros p0 ps' E. injection E as <- <-. unfold rank_of.
  
  replace (if dim <? 0 then Z.of_nat (length (p_shape p)) + dim else dim) with (Z.of_nat n)
    by (destruct (Z.ltb_spec dim 0); lia).
  rewrite Nat2Z.id. exact K.
Qed.
Print Assumptions C44_concat_partial.

Theorem C44_concat_refuted : exists (xs : list (tensor Z)) (ps : list proto) (q : proto) (y : raw_tensor Z),
  Forall2 describes ps xs /\ infer_concat 0 ps = Some q /\ ConcatModel.concat_run 0 xs = SOk y /\ ~ describes q y.
Proof.
  exists [Tn 5 [2] [1; 2]; Tn 5 [3] [3; 4; 5]], [Proto 5 [-1]; Proto 5 [3]], (Proto 5 [2]),
    (Tn 5 [5] [Some 1; Some 2; Some 3; Some 4; Some 5]).
  split.
  - constructor; [split; [reflexivity|constructor; [left; lia|constructor]]|].
    constructor; [split; [reflexivity|constructor; [now right|constructor]]|constructor].
  - split; [reflexivity|]. split; [vm_compute; reflexivity|]. intros [_ S]. inversion S as [|? ? ? ? [H|H] _]; lia.
Qed.
Print Assumptions C44_concat_refuted.

(** *** chunk: only if the size along the axis is known; otherwise no field is
    predicted at all *)
Theorem C44_chunk_partial {A} (chunks dim : Z) (n : nat) (x : tensor A) (p : proto) (qs : list proto) (ys : list (raw_tensor A)) :
  describes p x -> axis_of dim (length (p_shape p)) n -> 0 <= nth n (p_shape p) 0 ->
  infer_chunk chunks dim p = Some qs -> ConcatModel.chunk_run chunks dim x = SOk ys -> Forall2 describes qs ys.
Proof.
  intros D [N1 N2] K I R. apply (infer_chunk_ok chunks dim x p qs ys D I R). unfold rank_of.
  
  replace (if dim <? 0 then Z.of_nat (length (p_shape p)) + dim else dim) with (Z.of_nat n)
    by (destruct (Z.ltb_spec dim 0); lia).
  rewrite Nat2Z.id. exact K.
Qed.
Print Assumptions C44_chunk_partial.

Theorem C44_chunk_refuted : exists (p : proto) (qs : list proto) (ys : list (raw_tensor Z)),
  describes p matrix /\ infer_chunk 3 1 p = Some qs /\ ConcatModel.chunk_run 3 1 matrix = SOk ys /\ ~ Forall2 describes qs ys.
Proof.
  eexists (Proto 5 [2; -1]), [], _.
  split; [split; [reflexivity|constructor; [now right|constructor; [left; lia|constructor]]]|].
  split; [reflexivity|]. split; [vm_compute; reflexivity|]. intros S. inversion S.
Qed.
Print Assumptions C44_chunk_refuted.

(** *** reduce_mean: only if the axes all count from the same end *)
Theorem C44_reduce_mean_partial {A} (add : A -> A -> A) (div : A -> Z -> A) (zero : A) (dims : list Z) (keep : bool)
    (x : tensor A) (p q : proto) (y : raw_tensor A) :
  describes p x -> (forall d, In d dims -> 0 <= d) \/ (forall d, In d dims -> d < 0) ->
  infer_reduction dims keep p = Some q -> AxisModel.reduce_mean_run add div zero dims keep x = SOk y -> describes q y.
Proof. apply infer_mean_ok. Qed.
Print Assumptions C44_reduce_mean_partial.

Theorem C44_reduce_mean_refuted : exists (x : tensor Z) (p q : proto) (y : raw_tensor Z),
  describes p x /\ infer_reduction [-1; 0] false p = Some q /\
  AxisModel.reduce_mean_run Z.add Z.quot 0 [-1; 0] false x = SOk y /\ ~ describes q y.
Proof.
  exists (Tn 5 [1; 1] [7]), (Proto 5 [1; 1]), (Proto 5 []), (Tn 5 [1] [Some 7]).
  split; [split; [reflexivity|repeat constructor; now right]|]. split; [reflexivity|]. split; [vm_compute; reflexivity|].
  intros [_ S]. inversion S.
Qed.
Print Assumptions C44_reduce_mean_refuted.

(** *** pad: unless the paddings leave nothing of an axis; then one element is
    made where none was predicted *)
Theorem C44_pad_partial {A} (pads : list (Z * Z)) (v : A) (x : tensor A) (p q : proto) (y : raw_tensor A) :
  describes p x ->
  (forall a b, In (a, b) pads -> a = 0 /\ b = 0) \/
  (forall d a b, In (d, (a, b)) (combine (t_shape x) pads) -> d + (a + b) <> 0) ->
  infer_pad pads p = Some q -> pad_run pads v x = SOk y -> describes q y.
Proof.
  intros D K I R. apply (infer_pad_ok pads v x p q y D I R). destruct K as [K|K]; [left|right; exact K].
  apply forallb_forall. intros [a b] H. destruct (K a b H) as [-> ->]. reflexivity.
Qed.
Print Assumptions C44_pad_partial.

Theorem C44_pad_refuted : exists (x : tensor Z) (p q : proto) (y : raw_tensor Z),
  describes p x /\ infer_pad [(-1, -1)] p = Some q /\ pad_run [(-1, -1)] 0 x = SOk y /\ ~ describes q y.
Proof.
  exists (Tn 5 [2] [7; 8]), (Proto 5 [2]), (Proto 5 [0]), (Tn 5 [1] [Some 8]).
  split; [split; [reflexivity|repeat constructor; now right]|]. split; [reflexivity|]. split; [vm_compute; reflexivity|].
  intros [_ S]. inversion S as [|? ? ? ? [H|H] _]; lia.
Qed.
Print Assumptions C44_pad_refuted.

(** *** non_max_suppression_v3: only if there are at least as many scores as
    indices may be selected; the operator always gives [max_output] numbers *)
Theorem C44_nms_partial (top : list candidate -> option (candidate * list candidate)) (boxes : list Q) (xywh : bool) (iou : Q)
    (max_output : Z) (scores : tensor Q) (threshold : Q) (p q : proto) (y : tensor Z) :
  describes p scores -> t_shape scores = [Z.of_nat (length (t_data scores))] ->
  max_output <= Z.of_nat (length (t_data scores)) ->
  infer_nms max_output p = Some q -> nms_run top boxes xywh iou max_output (t_data scores) threshold = SOk y -> describes q y.
Proof.
  intros [_ S] Sh K I R. rewrite Sh in S. exact (infer_nms_ok top boxes xywh iou max_output _ threshold p q y S I R K).
Qed.
Print Assumptions C44_nms_partial.

Theorem C44_nms_refuted : exists (scores : tensor Q) (p q : proto) (y : tensor Z),
  describes p scores /\ t_shape scores = [Z.of_nat (length (t_data scores))] /\ infer_nms 3 p = Some q /\
  nms_run list_top [0; 0; 1; 1]%Q false (1 # 2) 3 (t_data scores) 0 = SOk y /\ ~ describes q y.
Proof.
  exists (Tn 10 [1] [1%Q]), (Proto 10 [1]), (Proto 5 [1]), (Tn 5 [3] [0; -1; -1]).
  split; [split; [reflexivity|repeat constructor; now right]|]. split; [reflexivity|]. split; [reflexivity|].
  split; [vm_compute; reflexivity|]. intros [_ S]. inversion S as [|? ? ? ? [H|H] _]; lia.
Qed.
Print Assumptions C44_nms_refuted.

(** the hypotheses are met: unknown sizes on one side, known on the other *)
Example C44_example :
  describes (Proto 5 [-1; 3]) matrix /\
  infer_transpose (Some [1; 0]) (Proto 5 [-1; 3]) = Some (Proto 5 [3; -1]) /\
  (exists y, transpose_run false (Some [1; 0]) matrix = SOk y /\ t_shape y = [3; 2]) /\
  infer_reduction [1] true (Proto 5 [-1; 3]) = Some (Proto 5 [-1; 1]) /\
  (exists y, AxisModel.reduce_mean_run Z.add Z.quot 0 [1] true matrix = SOk y /\ t_shape y = [2; 1]) /\
  infer_concat 1 [Proto 5 [-1; 3]; Proto 5 [2; 3]] = Some (Proto 5 [-1; 6]) /\
  (exists y, ConcatModel.concat_run 1 [matrix; matrix] = SOk y /\ t_shape y = [2; 6]) /\
  infer_eltwise (Proto 5 [-1; 3]) (Proto 5 [3]) = Some (Proto 5 [-1; 3]) /\
  infer_tile [2; 1; 1] (Proto 5 [-1; 3]) = Some (Proto 5 [2; -1; 3]) /\
  (exists y, tile_run [2; 1; 1] matrix = SOk y /\ t_shape y = [2; 2; 3]) /\
  infer_gather (-1) (Proto 5 [-1; 3]) (Proto 5 [4; -1]) = Some (Proto 5 [-1; 4; -1]) /\
  infer_chunk 3 (-1) (Proto 5 [-1; 3]) = Some [Proto 5 [-1; 1]; Proto 5 [-1; 1]; Proto 5 [-1; 1]].
Proof.
  split; [split; [reflexivity|constructor; [left; lia|constructor; [now right|constructor]]]|].
  split; [reflexivity|]. split; [eexists; split; vm_compute; reflexivity|].
  split; [reflexivity|]. split; [eexists; split; vm_compute; reflexivity|].
  split; [reflexivity|]. split; [eexists; split; vm_compute; reflexivity|].
  split; [reflexivity|]. split; [reflexivity|]. split; [eexists; split; vm_compute; reflexivity|].
  split; [reflexivity|]. vm_compute. reflexivity.
Qed.
