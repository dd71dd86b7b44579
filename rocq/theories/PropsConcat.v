(** Properties of concat, chunk and split. *)
From Coq Require Import List ZArith Lia.
From Verif Require Import ShapeModel ShapeSpec BinsSpec KernelBase KernelSpec ConcatModel ConcatSpec ConcatProofs ChunkProofs.
Import ListNotations.
Local Open Scope Z_scope.

(** ** C32: concat succeeds exactly on tensors that fit together; its result
    is completely written and has every input element where it belongs. *)
Theorem C32_concat {A} (dim : Z) (xs : list (tensor A)) : Forall wf xs ->
  match concat_run dim xs with
  | SOk r => exists axis out, axis_of dim (length (t_shape out)) axis /\ joinable axis xs /\
               r = filled out /\ wf out /\ joined axis xs out
  | SErr => forall axis x, In x xs -> axis_of dim (length (t_shape x)) axis -> ~ joinable axis xs
  | SUndef => False
  end.
Proof. exact (concat_spec dim xs). Qed.
Print Assumptions C32_concat.

(** [joined] leaves no freedom. *)
Theorem C32_unique {A} axis (xs : list (tensor A)) o o' :
  Forall wf xs -> joinable axis xs -> wf o -> wf o' -> joined axis xs o -> joined axis xs o' -> o = o'.
Proof. exact (joined_unique axis xs o o'). Qed.
Print Assumptions C32_unique.

(** Every output element is stored exactly once (together with C32_concat,
    which says that all are stored). *)
Theorem C32_once {A} (axis : nat) (x0 : tensor A) rest :
  let xs := x0 :: rest in
  Forall wf xs -> joinable axis xs ->
  NoDup (map fst (concat_kernel axis (t_shape x0) (at_axis axis (fun _ => total (map (size_at axis) xs)) (t_shape x0)) xs)).
Proof. exact (concat_once axis x0 rest). Qed.
Print Assumptions C32_once.

Example C32_example :
  concat_run (-1) [Tn 0 [2; 2] [1; 2; 3; 4]; Tn 0 [2; 1] [5; 6]; Tn 0 [2; 0] []]
  = SOk (filled (Tn 0 [2; 3] [1; 2; 5; 3; 4; 6])).
Proof. reflexivity. Qed.
Example C32_example_wf : Forall wf [Tn 0 [2; 2] [1; 2; 3; 4]; Tn 0 [2; 1] [5; 6]; Tn 0 [2; 0] []].
Proof. repeat constructor; cbn; lia. Qed.
Example C32_example_refused : concat_run 0 [Tn 0 [2; 2] [1; 2; 3; 4]; Tn 0 [2; 1] [5; 6]] = SErr.
Proof. reflexivity. Qed.

(** ** C33: whenever chunk succeeds, the chunks put together are the tensor,
    there are as many as asked for and all but the last are equally large. *)
Theorem C33_chunk {A} chunks dim (x : tensor A) : wf x -> Forall (fun s => s <= 1073741824) (t_shape x) ->
  match chunk_run chunks dim x with
  | SOk rs => exists axis outs, axis_of dim (length (t_shape x)) axis /\ rs = map filled outs /\
      Z.of_nat (length outs) = chunks /\ Forall wf outs /\ joinable axis outs /\ joined axis outs x /\
      Forall (fun o => 0 < size_at axis o) outs /\
      Forall (fun o => size_at axis o = ceil_div (size_at axis x) chunks) (removelast outs)
  | SErr => chunks <= 0 \/ forall axis, axis_of dim (length (t_shape x)) axis -> size_at axis x < chunks
  | SUndef => exists axis, axis_of dim (length (t_shape x)) axis /\ 0 < chunks <= size_at axis x /\
      ceil_div (size_at axis x) (ceil_div (size_at axis x) chunks) < chunks
  end.
Proof. exact (chunk_spec chunks dim x). Qed.
Print Assumptions C33_chunk.

Theorem C33_chunk_concat_partial {A} chunks dim (x : tensor A) rs : wf x -> Forall (fun s => s <= 1073741824) (t_shape x) ->
  chunk_run chunks dim x = SOk rs ->
  exists outs, rs = map filled outs /\ concat_run dim outs = SOk (filled x).
Proof. exact (chunk_concat chunks dim x rs). Qed.
Print Assumptions C33_chunk_concat_partial.

(** It does succeed when the number of chunks divides the size. *)
Theorem C33_divisor {A} chunks dim axis (x : tensor A) k : wf x -> Forall (fun s => s <= 1073741824) (t_shape x) ->
  axis_of dim (length (t_shape x)) axis -> 0 < chunks -> 0 < k -> size_at axis x = chunks * k ->
  exists rs, chunk_run chunks dim x = SOk rs.
Proof.
  intros Hwf Hsm Hax Hc Hk E. pose proof (chunk_spec chunks dim x Hwf Hsm) as C.
  destruct (chunk_run chunks dim x) as [rs| |]; [eauto| |].
  - exfalso. destruct C as [C|C]; [lia|]. specialize (C axis Hax). nia.
  - exfalso. destruct C as (axis' & Hax' & _ & C). rewrite (axis_of_inj _ _ _ _ Hax' Hax), E in C.
    rewrite (ceil_div_unique (chunks * k) chunks k) in C by nia.
    rewrite (ceil_div_unique (chunks * k) k chunks) in C by nia. lia.
Qed.
Print Assumptions C33_divisor.

(** But a request that the checks accept can read past the list of bins: five
    elements in four chunks gives only three bins. *)
Theorem C33_five_in_four_refuted :
  exists x : tensor Z, wf x /\ size_at 0 x = 5 /\ chunk_run 4 0 x = SUndef.
Proof. exists (Tn 0 [5] [1; 2; 3; 4; 5]). split; [repeat constructor; cbn; lia|]. split; reflexivity. Qed.
Print Assumptions C33_five_in_four_refuted.

Example C33_example : chunk_run 2 1 (Tn 0 [2; 3] [1; 2; 3; 4; 5; 6])
  = SOk [filled (Tn 0 [2; 2] [1; 2; 4; 5]); filled (Tn 0 [2; 1] [3; 6])].
Proof. reflexivity. Qed.

(** ** C75: split into given sizes. *)
Theorem C75_split_partial {A} dim (x : tensor A) split : wf x ->
  Forall (fun s => 0 <= s) split -> split <> [] ->
  match split_run dim x split with
  | SErr => forall axis, ~ axis_of dim (length (t_shape x)) axis
  | SOk rs => forall axis, axis_of dim (length (t_shape x)) axis -> total split = size_at axis x ->
      exists outs, rs = map filled outs /\ Forall wf outs /\ map (size_at axis) outs = split /\
        joinable axis outs /\ joined axis outs x
  | SUndef => exists axis, axis_of dim (length (t_shape x)) axis /\ total split <> size_at axis x
  end.
Proof. exact (split_spec dim x split). Qed.
Print Assumptions C75_split_partial.

Theorem C75_split_concat_partial {A} dim axis (x : tensor A) split rs : wf x -> Forall (fun s => 0 <= s) split -> split <> [] ->
  axis_of dim (length (t_shape x)) axis -> total split = size_at axis x ->
  split_run dim x split = SOk rs ->
  exists outs, rs = map filled outs /\ concat_run dim outs = SOk (filled x).
Proof. exact (split_concat dim axis x split rs). Qed.
Print Assumptions C75_split_concat_partial.

(** Sizes that do not add up are not refused: too large ones read outside the
    input, too small ones deliver elements of other rows. *)
Theorem C75_too_large_refuted : exists x : tensor Z, wf x /\ size_at 0 x = 3 /\ split_run 0 x [2; 2] = SUndef.
Proof. exists (Tn 0 [3] [1; 2; 3]). split; [repeat constructor; cbn; lia|]. split; reflexivity. Qed.
Print Assumptions C75_too_large_refuted.

Theorem C75_too_small_refuted : exists (x : tensor Z) (out : tensor Z), wf x /\ wf out /\
  split_run 1 x [1] = SOk [filled out] /\ t_shape out = [2; 1] /\ elt out [1; 0] <> elt x [1; 0].
Proof.
  exists (Tn 0 [2; 3] [1; 2; 3; 4; 5; 6]), (Tn 0 [2; 1] [1; 2]).
  split; [repeat constructor; cbn; lia|]. split; [repeat constructor; cbn; lia|].
  split; [reflexivity|]. split; [reflexivity|]. cbn. discriminate.
Qed.
Print Assumptions C75_too_small_refuted.

Example C75_example : split_run (-1) (Tn 0 [2; 3] [1; 2; 3; 4; 5; 6]) [1; 0; 2]
  = SOk [filled (Tn 0 [2; 1] [1; 4]); filled (Tn 0 [2; 0] []); filled (Tn 0 [2; 2] [2; 3; 5; 6])].
Proof. reflexivity. Qed.
