(** Properties of pad. *)
From Coq Require Import List ZArith Lia.
From Verif Require Import ShapeModel ShapeSpec KernelBase KernelSpec KernelProofs TileModel PadModel PadSpec PadProofs.
Import ListNotations.
Local Open Scope Z_scope.

(** ** C39: pad puts the input at its leading paddings (negative ones crop)
    and the padding value everywhere else, and writes every element.

    Missing for the full statement: results with a side below one, rank four
    with negative paddings of the first axis, and element types without a
    kernel; the refutations and refusals below show what happens there. *)
Theorem C39_pad_partial {A} pads (value : A) (x : tensor A) : wf x -> length pads = length (t_shape x) ->
  positive_shape (map (fun sp => fst sp + fst (snd sp) + snd (snd sp)) (combine (t_shape x) pads)) ->
  tile_supports (t_dtype x) = true ->
  (length pads = 4%nat -> 0 <= fst (nth 0 pads (0, 0)) /\ 0 <= snd (nth 0 pads (0, 0))) ->
  exists out, pad_run pads value x = SOk (filled out) /\ wf out /\ padded pads value x out.
Proof. exact (pad_ok pads value x). Qed.
Print Assumptions C39_pad_partial.

(** Another number of paddings than axes is refused. *)
Theorem C39_wrong_rank {A} pads (value : A) (x : tensor A) : length pads <> length (t_shape x) ->
  pad_run pads value x = SErr.
Proof. intros H. unfold pad_run. apply Nat.eqb_neq in H. now rewrite H. Qed.
Print Assumptions C39_wrong_rank.

Definition opposite (pads : list (Z * Z)) : list (Z * Z) := map (fun p => (- fst p, - snd p)) pads.

(** Cropping what was padded gives the input back. *)
Theorem C39_crop_undoes {A} pads (v w : A) (x out : tensor A) : wf x -> wf out ->
  length pads = length (t_shape x) -> positive_shape (t_shape x) -> tile_supports (t_dtype x) = true ->
  Forall (fun p => 0 <= fst p /\ 0 <= snd p) pads -> length pads <> 4%nat ->
  padded pads v x out ->
  pad_run (opposite pads) w out = SOk (filled x).
Proof.
  intros Wx Wo L Px Hs Hp N4 (D & S & P).
  assert (E0 : map (fun sp => fst sp + fst (snd sp) + snd (snd sp)) (combine (t_shape out) (opposite pads)) = t_shape x).
  { rewrite S. clear - L. revert L. generalize (t_shape x). unfold opposite. induction pads as [|p pads IH]; intros [|d s] L; try discriminate; [reflexivity|].
    cbn [combine map fst snd]. f_equal; [lia|]. apply IH. now injection L. }
  assert (Lo : length (opposite pads) = length (t_shape out)).
  { unfold opposite. rewrite S, !map_length, combine_length. lia. }
  destruct (C39_pad_partial (opposite pads) w out Wo Lo) as (y & Ey & Wy & (Dy & Sy & Py)).
  - rewrite E0. exact Px.
  - now rewrite D.
  - unfold opposite. rewrite map_length. contradiction.
  - rewrite Ey. f_equal. f_equal. rewrite E0 in Sy. apply tensor_ext; auto; [congruence|].
    intros c Hc. rewrite Sy in Hc. destruct (Py c) as [Q _]; [now rewrite Sy|].
    assert (K : inside (t_shape out) (moved (opposite pads) c) /\ moved pads (moved (opposite pads) c) = c).
    { rewrite S. clear - L Hc Hp. unfold inside, moved, opposite in *. revert L Hc. generalize (t_shape x). revert c.
      induction Hp as [|p pads [P1 P2] Hp IH]; intros c [|d s] L Hc; try discriminate.
      - inversion Hc. split; [constructor|reflexivity].
      - inversion Hc as [|? k ? c' Hk Hc' ]; subst. cbn [combine map fst snd].
        destruct (IH c' s) as [I1 I2]; [now injection L|exact Hc'|].
        split; [constructor; [lia|exact I1]|]. f_equal; [lia|exact I2]. }
    destruct K as [K1 K2]. destruct (P _ K1) as [R _]. rewrite (Q K1), R by (rewrite K2; exact Hc). now rewrite K2.
Qed.
Print Assumptions C39_crop_undoes.

(** *** Refuted parts *)

(** A 4-dimensional tensor cropped along its first axis: the kernel runs over
    the whole first axis and leaves its buffers. *)
Definition four : tensor Z := Tn 10 [2; 1; 1; 1] [5; 6].
Theorem C39_crop_batch_refuted :
  wf four /\ positive_shape (map (fun sp => fst sp + fst (snd sp) + snd (snd sp)) (combine (t_shape four) [(-1, 0); (0, 0); (0, 0); (0, 0)])) /\
  pad_run [(-1, 0); (0, 0); (0, 0); (0, 0)] 0 four = SUndef /\
  (* the same crop on three axes *)
  pad_run [(-1, 0); (0, 0); (0, 0)] 0 (Tn 10 [2; 1; 1] [5; 6]) = SOk (filled (Tn 10 [1; 1; 1] [6])).
Proof. repeat split; repeat constructor. all: cbn; lia. Qed.
Print Assumptions C39_crop_batch_refuted.

(** Any crop of the leading end of the first of four axes leaves the buffers,
    whatever the sizes. *)
Theorem C39_crop_batch_always_undefined {A} (value : A) s0 s1 s2 s3 p data :
  0 < p < s0 -> 0 < s1 -> 0 < s2 -> 0 < s3 -> Z.of_nat (length data) = elements [s0; s1; s2; s3] ->
  pad_run [(- p, 0); (0, 0); (0, 0); (0, 0)] value (Tn 10 [s0; s1; s2; s3] data) = SUndef.
Proof.
  intros Hp H1 H2 H3 Hd. unfold pad_run. cbn [length t_shape t_dtype t_data Nat.eqb negb forallb fst snd andb].
  replace (- p =? 0) with false by (symmetry; apply Z.eqb_neq; lia). cbn [andb].
  change (tile_supports 10) with true. cbn [negb].
  unfold pad_shape. cbn [combine map fst snd].
  replace (s0 + (- p + 0) <? 1) with false by (symmetry; apply Z.ltb_ge; lia).
  replace (s1 + (0 + 0) <? 1) with false by (symmetry; apply Z.ltb_ge; lia).
  replace (s2 + (0 + 0) <? 1) with false by (symmetry; apply Z.ltb_ge; lia).
  replace (s3 + (0 + 0) <? 1) with false by (symmetry; apply Z.ltb_ge; lia).
  set (o := [s0 + (- p + 0); s1 + (0 + 0); s2 + (0 + 0); s3 + (0 + 0)]).
  set (tr := pad4_stores _ _ _ _ _ _ _ _ _ _ _ _ _ _).
  assert (Hin : exists d, In (d, SUndef) tr).
  { unfold tr, pad4_stores. cbv zeta.
    eexists. apply in_or_app. right. apply in_flat_map. exists (s0 - 1). rewrite In_upto. split; [lia|].
    unfold kept, skip_in, skip_out. cbn [fst snd Z.ltb Z.leb Z.compare].
    apply in_flat_map. exists 0. rewrite In_upto. split; [lia|].
    apply in_flat_map. exists 0. rewrite In_upto. split; [lia|].
    assert (E : forall i, elements [s0; s1; s2; s3] <= i -> load data i = SUndef).
    { intros i Hi. apply load_out. rewrite Hd. lia. }
    assert (B : elements [s0; s1; s2; s3] <= (s0 - 1 + (if 0 <=? - p then 0 else - - p)) * (s1 * (s2 * s3)) + (0 + 0) * (s2 * s3) + (0 + 0) * s3 + 0 + 0).
    { destruct (Z.leb_spec 0 (- p)); [lia|]. cbn [elements]. nia. }
    destruct (Z.ltb_spec s3 12).
    - apply in_map_iff. exists 0. split; [|apply In_upto; lia]. f_equal. apply E. exact B.
    - unfold memcpy. destruct (Z.ltb_spec s3 0); [lia|]. apply in_map_iff. exists 0. split; [|apply In_upto; lia].
      f_equal. apply E. exact B. }
  rewrite exec_undef; [reflexivity| |exact Hin].
  intros d v H. unfold tr, pad4_stores in H. cbv zeta in H. apply in_app_or in H. destruct H as [H|H].
  - apply in_map_iff in H. destruct H as (k & [= _ <-] & _). discriminate.
  - apply in_flat_map in H. destruct H as (n & _ & H). apply in_flat_map in H. destruct H as (i & _ & H).
    apply in_flat_map in H. destruct H as (j & _ & H).
    assert (L : forall k, load data k <> SErr).
    { intros k. unfold load. destruct (k <? 0); [discriminate|]. destruct (nth_error _ _); discriminate. }
    match type of H with In _ (if ?b then _ else _) => destruct b end.
    + apply in_map_iff in H. destruct H as (k & [= _ <-] & _). apply L.
    + unfold memcpy in H. match type of H with In _ (if ?b then _ else _) => destruct b end.
      * destruct H as [[= _ <-]|[]]. discriminate.
      * apply in_map_iff in H. destruct H as (k & [= _ <-] & _). apply L.
Qed.
Print Assumptions C39_crop_batch_always_undefined.

(** A crop of a whole axis does not give an empty tensor: the side is one, and
    shows an element of the input (four axes: the padding value). *)
Theorem C39_crop_everything_refuted :
  pad_run [(-1, -2)] 0 (Tn 10 [3] [5; 6; 7]) = SOk (filled (Tn 10 [1] [6])) /\
  pad_run [(0, 0); (0, 0); (0, 0); (-1, -2)] 0 (Tn 10 [1; 1; 1; 3] [5; 6; 7]) = SOk (filled (Tn 10 [1; 1; 1; 1] [0])).
Proof. split; reflexivity. Qed.
Print Assumptions C39_crop_everything_refuted.

(** Half floats and booleans can only be padded by nothing. *)
Theorem C39_unsupported {A} pads (value : A) (x : tensor A) p : tile_supports (t_dtype x) = false ->
  length pads = length (t_shape x) -> In p pads -> p <> (0, 0) -> pad_run pads value x = SErr.
Proof.
  intros Hs L Hp Np. unfold pad_run. rewrite L, Nat.eqb_refl. cbn [negb].
  destruct (forallb _ pads) eqn:E; [|now rewrite Hs].
  exfalso. apply Np. rewrite forallb_forall in E. specialize (E p Hp). apply andb_prop in E as [E1 E2].
  apply Z.eqb_eq in E1, E2. destruct p; cbn in *; congruence.
Qed.
Print Assumptions C39_unsupported.

Example C39_example : pad_run [(1, 0); (-1, 2)] 9 (Tn 10 [2; 2] [1; 2; 3; 4]) =
  SOk (filled (Tn 10 [3; 3] [9; 9; 9; 2; 9; 9; 4; 9; 9])).
Proof. reflexivity. Qed.
Example C39_example4 : pad_run [(0, 1); (0, 0); (1, 0); (-1, 2)] 9 (Tn 10 [1; 1; 2; 2] [1; 2; 3; 4]) =
  SOk (filled (Tn 10 [2; 1; 3; 3] [9; 9; 9; 2; 9; 9; 4; 9; 9; 9; 9; 9; 9; 9; 9; 9; 9; 9])).
Proof. reflexivity. Qed.
Example C39_example_hyp : wf (Tn 10 [1; 1; 2; 2] [1; 2; 3; 4]) /\
  positive_shape (map (fun sp => fst sp + fst (snd sp) + snd (snd sp)) (combine [1; 1; 2; 2] [(0, 1); (0, 0); (1, 0); (-1, 2)])).
Proof. repeat split; repeat constructor; cbn; lia. Qed.
