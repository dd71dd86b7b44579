(** Properties of transpose. *)
From Coq Require Import List ZArith Lia Permutation.
From Verif Require Import ShapeModel ShapeSpec KernelBase KernelSpec TransposeModel TransposeSpec TransposeProofs.
Import ListNotations.
Local Open Scope Z_scope.

(** ** C34: with a permute attribute, transpose accepts exactly the
    permutations (of at least the rank of a tensor without empty axes), and
    every element goes to the permuted coordinate; for all element types,
    including the specialised loops for three channels. *)
Theorem C34_transpose {A} (is_float : bool) perm (x : tensor A) : wf x -> perm <> [] ->
  match transpose_run is_float (Some perm) x with
  | SOk r => exists out, r = filled out /\ wf out /\ transposed perm (with_rank (length perm) x) out /\
      is_permutation perm /\ (length (t_shape x) <= length perm)%nat /\ positive_shape (t_shape x)
  | SErr => ~ (is_permutation perm /\ (length (t_shape x) <= length perm)%nat /\ positive_shape (t_shape x))
  | SUndef => False
  end.
Proof. exact (transpose_spec is_float perm x). Qed.
Print Assumptions C34_transpose.

Theorem C34_unique {A} perm (x o o' : tensor A) : is_permutation perm -> length (t_shape x) = length perm ->
  positive_shape (t_shape x) -> wf o -> wf o' -> transposed perm x o -> transposed perm x o' -> o = o'.
Proof. exact (transposed_unique perm x o o'). Qed.
Print Assumptions C34_unique.

(** No two stores go to the same place (so the parallel loops do not race). *)
Theorem C34_once {A} (is_float : bool) (data : list A) perm s : is_permutation perm -> length s = length perm ->
  positive_shape s -> Z.of_nat (length data) = elements s ->
  NoDup (map fst (transpose_kernel is_float data s perm (permuted perm s))).
Proof. exact (transpose_once is_float data perm s). Qed.
Print Assumptions C34_once.

(** ** C76: transposing with the inverse permutation gives the tensor back. *)
Theorem C76_back {A} (f g : bool) perm inv (x : tensor A) r : wf x -> length (t_shape x) = length perm -> perm <> [] ->
  is_permutation inv -> length inv = length perm ->
  (forall l, length l = length perm -> permuted inv (permuted perm l) = l) ->
  transpose_run f (Some perm) x = SOk r ->
  exists out, r = filled out /\ transpose_run g (Some inv) out = SOk (filled x).
Proof. exact (transpose_back f g perm inv x r). Qed.
Print Assumptions C76_back.

(** in particular NHWC to NCHW and back *)
Theorem C76_nhwc {A} (f g : bool) (x : tensor A) n h w c : wf x -> t_shape x = [n; h; w; c] ->
  0 < n -> 0 < h -> 0 < w -> 0 < c ->
  exists out, transpose_run f (Some [0; 3; 1; 2]) x = SOk (filled out) /\
    transpose_run g (Some [0; 2; 3; 1]) out = SOk (filled x).
Proof.
  intros Hwf Hsh Hn Hh Hw Hc.
  assert (P1 : is_permutation [0; 3; 1; 2]).
  { unfold is_permutation. cbn. apply perm_skip. 
    transitivity [1; 3; 2]; [apply perm_swap|]. apply perm_skip. apply perm_swap. }
  assert (P2 : is_permutation [0; 2; 3; 1]).
  { unfold is_permutation. cbn. apply perm_skip.
    transitivity [2; 1; 3]; [apply perm_skip, perm_swap|]. apply perm_swap. }
  pose proof (transpose_spec f [0; 3; 1; 2] x Hwf ltac:(discriminate)) as T.
  destruct (transpose_run f (Some [0; 3; 1; 2]) x) as [r| |] eqn:E.
  - destruct (transpose_back f g [0; 3; 1; 2] [0; 2; 3; 1] x r) as (out & -> & E2); auto.
    + rewrite Hsh. reflexivity.
    + discriminate.
    + intros l Hl. destruct l as [|a [|b [|d [|e [|]]]]]; try discriminate. reflexivity.
    + exists out. auto.
  - exfalso. apply T. split; [exact P1|]. rewrite Hsh. split; [cbn; lia|]. repeat constructor; assumption.
  - destruct T.
Qed.
Print Assumptions C76_nhwc.

Example C34_example : transpose_run false (Some [1; 0]) (Tn 0 [2; 3] [1; 2; 3; 4; 5; 6])
  = SOk (filled (Tn 0 [3; 2] [1; 4; 2; 5; 3; 6])).
Proof. reflexivity. Qed.
Example C34_example_fast : transpose_run true (Some [0; 3; 1; 2]) (Tn 0 [1; 1; 5; 3] [1; 2; 3; 4; 5; 6; 7; 8; 9; 10; 11; 12; 13; 14; 15])
  = SOk (filled (Tn 0 [1; 3; 1; 5] [1; 4; 7; 10; 13; 2; 5; 8; 11; 14; 3; 6; 9; 12; 15])).
Proof. reflexivity. Qed.
Example C34_example_lead : transpose_run false (Some [1; 0]) (Tn 0 [3] [1; 2; 3]) = SOk (filled (Tn 0 [3; 1] [1; 2; 3])).
Proof. reflexivity. Qed.
Example C34_example_refused : transpose_run false (Some [1; 1]) (Tn 0 [2; 3] [1; 2; 3; 4; 5; 6]) = SErr.
Proof. reflexivity. Qed.

(** ** C35: without the attribute the last two axes should be exchanged.  The
    code assigns the two entries one after the other, so both become the last
    axis: the result has the wrong shape and memory that nobody wrote. *)
Theorem C35_default_refuted : exists (x : tensor Z) (r : raw_tensor Z), wf x /\ t_shape x = [2; 3] /\
  transpose_run false None x = SOk r /\
  t_shape r <> permuted (swap_last 2) (t_shape x) /\ In None (t_data r) /\
  forall out, ~ (r = filled out /\ transposed (swap_last 2) x out).
Proof.
  exists (Tn 0 [2; 3] [1; 2; 3; 4; 5; 6]). exists (Tn 0 [3; 3] [Some 4; None; None; None; Some 5; None; None; None; Some 6]). split; [repeat constructor; cbn; lia|].
  split; [reflexivity|]. split; [reflexivity|]. split; [cbn; discriminate|]. split; [cbn; auto|].
  intros out [E _]. apply (f_equal t_data) in E. cbn in E. destruct out as [d s l]. cbn in E.
  destruct l as [|a [|b l]]; try discriminate. 
Qed.
Print Assumptions C35_default_refuted.

(** For fewer than two axes the default is right: nothing changes. *)
Theorem C35_vector_partial {A} (is_float : bool) (x : tensor A) n : wf x -> t_shape x = [n] -> 0 < n ->
  transpose_run is_float None x = transpose_run is_float (Some [0]) x.
Proof.
  intros _ E H. unfold transpose_run. cbn [transpose_init]. rewrite E. reflexivity.
Qed.
Print Assumptions C35_vector_partial.
