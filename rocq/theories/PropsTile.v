(** Properties of tile. *)
From Coq Require Import List ZArith Lia.
From Verif Require Import ShapeModel ShapeSpec KernelBase KernelSpec TileModel TileSpec TileProofs.
Import ListNotations.
Local Open Scope Z_scope.

(** ** C37: tile shows the element at the remainders of every coordinate, and
    writes every element of its output, for all shapes (empty ones included)
    and repeats (zero included). *)
Theorem C37_tile {A} repeats (x : tensor A) : wf x -> Forall (fun r => 0 <= r) repeats ->
  tile_supports (t_dtype x) = true \/ In 0 repeats ->
  exists out, tile_run repeats x = SOk (filled out) /\ wf out /\ tiled repeats x out.
Proof. exact (tile_ok repeats x). Qed.
Print Assumptions C37_tile.

(** A negative repeat is refused. *)
Theorem C37_refused {A} repeats (x : tensor A) r : In r repeats -> r < 0 -> tile_run repeats x = SErr.
Proof.
  intros H1 H2. unfold tile_run. replace (existsb (fun r => r <? 0) repeats) with true; [reflexivity|].
  symmetry. apply existsb_exists. exists r. split; [exact H1|]. now apply Z.ltb_lt.
Qed.
Print Assumptions C37_refused.

(** No output element is written twice. *)
Theorem C37_once {A} (data : list A) s r : Forall (fun d => 0 <= d) s -> positive_shape r -> length s = length r ->
  Z.of_nat (length data) = elements s ->
  NoDup (map fst (tile_outer data s r (pointwise Z.mul s r) (Z.to_nat (prod s)) 0 (start s) (start r))).
Proof. intros H1 H2 H3 H4. apply (tile_exec data s r H1 H2 H3 H4). Qed.
Print Assumptions C37_once.

(** Repeating one time changes nothing but the rank. *)
Theorem C37_ones {A} (x : tensor A) : wf x -> tile_supports (t_dtype x) = true ->
  tile_run (repeat 1 (length (t_shape x))) x = SOk (filled x).
Proof.
  intros W Hs. destruct (C37_tile (repeat 1 (length (t_shape x))) x W) as (out & E & Wo & T).
  - apply Forall_forall. intros r Hr. apply repeat_spec in Hr. lia.
  - now left.
  - rewrite E. f_equal. f_equal. unfold tiled in T. rewrite repeat_length, Nat.max_id in T.
    unfold ones_before in T. rewrite repeat_length, !Nat.sub_diag in T. cbn [repeat app] in T.
    destruct T as (T1 & T2 & T3).
    assert (Sh : t_shape out = t_shape x).
    { rewrite T2. clear. induction (t_shape x) as [|d s IH]; [reflexivity|]. unfold pointwise in *.
      cbn [length repeat combine map fst snd]. rewrite IH. f_equal. lia. }
    apply KernelProofs.tensor_ext; auto. intros c Hc. destruct (T3 c Hc) as [_ ->].
    assert (Id : pointwise Z.modulo c (t_shape x) = c).
    { rewrite Sh in Hc. clear - Hc. induction Hc as [|d k s c Hk H IH]; [reflexivity|]. unfold pointwise in *.
      cbn [combine map fst snd]. rewrite IH. f_equal. now apply Z.mod_small. }
    rewrite Id. destruct x; reflexivity.
Qed.
Print Assumptions C37_ones.

Example C37_example : tile_run [2; 1; 3] (Tn 10 [2; 1] [7; 8]) =
  SOk (filled (Tn 10 [2; 2; 3] [7; 7; 7; 8; 8; 8; 7; 7; 7; 8; 8; 8])).
Proof. reflexivity. Qed.
Example C37_example_zero : tile_run [0; 2] (Tn 10 [2; 1] [7; 8]) = SOk (filled (Tn 10 [0; 2] [])).
Proof. reflexivity. Qed.
