(** Properties of space-to-batch and batch-to-space. *)
From Coq Require Import List ZArith Lia.
From Verif Require Import ShapeModel ShapeSpec ShapeProofs KernelBase KernelSpec KernelProofs TileModel BatchModel BatchSpec BatchProofs.
Import ListNotations.
Local Open Scope Z_scope.

(** ** C40: batch-to-space undoes space-to-batch, for all shapes, blocks and
    paddings. *)
Theorem C40_round_trip {A} (zero : A) pt pb pl pr bh bw N C H W (x : tensor A) : wf x -> t_shape x = [N; C; H; W] ->
  0 < N -> tile_supports (t_dtype x) = true -> 1 <= bh -> 1 <= bw ->
  0 <= pt -> 0 <= pb -> 0 <= pl -> 0 <= pr -> (bh | H + pt + pb) -> (bw | W + pl + pr) ->
  exists y, s2b_run zero pt pb pl pr bh bw x = SOk (filled y) /\ wf y /\
    b2s_run pt pb pl pr bh bw y = SOk (filled x).
Proof.
  intros Wx Sx HN Hs Hbh Hbw Hpt Hpb Hpl Hpr DH DW.
  destruct (s2b_ok zero pt pb pl pr bh bw N C H W x Wx Sx Hs Hbh Hbw Hpt Hpb Hpl Hpr DH DW) as (y & Ey & Wy & By).
  exists y. split; [exact Ey|]. split; [exact Wy|].
  destruct By as (N' & C' & H' & W' & oH & oW & Sx' & EH & EW & Dy & Sy & P).
  rewrite Sx in Sx'. injection Sx' as <- <- <- <-.
  assert (Wn := proj1 Wx). rewrite Sx in Wn.
  inversion Wn as [|? ? _ Wn1]; subst. inversion Wn1 as [|? ? HC Wn2]; subst. inversion Wn2 as [|? ? HH Wn3]; subst. inversion Wn3 as [|? ? HW _]; subst.
  destruct (b2s_ok pt pb pl pr bh bw N C oH oW y Wy Sy) as (z & Ez & Wz & Sz); try lia; [now rewrite Dy|].
  rewrite Ez. f_equal. f_equal.
  destruct Sz as (N' & C' & H' & W' & Sy' & Dz & Sz & Q).
  rewrite Sy in Sy'. injection Sy' as En <- <- <-. assert (N = N') by nia. subst N'.
  assert (Sxz : t_shape z = t_shape x) by (rewrite Sz, Sx; repeat f_equal; lia).
  apply tensor_ext; auto; [congruence|]. intros c Hc. rewrite Sxz in Hc.
  assert (Hc' := Hc). rewrite Sx in Hc'. apply inside4 in Hc'. destruct Hc' as (n & k & h & w & -> & Hn & Hk & Hh & Hw).
  destruct (quot_rem h pt bh) as (i & dh & _ & _ & E3 & Hdh & Hi); [lia..|].
  destruct (quot_rem w pl bw) as (j & dw & _ & _ & E3' & Hdw & Hj); [lia..|].
  assert (Hi' : 0 <= i < oH) by nia. assert (Hj' : 0 <= j < oW) by nia.
  destruct (P dh dw n k i j Hdh Hdw Hn Hk Hi' Hj') as [P1 _].
  specialize (Q dh dw n k i j Hdh Hdw).
  replace (i * bh + dh - pt) with h in P1, Q by lia. replace (j * bw + dw - pl) with w in P1, Q by lia.
  rewrite Q by (rewrite Sxz; exact Hc). now apply P1.
Qed.
Print Assumptions C40_round_trip.

(** What the two operators compute on their own; every element is written. *)
Theorem C40_space_to_batch {A} (zero : A) pt pb pl pr bh bw N C H W (x : tensor A) : wf x -> t_shape x = [N; C; H; W] ->
  tile_supports (t_dtype x) = true ->
  1 <= bh -> 1 <= bw -> 0 <= pt -> 0 <= pb -> 0 <= pl -> 0 <= pr ->
  (bh | H + pt + pb) -> (bw | W + pl + pr) ->
  exists y, s2b_run zero pt pb pl pr bh bw x = SOk (filled y) /\ wf y /\ batched zero pt pb pl pr bh bw x y.
Proof. exact (s2b_ok zero pt pb pl pr bh bw N C H W x). Qed.
Print Assumptions C40_space_to_batch.

Theorem C40_batch_to_space {A} ct cb cl cr bh bw N C H W (x : tensor A) : wf x -> t_shape x = [bh * bw * N; C; H; W] ->
  tile_supports (t_dtype x) = true -> 0 < N ->
  1 <= bh -> 1 <= bw -> 0 <= ct -> 0 <= cb -> 0 <= cl -> 0 <= cr ->
  ct + cb <= H * bh -> cl + cr <= W * bw ->
  exists y, b2s_run ct cb cl cr bh bw x = SOk (filled y) /\ wf y /\ spaced ct cb cl cr bh bw x y.
Proof. exact (b2s_ok ct cb cl cr bh bw N C H W x). Qed.
Print Assumptions C40_batch_to_space.

(** The other order, without crops: space-to-batch undoes batch-to-space. *)
Theorem C40_other_order {A} (zero : A) bh bw N C H W (x : tensor A) : wf x -> t_shape x = [bh * bw * N; C; H; W] ->
  0 < N -> tile_supports (t_dtype x) = true -> 1 <= bh -> 1 <= bw ->
  exists y, b2s_run 0 0 0 0 bh bw x = SOk (filled y) /\ wf y /\ s2b_run zero 0 0 0 0 bh bw y = SOk (filled x).
Proof.
  intros Wx Sx HN Hs Hbh Hbw.
  assert (Wn := proj1 Wx). rewrite Sx in Wn.
  inversion Wn as [|? ? _ Wn1]; subst. inversion Wn1 as [|? ? HC Wn2]; subst. inversion Wn2 as [|? ? HH Wn3]; subst. inversion Wn3 as [|? ? HW _]; subst.
  destruct (b2s_ok 0 0 0 0 bh bw N C H W x Wx Sx) as (y & Ey & Wy & Sy); try assumption; try nia.
  exists y. split; [exact Ey|]. split; [exact Wy|].
  destruct Sy as (N' & C' & H' & W' & Sx' & Dy & Sy & Q).
  rewrite Sx in Sx'. injection Sx' as En <- <- <-. assert (N = N') by nia. subst N'.
  assert (Sy' : t_shape y = [N; C; H * bh; W * bw]) by (rewrite Sy, !Z.sub_0_r; reflexivity).
  destruct (s2b_ok zero 0 0 0 0 bh bw N C (H * bh) (W * bw) y Wy Sy') as (z & Ez & Wz & Bz); try lia; [now rewrite Dy|exists H; lia|exists W; lia|].
  rewrite Ez. f_equal. f_equal.
  destruct Bz as (N' & C' & H' & W' & oH & oW & Sy2 & EH & EW & Dz & Sz & P).
  rewrite Sy' in Sy2. injection Sy2 as <- <- <- <-. assert (oH = H) by nia. assert (oW = W) by nia. subst oH oW.
  apply tensor_ext; auto; [congruence|congruence|]. intros c Hc. rewrite Sz in Hc.
  apply inside4 in Hc. destruct Hc as (b & k & i & j & -> & Hb & Hk & Hi & Hj).
  destruct (quot_rem b 0 N) as (q & n & _ & _ & Eb & Hn & Hq); [lia..|].
  destruct (quot_rem q 0 bw) as (dh & dw & _ & _ & Eq & Hdw & Hdh); [lia..|].
  assert (q < bh * bw) by nia. assert (Hdh' : 0 <= dh < bh) by nia.
  assert (I : inside (t_shape y) [n; k; i * bh + dh - 0; j * bw + dw - 0]).
  { rewrite Sy'. apply inside4. eexists _, _, _, _. split; [reflexivity|]. repeat split; nia. }
  destruct (P dh dw n k i j Hdh' Hdw Hn Hk Hi Hj) as [P1 _]. specialize (P1 I).
  specialize (Q dh dw n k i j Hdh' Hdw I).
  replace ((dh * bw + dw) * N + n) with b in P1, Q by nia. now rewrite P1, Q.
Qed.
Print Assumptions C40_other_order.

(** Sizes that the block does not divide, and other ranks, are refused. *)
Theorem C40_refused {A} (zero : A) pt pb pl pr bh bw (x : tensor A) :
  length (t_shape x) <> 4%nat \/ bh < 1 \/ bw < 1 \/
    (exists N C H W, t_shape x = [N; C; H; W] /\ (~ (bh | H + pt + pb) \/ ~ (bw | W + pl + pr))) ->
  s2b_run zero pt pb pl pr bh bw x = SErr.
Proof.
  unfold s2b_run, block_ok. intros Hr.
  destruct (Z.leb_spec 1 bh) as [H1|H1], (Z.leb_spec 1 bw) as [H2|H2]; cbn [andb negb]; try reflexivity.
  destruct (t_shape x) as [|N [|C [|H [|W [|]]]]] eqn:E; try reflexivity.
  destruct ((Z.rem (H + pt + pb) bh =? 0) && (Z.rem (W + pl + pr) bw =? 0))%bool eqn:D; cbn [negb]; [|reflexivity].
  exfalso. apply andb_prop in D as [D1 D2]. apply Z.eqb_eq in D1, D2. apply Z.rem_divide in D1, D2; try lia.
  destruct Hr as [Hr|[Hr|[Hr|(N' & C' & H' & W' & [= <- <- <- <-] & Hr)]]]; [now apply Hr|lia|lia|tauto].
Qed.
Print Assumptions C40_refused.

(** *** Refuted outside these hypotheses *)

(** A negative padding is not refused: the element that it would crop is
    stored in front of the output buffer. *)
Theorem C40_negative_padding_refuted :
  let x := Tn 10 [1; 1; 3; 1] [5; 6; 7] in
  wf x /\ (2 | 3 + -1 + 0) /\ s2b_run 0 (-1) 0 0 0 2 1 x = SUndef.
Proof. cbv zeta. split; [split; [repeat constructor; lia|reflexivity]|]. split; [now exists 1|reflexivity]. Qed.
Print Assumptions C40_negative_padding_refuted.

(** A batch of no images goes through space-to-batch and is refused by
    batch-to-space. *)
Theorem C40_empty_batch_refuted :
  let x : tensor Z := Tn 10 [0; 1; 2; 2] [] in
  wf x /\ s2b_run 0 0 0 0 0 2 2 x = SOk (filled (Tn 10 [0; 1; 1; 1] [])) /\
  b2s_run 0 0 0 0 2 2 (Tn 10 [0; 1; 1; 1] ([] : list Z)) = SErr.
Proof. cbv zeta. split; [split; [repeat constructor; lia|reflexivity]|]. split; reflexivity. Qed.
Print Assumptions C40_empty_batch_refuted.

Example C40_example : s2b_run 0 1 0 0 1 2 2 (Tn 10 [1; 1; 3; 3] [1; 2; 3; 4; 5; 6; 7; 8; 9]) =
  SOk (filled (Tn 10 [4; 1; 2; 2] [0; 0; 4; 6; 0; 0; 5; 0; 1; 3; 7; 9; 2; 0; 8; 0])).
Proof. reflexivity. Qed.
Example C40_example_back : b2s_run 1 0 0 1 2 2 (Tn 10 [4; 1; 2; 2] [0; 0; 4; 6; 0; 0; 5; 0; 1; 3; 7; 9; 2; 0; 8; 0]) =
  SOk (filled (Tn 10 [1; 1; 3; 3] [1; 2; 3; 4; 5; 6; 7; 8; 9])).
Proof. reflexivity. Qed.
Example C40_example_hyp : wf (Tn 10 [1; 1; 3; 3] [1; 2; 3; 4; 5; 6; 7; 8; 9]) /\ (2 | 3 + 1 + 0) /\ (2 | 3 + 0 + 1).
Proof. split; [split; [repeat constructor; lia|reflexivity]|]. split; now exists 2. Qed.
