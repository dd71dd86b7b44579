(** Properties of scan loops. *)
From Coq Require Import ZArith NArith List Bool Arith Lia.
From Verif Require Import ScanModel ScanSpec ScanProofs.
Import ListNotations.

(** ** C28: any use of a loop (bind, next, step, rewind, in any order) answers
    what the flat sequence and a position in it answer; it reads no null
    pointer and every call returns. *)
Theorem C28_loop_is_flat (ops : list lop) : Forall op_built ops ->
  exists fuel0, forall fuel, fuel0 <= fuel -> lrun fuel new_loop ops = Some (flat_run ([], 0) ops).
Proof.
  intros B. exists (S (S (max_cost ops))). intros fuel Hf.
  apply lrun_agrees; [|exact B|lia]. cbn. repeat split; auto; lia.
Qed.
Print Assumptions C28_loop_is_flat.

(** In particular the calls of next() after binding give the steps in order,
    then [finish] for ever; rewinding restarts. *)
Theorem C28_steps_in_order (it : iteration) (k : nat) : built it ->
  exists fuel0, forall fuel, fuel0 <= fuel ->
    lrun fuel new_loop (Bind it :: repeat Next (length (unroll it) + k)) =
      Some (None :: map Some (unroll it ++ repeat finish k)).
Proof.
  intros B. destruct (C28_loop_is_flat (Bind it :: repeat Next (length (unroll it) + k))) as (f & H).
  - constructor; [exact B|]. apply Forall_forall. intros o Ho. apply repeat_spec in Ho. now subst.
  - exists f. intros fuel Hf. rewrite (H fuel Hf). f_equal. cbn [flat_run flat_step fst snd]. f_equal.
    generalize (unroll it) as l. clear. intros l.
    assert (G : forall m p, p + m = length l -> flat_run (l, p) (repeat Next (m + k)) = map Some (skipn p l ++ repeat finish k)).
    { induction m as [|m IH]; intros p Hp.
      - rewrite skipn_all2 by lia. cbn [app Nat.add]. induction k as [|k IHk]; [reflexivity|].
        cbn [repeat flat_run flat_step fst snd map]. rewrite nth_overflow by lia.
        replace (p <? length l) with false by (symmetry; apply Nat.ltb_ge; lia). now rewrite IHk.
      - cbn [Nat.add repeat flat_run flat_step fst snd].
        replace (p <? length l) with true by (symmetry; apply Nat.ltb_lt; lia).
        rewrite (IH (S p)) by lia.
        assert (E : skipn p l = nth p l finish :: skipn (S p) l).
        { clear - Hp. assert (p < length l) by lia. clear Hp. revert p H. induction l as [|a l IHl]; intros [|p] H; cbn in *; try lia; auto.
          apply IHl. lia. }
        rewrite E. reflexivity. }
    rewrite (G (length l) 0); [reflexivity|lia].
Qed.
Print Assumptions C28_steps_in_order.

(** A clone denotes the same sequence. *)
Theorem C28_clone (it : iteration) : clone_iteration it = it.
Proof. exact (clone_same it). Qed.
Print Assumptions C28_clone.

Example C28_example :
  lrun 100 new_loop [Bind (Iters 2 [Step 2 7%Z; Iters 0 [Step 5 1%Z]; Iters 3 [Step 1 1%Z; Step 1 2%Z]]);
                     Next; Next; Next; Current; Next; Next; Rewind; Next; Current]
  = Some [None; Some 7; Some 7; Some 1; Some 2; Some 2; Some 1; None; Some 7; Some 7]%Z.
Proof. reflexivity. Qed.

(** A null pointer in a group (a moved-from descriptor) is read. *)
Theorem C28_moved_from_refuted : exists it, forall fuel, bind fuel it = None.
Proof.
  exists (Iters 1 [Null]). intros [|fuel]; reflexivity.
Qed.
Print Assumptions C28_moved_from_refuted.

(** ** C71: Scan::update returns the number of steps and removes what is run
    zero times, without changing the sequence -- when every group that is run
    has something to run and the number of steps fits 64 bits. *)
Theorem C71_update_partial (it : iteration) : no_empty_group it -> (N.of_nat (length (unroll it)) < 2 ^ 64)%N ->
  exists it', update it = Updated (N.of_nat (length (unroll it))) it' /\ unroll it' = unroll it /\
    (it' = Null \/ trimmed it').
Proof.
  intros G L. destruct (update_root it G L) as (it' & E & U & T). exists it'. split; [exact E|]. split; [exact U|].
  destruct (len (unroll it) =? 0)%N; auto.
Qed.
Print Assumptions C71_update_partial.

(** A group that is run and has nothing to run is read after it was deleted. *)
Theorem C71_update_empty_group_refuted : exists it, built it /\ update it = UseAfterFree.
Proof. exists (Iters 3 [Step 0 1%Z]). split; [cbn; auto|reflexivity]. Qed.
Print Assumptions C71_update_empty_group_refuted.

(** When the number of steps is a multiple of 2^64, the whole loop is lost. *)
Theorem C71_update_overflow_refuted : exists it, no_empty_group it /\ unroll it <> [] /\ update it = Updated 0 Null.
Proof.
  assert (G : forall n : N, n <> 0%N -> let it := Iters n [Step n 1%Z] in no_empty_group it /\ unroll it <> []).
  { intros n Hn it. assert (L : len (concat (map unroll [Step n 1%Z])) = n).
    { cbn [map concat]. rewrite app_nil_r. apply len_unroll_step. }
    split.
    - right. split; [|split; exact I]. intros E. rewrite E in L. apply Hn. symmetry. exact L.
    - intros E. apply len_nil in E. unfold it in E. rewrite len_unroll_iters, L in E. nia. }
  destruct (G (2 ^ 32)%N ltac:(discriminate)) as [G1 G2].
  exists (Iters (2 ^ 32) [Step (2 ^ 32) 1%Z]). split; [exact G1|]. split; [exact G2|]. reflexivity.
Qed.
Print Assumptions C71_update_overflow_refuted.

Example C71_example : update (Iters 2 [Step 2 7%Z; Iters 0 [Step 5 1%Z]; Iters 3 [Step 1 1%Z; Step 0 2%Z]])
  = Updated 10 (Iters 2 [Step 2 7%Z; Iters 3 [Step 1 1%Z]]).
Proof. reflexivity. Qed.
