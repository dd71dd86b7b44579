(** Properties of non-maximum suppression. *)
From Coq Require Import List ZArith QArith Qminmax Permutation Lia Lqa.
From Verif Require Import ShapeModel KernelBase NmsModel NmsSpec NmsProofs.
Import ListNotations.
Local Open Scope Z_scope.

(** ** C42: the operator answers [max_output] indices: a greedy selection (at
    most [max_output] distinct boxes with a score above the threshold, best
    first, no two overlapping, and none left out without a reason), then -1;
    for all boxes, scores and thresholds, and whichever way the priority
    queue breaks ties. *)
Theorem C42_greedy_selection top boxes scores xywh iou_threshold score_threshold max_output :
  priority_queue top -> length boxes = (4 * length scores)%nat -> 0 < max_output ->
  exists sel,
    nms_run top boxes xywh iou_threshold max_output scores score_threshold
    = SOk (Tn 5 [max_output] (sel ++ repeat (-1) (Z.to_nat max_output - length sel))) /\
    greedy xywh boxes scores iou_threshold score_threshold max_output sel.
Proof. intros. now apply nms_ok. Qed.
Print Assumptions C42_greedy_selection.

(** Example: the second box is the first one moved a little, the third is
    elsewhere, the fourth has too low a score. *)
Example C42_example :
  priority_queue list_top /\
  nms_run list_top [0;0;10;10; 1;0;11;10; 20;20;30;30; 40;40;50;50]%Q false (1#2) 3 [1#2; 9#10; 3#10; 1#10]%Q (2#10)
  = SOk (Tn 5 [3] [1; 2; -1]) /\
  nms_run list_top [0;0;10;10; 1;0;10;10; 20;20;10;10; 40;40;50;50]%Q true (1#2) 1 [1#2; 9#10; 3#10; 1#10]%Q (2#10)
  = SOk (Tn 5 [1] [1]).
Proof. split; [apply list_top_ok|]. split; vm_compute; reflexivity. Qed.

(** If no two scores are equal there is one greedy selection only: the
    answer does not depend on the queue. *)
Theorem C42_determined xywh boxes scores t st m sel sel' :
  (forall i j, 0 <= i < Z.of_nat (length scores) -> 0 <= j < Z.of_nat (length scores) ->
     (score_at scores i == score_at scores j)%Q -> i = j) ->
  greedy xywh boxes scores t st m sel -> greedy xywh boxes scores t st m sel' -> sel = sel'.
Proof.
  intros Inj G G'.
  (* selections that agree so far agree on the next box *)
  assert (Next : forall p i a b, sel = p ++ i :: a -> sel' = p ++ b -> exists b', b = i :: b').
  { assert (Key : forall sel sel', greedy xywh boxes scores t st m sel -> greedy xywh boxes scores t st m sel' ->
      forall p i a, sel = p ++ i :: a ->
      (exists b, sel' = p ++ b /\ ((forall k, In k b -> (score_at scores k < score_at scores i)%Q) \/ b = [])) -> False).
    { clear. intros sel sel' G G' p i a E (b & E' & Hb).
      assert (Hi : In i sel) by (rewrite E; apply in_or_app; right; now left).
      destruct (g_good _ _ _ _ _ _ _ G i Hi) as [Ri Ti].
      assert (Hp : forall j, In j p -> ~ overlap t (box_at xywh boxes i) (box_at xywh boxes j)).
      { intros j Hj. apply (g_apart _ _ _ _ _ _ _ G); auto; [rewrite E; apply in_or_app; now left|].
        intros ->. pose proof (g_distinct _ _ _ _ _ _ _ G) as N. rewrite E in N. apply NoDup_remove_2 in N. apply N. apply in_or_app. now left. }
      assert (Hn : ~ In i sel').
      { rewrite E'. intros H. apply in_app_or in H. destruct H as [H|H].
        - pose proof (g_distinct _ _ _ _ _ _ _ G) as N. rewrite E in N. apply NoDup_remove_2 in N. apply N. apply in_or_app. now left.
        - destruct Hb as [Hb| ->]; [|destruct H]. specialize (Hb i H). lra. }
      destruct (g_complete _ _ _ _ _ _ _ G' i Ri Ti Hn) as [(j & Hj & Ho & Hs)|[Hlen Hs]].
      - rewrite E' in Hj. apply in_app_or in Hj. destruct Hj as [Hj|Hj]; [exact (Hp j Hj Ho)|].
        destruct Hb as [Hb| ->]; [|destruct Hj]. specialize (Hb j Hj). lra.
      - destruct b as [|k b].
        + pose proof (g_few _ _ _ _ _ _ _ G) as F. rewrite E in F. rewrite E' in Hlen. rewrite app_length in F, Hlen. cbn [length] in *. lia.
        + destruct Hb as [Hb|]; [|discriminate]. specialize (Hb k ltac:(now left)).
          specialize (Hs k ltac:(rewrite E'; apply in_or_app; right; now left)). lra. }
    intros p i a b E E'. destruct b as [|k b].
    - exfalso. eapply (Key sel sel' G G'); eauto.
    - assert (Hk : In k sel') by (rewrite E'; apply in_or_app; right; now left).
      assert (Hi : In i sel) by (rewrite E; apply in_or_app; right; now left).
      destruct (g_good _ _ _ _ _ _ _ G i Hi) as [Ri _]. destruct (g_good _ _ _ _ _ _ _ G' k Hk) as [Rk _].
      assert (Tail : forall s, greedy xywh boxes scores t st m s -> forall p x r, s = p ++ x :: r -> forall y, In y r -> (score_at scores y <= score_at scores x)%Q).
      { intros s Gs p0 x r Es y Hy. apply in_split in Hy. destruct Hy as (r1 & r2 & ->). eapply (g_sorted _ _ _ _ _ _ _ Gs). exact Es. }
      destruct (Q_dec (score_at scores k) (score_at scores i)) as [[L|L]|Eq].
      + exfalso. apply (Key sel sel' G G' p i a E). exists (k :: b). split; [exact E'|]. left. intros y [<-|Hy]; [exact L|].
        pose proof (Tail sel' G' p k b E' y Hy). lra.
      + exfalso. apply (Key sel' sel G' G p k b E'). exists (i :: a). split; [exact E|]. left. intros y [<-|Hy]; [exact L|].
        pose proof (Tail sel G p i a E y Hy). lra.
      + rewrite (Inj i k Ri Rk); [eauto|]. now rewrite Eq. }
  assert (Pre : forall a p b, sel = p ++ a -> sel' = p ++ b -> exists b', b = a ++ b').
  { induction a as [|i a IH]; intros p b E E'; [exists b; reflexivity|].
    destruct (Next p i a b E E') as (b' & ->). destruct (IH (p ++ [i]) b') as (b2 & ->).
    - rewrite <- app_assoc. exact E.
    - rewrite <- app_assoc. exact E'.
    - exists b2. reflexivity. }
  destruct (Pre sel [] sel' eq_refl eq_refl) as (b & Eb).
  destruct b as [|k b]; [now rewrite app_nil_r in Eb|]. exfalso.
  (* sel' goes on: k would have been selected *)
  assert (Hk : In k sel') by (rewrite Eb; apply in_or_app; right; now left).
  destruct (g_good _ _ _ _ _ _ _ G' k Hk) as [Rk Tk].
  pose proof (g_distinct _ _ _ _ _ _ _ G') as N. rewrite Eb in N. apply NoDup_remove_2 in N.
  destruct (g_complete _ _ _ _ _ _ _ G k Rk Tk) as [(j & Hj & Ho & _)|[Hlen _]].
  - intros H. apply N. apply in_or_app. now left.
  - apply (g_apart _ _ _ _ _ _ _ G' k j); auto; [rewrite Eb; apply in_or_app; now left|].
    intros ->. apply N. apply in_or_app. now left.
  - pose proof (g_few _ _ _ _ _ _ _ G') as F. rewrite Eb, app_length in F. cbn [length] in F. lia.
Qed.
Print Assumptions C42_determined.

(** The overlap is symmetric, its division is never by zero and its value
    lies between 0 and 1. *)
Theorem C42_overlap xywh a b : let r := rect_of xywh a in let s := rect_of xywh b in
  (0 < area r)%Q -> (0 < area s)%Q ->
  (0 < area r + area s - intersection r s)%Q /\ (0 <= iou r s <= 1)%Q /\ (iou r s == iou s r)%Q /\ (iou r r == 1)%Q.
Proof.
  cbv zeta. set (r := rect_of xywh a). set (s := rect_of xywh b). intros Pr Ps.
  assert (Br := intersection_bound r s (rect_proper xywh a) (rect_proper xywh b)).
  assert (D : (0 < area r + area s - intersection r s)%Q) by lra.
  split; [exact D|]. split; [|split; [apply iou_sym|]].
  - unfold iou. split.
    + apply Qle_shift_div_l; [exact D|]. lra.
    + apply Qle_shift_div_r; [exact D|]. lra.
  - assert (E : (intersection r r == area r)%Q).
    { destruct (rect_proper xywh a) as [H1 H2]. fold r in H1, H2. unfold intersection, shared, area.
      rewrite !Q.min_id, !Q.max_id, !Q.max_l by lra. reflexivity. }
    unfold iou. rewrite E. setoid_replace (area r + area r - area r)%Q with (area r) by ring.
    field. intros H. lra.
Qed.
Print Assumptions C42_overlap.

(** The operator's run does not compare the numbers of boxes and scores (its
    shape inference does): with more scores than boxes it reads outside the
    boxes. *)
Example C42_unchecked_lengths :
  nms_run list_top [0;0;10;10]%Q false (1#2) 3 [1#2; 9#10]%Q (2#10) = SUndef.
Proof. vm_compute. reflexivity. Qed.
