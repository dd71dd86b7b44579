(** Proofs about the pieces of detection_output. *)
From Coq Require Import List ZArith Bool QArith Qminmax Sorting.Sorted Permutation Lia Lqa.
From Verif Require Import ShapeModel KernelBase KernelProofs ResizeModel NmsModel NmsProofs DetectModel DetectSpec.
Import ListNotations.
Local Open Scope Z_scope.

Lemma traverse_ok {X Y} (f : X -> sres Y) g l : (forall x, In x l -> f x = SOk (g x)) -> traverse f l = SOk (map g l).
Proof.
  induction l as [|x l IH]; intros H; [reflexivity|]. cbn [traverse map]. rewrite H by now left. cbn [bind2].
  rewrite IH by (intros y Hy; apply H; now right). reflexivity.
Qed.
Lemma lookup_map {X} (h : Z -> Z) (v : Z -> X) l c : In c l -> (forall d, In d l -> h d = h c -> v d = v c) ->
  lookup (map (fun d => (h d, v d)) l) (h c) = Some (v c).
Proof.
  induction l as [|d l IH]; intros I H; [destruct I|]. cbn [map lookup]. destruct (Z.eqb_spec (h d) (h c)) as [E|N].
  - f_equal. apply H; [now left|exact E].
  - destruct I as [->|I]; [congruence|]. apply IH; [exact I|]. intros e He. apply H. now right.
Qed.
Lemma combine_map {X Y Z'} (f : X -> Y) (g : X -> Z') l : combine (map f l) (map g l) = map (fun x => (f x, g x)) l.
Proof. induction l as [|x l IH]; [reflexivity|]. cbn. now rewrite IH. Qed.
Lemma load_at (l : list Q) i : 0 <= i < Z.of_nat (length l) -> load l i = SOk (at_ l i).
Proof.
  intros H. unfold load, at_. destruct (Z.ltb_spec i 0); [lia|].
  destruct (nth_error l (Z.to_nat i)) as [a|] eqn:E; [now rewrite (nth_error_nth _ _ _ E)|]. apply nth_error_None in E. lia.
Qed.
Lemma four_at (l : list Q) i : 0 <= i -> i + 4 <= Z.of_nat (length l) -> four l i = SOk (corners_at l i).
Proof. intros A B. unfold four. rewrite !load_at by lia. reflexivity. Qed.

(** *** Overlap *)
Lemma size_area b : (xmin b <= xmax b)%Q -> (ymin b <= ymax b)%Q -> (size b == area b)%Q.
Proof.
  intros A B. unfold size. destruct (qlt (xmax b) (xmin b)) eqn:E1; [apply qlt_iff in E1; lra|].
  destruct (qlt (ymax b) (ymin b)) eqn:E2; [apply qlt_iff in E2; lra|]. reflexivity.
Qed.
Lemma union_positive (w h aw ah bw bh : Q) : (0 < w)%Q -> (0 < h)%Q -> (w <= aw)%Q -> (h <= ah)%Q -> (w <= bw)%Q -> (h <= bh)%Q ->
  (0 < aw * ah + bw * bh - w * h)%Q.
Proof.
  intros W H A B C D.
  assert (E : (w * h <= aw * ah)%Q).
  { apply Qle_trans with (w * ah)%Q; [rewrite (Qmult_comm w h), (Qmult_comm w ah); apply Qmult_le_compat_r; lra|]. apply Qmult_le_compat_r; lra. }
  assert (F : (0 < bw * bh)%Q) by (apply Qmult_lt_0_compat; lra). lra.
Qed.
Lemma jaccard_overlaps a b : overlaps a b (jaccard a b).
Proof.
  unfold overlaps, jaccard.
  assert (MW := conj (Q.le_min_l (xmax a) (xmax b)) (Q.le_min_r (xmax a) (xmax b))).
  assert (MX := conj (Q.le_max_l (xmin a) (xmin b)) (Q.le_max_r (xmin a) (xmin b))).
  assert (MH := conj (Q.le_min_l (ymax a) (ymax b)) (Q.le_min_r (ymax a) (ymax b))).
  assert (MY := conj (Q.le_max_l (ymin a) (ymin b)) (Q.le_max_r (ymin a) (ymin b))).
  unfold intersect.
  destruct (qlt (xmax a) (xmin b) || qlt (xmax b) (xmin a) || qlt (ymax a) (ymin b) || qlt (ymax b) (ymin a)) eqn:D; cbn [xmax xmin ymax ymin].
  - change (qlt 0 (0 - 0)) with false. cbn [andb]. right. split; [|reflexivity]. unfold common_width, common_height.
    rewrite !orb_true_iff in D. destruct D as [[[D|D]|D]|D]; apply qlt_iff in D; [left|left|right|right]; lra.
  - set (w := (std_min (xmax a) (xmax b) - std_max (xmin a) (xmin b))%Q). set (h := (std_min (ymax a) (ymax b) - std_max (ymin a) (ymin b))%Q).
    assert (EW : (w == common_width a b)%Q) by (unfold w, common_width; now rewrite std_min_ok, std_max_ok).
    assert (EH : (h == common_height a b)%Q) by (unfold h, common_height; now rewrite std_min_ok, std_max_ok).
    clearbody w h.
    destruct (qlt 0 w) eqn:LW; [|right; split; [left; apply qlt_false in LW; lra|reflexivity]].
    destruct (qlt 0 h) eqn:LH; [|right; split; [right; apply qlt_false in LH; lra|reflexivity]].
    apply qlt_iff in LW, LH. cbn [andb]. left.
    assert (P : (0 < area a + area b - common_width a b * common_height a b)%Q).
    { unfold area. apply union_positive; unfold common_width, common_height in *; lra. }
    split; [lra|]. split; [lra|]. split; [exact P|].
    rewrite (size_area a), (size_area b) by (unfold common_width, common_height in *; lra). rewrite EW, EH. field. lra.
Qed.
Lemma overlaps_unique a b o o' : overlaps a b o -> overlaps a b o' -> (o == o')%Q.
Proof.
  unfold overlaps. set (s := (common_width a b * common_height a b)%Q). intros [(A & B & C & D)|(A & B)] [(A' & B' & C' & D')|(A' & B')].
  - apply (Qmult_inj_r o o' (area a + area b - s)); [lra|]. now rewrite D, D'.
  - exfalso. destruct A'; lra.
  - exfalso. destruct A; lra.
  - now rewrite B, B'.
Qed.

(** *** Decoding *)
Lemma decode_ok expq p b v x : (code p = 1 \/ ((code p = 2 \/ code p = 3) /\ (0 < width b)%Q /\ (0 < height b)%Q)) ->
  exists r, decode expq p b v x = SOk r /\ decoded expq p b v x r.
Proof.
  intros H. unfold decode, decoded, scaled. destruct H as [H|(H & W & T)].
  - rewrite H. cbn [Z.eqb Pos.eqb]. eexists. split; [reflexivity|]. left. destruct (in_target p); cbn; repeat split; reflexivity.
  - apply qlt_iff in W, T. unfold width, height in W, T. destruct H as [H|H]; rewrite H; cbn [Z.eqb Pos.eqb]; rewrite W, T; cbn [negb orb]; eexists; (split; [reflexivity|]).
    + right. left. unfold centre_x, centre_y, width, height. destruct (in_target p); cbn [xmin ymin xmax ymax]; (split; [reflexivity|]); (split; [field|]); (split; [field|]); (split; field).
    + right. right. unfold width, height. destruct (in_target p); cbn [xmin ymin xmax ymax]; repeat split; reflexivity.
Qed.

(** *** Ranking *)
Section Rank.
Variable s : Z -> Q.
Notation before := (fun i j => (s j < s i)%Q \/ ((s i == s j)%Q /\ i < j)).
Lemma insert_perm i l : Permutation (insert s i l) (i :: l).
Proof.
  induction l as [|j r IH]; [apply Permutation_refl|]. cbn [insert]. destruct (qlt (s j) (s i)); [apply Permutation_refl|].
  rewrite IH. apply perm_swap.
Qed.
Lemma insert_sorted i l : StronglySorted before l -> (forall j, In j l -> j < i) -> StronglySorted before (insert s i l).
Proof.
  induction 1 as [|j r SS IH FA]; intros H; [constructor; constructor|]. cbn [insert]. destruct (qlt (s j) (s i)) eqn:E.
  - apply qlt_iff in E. constructor; [constructor; assumption|]. constructor; [now left|].
    rewrite Forall_forall in FA |- *. intros k Hk. left. destruct (FA k Hk) as [L|(L & _)]; lra.
  - apply qlt_false in E. constructor; [apply IH; intros k Hk; apply H; now right|].
    rewrite Forall_forall in FA |- *. intros k Hk. apply (Permutation_in _ (insert_perm i r)) in Hk. destruct Hk as [<-|Hk]; [|auto].
    destruct (Qlt_le_dec (s i) (s j)) as [L|L]; [now left|right; split; [lra|apply H; now left]].
Qed.
Lemma stable_sort_perm l : Permutation (stable_sort s l) l.
Proof.
  unfold stable_sort. assert (G : forall acc, Permutation (fold_left (fun a i => insert s i a) l acc) (acc ++ l)).
  { induction l as [|i l IH]; intros acc; cbn [fold_left]; [now rewrite app_nil_r|]. rewrite IH, insert_perm. cbn. apply Permutation_middle. }
  exact (G []).
Qed.
Lemma stable_sort_sorted l : StronglySorted Z.lt l -> StronglySorted before (stable_sort s l).
Proof.
  unfold stable_sort. intros S.
  assert (G : forall acc, StronglySorted before acc -> (forall j i, In j acc -> In i l -> j < i) -> StronglySorted before (fold_left (fun a i => insert s i a) l acc)).
  { induction S as [|i l S IH FA]; intros acc A B; cbn [fold_left]; [exact A|]. apply IH.
    - apply insert_sorted; [exact A|]. intros j Hj. apply B; [exact Hj|now left].
    - intros j k Hj Hk. apply (Permutation_in _ (insert_perm i acc)) in Hj. destruct Hj as [<-|Hj]; [rewrite Forall_forall in FA; auto|]. apply B; [exact Hj|now right]. }
  apply G; [constructor|intros j i []].
Qed.
End Rank.
Lemma upto_sorted n : StronglySorted Z.lt (upto n).
Proof.
  unfold upto. generalize 0%nat. induction (Z.to_nat n) as [|k IH]; intros a; cbn; [constructor|]. constructor; [apply IH|].
  apply Forall_forall. intros x Hx. apply in_map_iff in Hx. destruct Hx as (y & <- & Hy). apply in_seq in Hy. lia.
Qed.
Lemma filter_sorted {A} (R : A -> A -> Prop) f l : StronglySorted R l -> StronglySorted R (filter f l).
Proof.
  induction 1 as [|x l S IH FA]; [constructor|]. cbn. destruct (f x); [|exact IH]. constructor; [exact IH|].
  rewrite Forall_forall in FA |- *. intros y Hy. apply filter_In in Hy. now apply FA.
Qed.
Lemma score_at l i : score l i = at_ l i. Proof. reflexivity. Qed.
Lemma max_score_index_ranked scores threshold k n : Z.of_nat (length scores) = n ->
  ranked n (score scores) threshold k (max_score_index scores threshold k).
Proof.
  intros L. unfold max_score_index. rewrite L.
  set (cand := filter (fun i => qlt threshold (score scores i)) (upto n)). exists (stable_sort (score scores) cand).
  split; [|split].
  - intros i. split.
    + intros H. apply (Permutation_in _ (stable_sort_perm _ cand)) in H. unfold cand in H. apply filter_In in H. destruct H as (H & Q). apply In_upto in H. apply qlt_iff in Q. auto.
    + intros (H & Q). apply (Permutation_in _ (Permutation_sym (stable_sort_perm _ cand))). unfold cand. apply filter_In. split; [now apply In_upto|now apply qlt_iff].
  - apply stable_sort_sorted. unfold cand. apply filter_sorted, upto_sorted.
  - unfold truncate_top. destruct (Z.ltb_spec (-1) k) as [K|K]; cbn [andb]; [|left; split; [lia|reflexivity]]. right. split; [lia|].
    destruct (Z.ltb_spec k (Z.of_nat (length (stable_sort (score scores) cand)))); [reflexivity|]. symmetry. apply firstn_all2. lia.
Qed.

(** *** Greedy suppression *)
Lemma limit_unique p n t t' : limit p n t -> limit p n t' -> t = t'.
Proof.
  intros H. revert t'. induction H as [|n t H IH A B|n t H IH A]; intros t' H'; inversion H'; subst.
  - reflexivity.
  - now rewrite (IH t0) by assumption.
  - rewrite (IH t') in * by assumption. exfalso. tauto.
  - rewrite (IH t0) in * by assumption. exfalso. tauto.
  - now apply IH.
Qed.
Lemma nms_loop_greedy p boxes t kept l : limit p (length kept) t -> greedy p (box_of boxes) kept l (nms_loop p boxes t kept l).
Proof.
  revert t kept. induction l as [|i l IH]; intros t kept L; cbn [nms_loop]; [constructor|].
  set (keep := forallb (fun k => Qle_bool (jaccard (box_of boxes i) (box_of boxes k)) t) kept). destruct keep eqn:K; cbn [andb].
  - apply greedy_keep with (t := t); [exact L| |].
    + intros k Hk. exists (jaccard (box_of boxes i) (box_of boxes k)). split; [apply jaccard_overlaps|].
      unfold keep in K. rewrite forallb_forall in K. apply Qle_bool_iff. now apply K.
    + apply IH. rewrite app_length. cbn [length]. rewrite Nat.add_1_r.
      destruct (qlt (eta p) 1) eqn:E; cbn [andb]; [destruct (qlt half t) eqn:H|].
      * apply qlt_iff in E, H. now apply limit_shrink.
      * apply qlt_false in H. apply limit_same; [exact L|]. intros (_ & X). lra.
      * apply qlt_false in E. apply limit_same; [exact L|]. intros (X & _). lra.
  - apply greedy_drop with (t := t); [exact L| |now apply IH].
    assert (N : exists k, In k kept /\ Qle_bool (jaccard (box_of boxes i) (box_of boxes k)) t = false).
    { unfold keep in K. clear -K. induction kept as [|k r IH]; [discriminate|]. cbn in K. destruct (Qle_bool _ _) eqn:Q in K; [|exists k; split; [now left|exact Q]].
      destruct (IH K) as (j & J & Q'). exists j. split; [now right|exact Q']. }
    destruct N as (k & Hk & Q). exists k, (jaccard (box_of boxes i) (box_of boxes k)). split; [exact Hk|]. split; [apply jaccard_overlaps|].
    apply Qnot_le_lt. intros X. apply Qle_bool_iff in X. congruence.
Qed.
(** what is kept was a candidate, once *)
Lemma nms_loop_in p boxes t kept l i : In i (nms_loop p boxes t kept l) -> In i kept \/ In i l.
Proof.
  revert t kept. induction l as [|j l IH]; intros t kept H; cbn [nms_loop] in H; [now left|]. apply IH in H. destruct H as [H|H]; [|right; now right].
  destruct (forallb _ kept) in H; [|now left]. apply in_app_iff in H. destruct H as [H|[<-|[]]]; [now left|right; now left].
Qed.
Lemma nms_loop_nodup p boxes t kept l : NoDup (kept ++ l) -> NoDup (nms_loop p boxes t kept l).
Proof.
  revert t kept. induction l as [|j l IH]; intros t kept H; cbn [nms_loop]; [now rewrite app_nil_r in H|]. apply IH.
  destruct (forallb _ kept); [now rewrite <- app_assoc|]. now apply NoDup_remove_1 in H.
Qed.
Lemma firstn_NoDup {A} k (l : list A) : NoDup l -> NoDup (firstn k l).
Proof.
  intros H. revert k. induction H as [|x l N H IH]; intros [|k]; cbn; try constructor; auto.
  intros C. apply N. rewrite <- (firstn_skipn k l). apply in_app_iff. now left.
Qed.
Lemma firstn_In {A} k (l : list A) x : In x (firstn k l) -> In x l.
Proof. intros H. rewrite <- (firstn_skipn k l). apply in_app_iff. now left. Qed.
Lemma max_score_index_nodup scores threshold k : NoDup (max_score_index scores threshold k).
Proof.
  unfold max_score_index, truncate_top.
  assert (N : NoDup (stable_sort (score scores) (filter (fun i => qlt threshold (score scores i)) (upto (Z.of_nat (length scores)))))).
  { eapply Permutation_NoDup; [apply Permutation_sym, stable_sort_perm|]. apply NoDup_filter, NoDup_upto. }
  destruct (_ && _); [now apply firstn_NoDup|exact N].
Qed.
Lemma max_score_index_in scores threshold k i : In i (max_score_index scores threshold k) -> 0 <= i < Z.of_nat (length scores).
Proof.
  unfold max_score_index, truncate_top. intros H.
  assert (G : In i (stable_sort (score scores) (filter (fun i => qlt threshold (score scores i)) (upto (Z.of_nat (length scores)))))).
  { destruct (_ && _) in H; [now apply firstn_In in H|exact H]. }
  apply (Permutation_in _ (stable_sort_perm _ _)) in G. apply filter_In in G. destruct G as (G & _). now apply In_upto in G.
Qed.
Lemma nms_fast_ok p boxes scores n : Z.of_nat (length scores) = n -> length boxes = length scores ->
  exists l, nms_fast p boxes scores = SOk l /\ survivors p n (score scores) (box_of boxes) l /\ NoDup l /\ forall i, In i l -> 0 <= i < n.
Proof.
  intros L E. unfold nms_fast. rewrite E, Nat.eqb_refl. cbn [negb]. eexists. split; [reflexivity|]. split; [|split].
  - exists (max_score_index scores (confidence p) (top p)). split; [now apply max_score_index_ranked|]. apply nms_loop_greedy. constructor.
  - apply nms_loop_nodup. cbn. apply max_score_index_nodup.
  - intros i H. apply nms_loop_in in H. destruct H as [[]|H]. apply max_score_index_in in H. lia.
Qed.

(** *** Grouping by label *)
Lemma group_one {A} (x : A) (a : Z) (F : Z -> list A) l : NoDup l -> In a l ->
  Permutation (flat_map (fun c => if a =? c then x :: F c else F c) l) (x :: flat_map F l).
Proof.
  induction 1 as [|d l N H IH]; intros I; [destruct I|]. cbn [flat_map]. destruct (Z.eqb_spec a d) as [->|E].
  - cbn. apply perm_skip. apply Permutation_app_head.
    assert (X : flat_map (fun c => if d =? c then x :: F c else F c) l = flat_map F l).
    { clear -N. induction l as [|e l IH]; [reflexivity|]. cbn. destruct (Z.eqb_spec d e) as [->|]; [exfalso; apply N; now left|]. rewrite IH; [reflexivity|]. intros C. apply N. now right. }
    now rewrite X.
  - destruct I as [->|I]; [congruence|]. rewrite (IH I). apply Permutation_sym, Permutation_middle.
Qed.
Lemma group_perm {A} (key : A -> Z) n l : (forall x, In x l -> 0 <= key x < n) ->
  Permutation (flat_map (fun c => filter (fun x => key x =? c) l) (upto n)) l.
Proof.
  induction l as [|x l IH]; intros H.
  - induction (upto n) as [|c u IHu]; [constructor|exact IHu].
  - cbn [filter]. rewrite (group_one x (key x) (fun c => filter (fun y => key y =? c) l) (upto n) (NoDup_upto n)).
    + apply perm_skip. apply IH. intros y Hy. apply H. now right.
    + apply In_upto. apply H. now left.
Qed.
Lemma flat_sorted (F : Z -> list (Z * Z)) l : StronglySorted Z.lt l -> (forall c x, In x (F c) -> fst x = c) ->
  StronglySorted (fun x y => fst x <= fst y) (flat_map F l).
Proof.
  intros S H. induction S as [|c l S IH FA]; [constructor|]. cbn [flat_map].
  assert (G : forall m, (forall x, In x m -> fst x = c) -> StronglySorted (fun x y : Z * Z => fst x <= fst y) (m ++ flat_map F l)).
  { induction m as [|x m IHm]; intros M; [exact IH|]. cbn. constructor; [apply IHm; intros y Hy; apply M; now right|].
    apply Forall_forall. intros y Hy. rewrite (M x) by now left. apply in_app_iff in Hy. destruct Hy as [Hy|Hy].
    - rewrite (M y) by now right. lia.
    - apply in_flat_map in Hy. destruct Hy as (d & Hd & Hy). rewrite (H d y Hy). rewrite Forall_forall in FA. specialize (FA d Hd). lia. }
  apply G. intros x. apply H.
Qed.
Lemma sum_lengths {X A} (r : X -> list A) (n : X -> Z) l : (forall x, In x l -> Z.of_nat (length (r x)) = n x) ->
  Z.of_nat (length (concat (map r l))) = fold_right Z.add 0 (map n l).
Proof.
  induction l as [|x l IH]; intros H; [reflexivity|]. cbn [map concat fold_right]. rewrite app_length, Nat2Z.inj_add, IH by (intros y Hy; apply H; now right).
  rewrite (H x) by now left. reflexivity.
Qed.
Lemma sorted_split {A} (R : A -> A -> Prop) k l x y : StronglySorted R l -> In x (firstn k l) -> In y l -> ~ In y (firstn k l) -> R x y.
Proof.
  intros S. revert k. induction S as [|z l S IH FA]; intros [|k] HX HY N; [destruct HX|destruct HX|destruct HX|]. cbn in *.
  destruct HY as [->|HY]; [exfalso; apply N; now left|]. destruct HX as [->|HX].
  - rewrite Forall_forall in FA. auto.
  - apply (IH k); [exact HX|exact HY|]. intros C. apply N. now right.
Qed.
