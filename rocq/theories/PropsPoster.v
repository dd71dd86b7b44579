(** Reading the report of yolo_poster. *)
From Coq Require Import List ZArith Bool QArith Qminmax Lia Lqa Permutation.
From Verif Require Import ShapeModel ShapeSpec ShapeProofs KernelBase KernelSpec KernelProofs ResizeModel YoloModel
  NmsModel NmsSpec NmsProofs PosterModel PosterSpec PosterProofs.
Import ListNotations.
Local Open Scope Z_scope.

Lemma overlap1_ok a wa b wb : (overlap1 a wa b wb == Qmin (a + wa / 2) (b + wb / 2) - Qmax (a - wa / 2) (b - wb / 2))%Q.
Proof.
  unfold overlap1. cbv zeta. set (l1 := (a - wa / 2)%Q). set (l2 := (b - wb / 2)%Q). set (r1 := (a + wa / 2)%Q). set (r2 := (b + wb / 2)%Q). clearbody l1 l2 r1 r2.
  destruct (qlt l2 l1) eqn:E; [apply qlt_iff in E|apply qlt_false in E]; (destruct (qlt r1 r2) eqn:E'; [apply qlt_iff in E'|apply qlt_false in E']);
  [rewrite Q.max_l, Q.min_l by lra|rewrite Q.max_l, Q.min_r by lra|rewrite Q.max_r, Q.min_l by lra|rewrite Q.max_r, Q.min_r by lra]; reflexivity.
Qed.

Lemma intersection_ok u v : (box_intersection (clamp_box u) (clamp_box v) == intersection (rect_of_box u) (rect_of_box v))%Q.
Proof.
  destruct (clamped_sides u) as (A1 & A2 & A3 & A4 & _ & _). destruct (clamped_sides v) as (B1 & B2 & B3 & B4 & _ & _).
  unfold box_intersection. cbv zeta.
  pose proof (overlap1_ok (bx (clamp_box u)) (bw (clamp_box u)) (bx (clamp_box v)) (bw (clamp_box v))) as W.
  pose proof (overlap1_ok (by_ (clamp_box u)) (bh (clamp_box u)) (by_ (clamp_box v)) (bh (clamp_box v))) as H.
  rewrite A1, A2, B1, B2 in W. rewrite A3, A4, B3, B4 in H.
  set (w := overlap1 (bx (clamp_box u)) (bw (clamp_box u)) (bx (clamp_box v)) (bw (clamp_box v))) in *.
  set (h := overlap1 (by_ (clamp_box u)) (bh (clamp_box u)) (by_ (clamp_box v)) (bh (clamp_box v))) in *.
  unfold intersection, shared. rewrite <- W, <- H. clearbody w h. clear.
  destruct (qlt w 0) eqn:E; [apply qlt_iff in E|apply qlt_false in E]; cbn [orb].
  - rewrite (Q.max_r w 0) by lra. ring.
  - destruct (qlt h 0) eqn:E'; [apply qlt_iff in E'|apply qlt_false in E'].
    + rewrite (Q.max_r h 0) by lra. ring.
    + rewrite (Q.max_l w 0), (Q.max_l h 0) by lra. ring.
Qed.

Lemma union_ok u v : (box_union (clamp_box u) (clamp_box v) ==
  area (rect_of_box u) + area (rect_of_box v) - intersection (rect_of_box u) (rect_of_box v))%Q.
Proof.
  unfold box_union. rewrite intersection_ok. destruct (clamped_sides u) as (_ & _ & _ & _ & A5 & A6). destruct (clamped_sides v) as (_ & _ & _ & _ & B5 & B6).
  rewrite A5, A6, B5, B6. unfold area. ring.
Qed.

Lemma share_more_sym t r s : share_more t r s -> share_more t s r.
Proof.
  unfold share_more, iou. intros [A B]. rewrite (intersection_sym r s) in A, B. split; [lra|].
  assert (E : (area r + area s - intersection s r == area s + area r - intersection s r)%Q) by ring. rewrite E in B. exact B.
Qed.

Lemma above_iff t u v : proper (rect_of_box u) -> proper (rect_of_box v) ->
  iou_above t (clamp_box u) (clamp_box v) = true <-> share_more t (rect_of_box u) (rect_of_box v).
Proof.
  intros Pu Pv. unfold iou_above, share_more. cbv zeta.
  pose proof (intersection_ok u v) as I. pose proof (union_ok u v) as U.
  set (i := box_intersection (clamp_box u) (clamp_box v)) in *. set (n := box_union (clamp_box u) (clamp_box v)) in *.
  destruct (intersection_bound _ _ Pu Pv) as (I0 & I1 & I2). unfold iou. rewrite <- U, <- I.
  assert (Hn : (0 <= n)%Q) by lra. assert (Hi : (n == 0 -> i <= 0)%Q) by (intro; lra). clear - Hn Hi.
  destruct (Qeq_bool n 0) eqn:E.
  - apply Qeq_bool_iff in E. split; intro H.
    + apply qlt_iff in H. exfalso. specialize (Hi E). lra.
    + exfalso. destruct H as [H _]. lra.
  - assert (N : ~ (n == 0)%Q) by (intro X; apply Qeq_bool_iff in X; congruence). split; intro H.
    + apply qlt_iff in H. split; [|exact H]. destruct (Qlt_le_dec 0 n) as [|L]; [assumption|]. exfalso. apply N. apply Qle_antisym; assumption.
    + apply qlt_iff. tauto.
Qed.

Lemma rect_of_raw expq netw neth b o : rect_of_box (raw_box expq netw neth b o) = box_rect expq netw neth b o.
Proof. destruct o as [l [[r c] a]]. reflexivity. Qed.

Lemma proper_box x : (0 <= bw x)%Q -> (0 <= bh x)%Q -> proper (rect_of_box x).
Proof.
  intros Hw Hh. unfold proper, rect_of_box. cbn [x0 x1 y0 y1].
  assert (0 <= bw x / 2)%Q by (apply Qle_shift_div_l; lra). assert (0 <= bh x / 2)%Q by (apply Qle_shift_div_l; lra).
  split; apply clip_mono; lra.
Qed.

Lemma In_two {X} (L : list X) i j : In i L -> In j L -> i <> j -> exists u v w, L = u ++ i :: v ++ j :: w \/ L = u ++ j :: v ++ i :: w.
Proof.
  intros Hi Hj N. apply in_split in Hi. destruct Hi as (a & b & ->). apply in_app_or in Hj. destruct Hj as [Hj|[Hj|Hj]]; [|congruence|].
  - apply in_split in Hj. destruct Hj as (c & d & ->). exists c, d, b. right. rewrite <- app_assoc. reflexivity.
  - apply in_split in Hj. destruct Hj as (c & d & ->). exists a, c, d. now left.
Qed.

Lemma F2_map {X Y} (R : Y -> X -> Prop) (f : X -> Y) l : (forall x, In x l -> R (f x) x) -> Forall2 R (map f l) l.
Proof. induction l as [|x l IH]; intros H; cbn [map]; constructor; [apply H; now left|]. apply IH. intros y Hy. apply H. now right. Qed.

Lemma F2_at {X Y} (R : X -> Y -> Prop) l r : Forall2 R l r -> forall n x y, nth_error l n = Some x -> nth_error r n = Some y -> R x y.
Proof.
  induction 1 as [|a b l r H _ IH]; intros n x y Hx Hy; destruct n as [|n]; try discriminate.
  - injection Hx as <-. injection Hy as <-. exact H.
  - exact (IH n x y Hx Hy).
Qed.

Lemma prod_flat {X Y W} (f : X * Y -> list W) (l1 : list X) (l2 : list Y) : flat_map f (list_prod l1 l2) = flat_map (fun x => flat_map (fun y => f (x, y)) l2) l1.
Proof. induction l1 as [|x l1 IH]; [reflexivity|]. cbn [list_prod flat_map]. now rewrite flat_map_app, flat_map_map, IH. Qed.

Section Main.
Variable expq : Q -> Q.
Variable sort : (Z -> Z -> bool) -> list Z -> list Z.
Variables (thresh nms_thresh : Q) (netw neth classes : Z).
Hypothesis Hsort : sorts sort.
Hypothesis Hexp : forall v, (0 <= expq v)%Q.
Hypothesis Ht : (0 <= thresh)%Q.
Hypothesis Hnw : 0 < netw.
Hypothesis Hnh : 0 < neth.
Hypothesis Hc : 0 <= classes.

Section Image.
Variables (layers : list layer) (b : Z).
Hypothesis Hb : 0 <= b.
Hypothesis F : Forall (fits_layer classes b) layers.

Let objs := objects thresh b layers.
Let dets := map (fun d => Det (clamp_box (d_box d)) (d_prob d)) (map (det_of expq thresh netw neth classes b) objs).
Let total := Z.of_nat (length dets).
Let p := prob_of dets.
Let final := do_nms_sort sort nms_thresh (box_of dets) total classes p.
Let kept (i : nat) (k : Z) : bool := qlt thresh (final (Z.of_nat i) k).

Lemma total_objs : total = Z.of_nat (length objs).
Proof. unfold total, dets. now rewrite !map_length. Qed.

Lemma box_at_object i o : nth_error objs i = Some o -> box_of dets (Z.of_nat i) = clamp_box (raw_box expq netw neth b o).
Proof.
  intro H. unfold box_of. rewrite Nat2Z.id. apply nth_error_nth. unfold dets. rewrite !map_map. cbn [d_box]. now rewrite nth_error_map, H.
Qed.

Lemma prob_at_object i o k : 0 <= k < classes -> nth_error objs i = Some o ->
  p (Z.of_nat i) k = if qlt thresh (score b o k) then score b o k else 0%Q.
Proof.
  intros Hk H. unfold p, prob_of. rewrite Nat2Z.id.
  assert (E : nth i (map d_prob dets) [] = d_prob (det_of expq thresh netw neth classes b o)).
  { apply nth_error_nth. unfold dets. rewrite !map_map. cbn [d_prob]. now rewrite nth_error_map, H. }
  rewrite E. unfold det_of. cbn [d_prob]. apply nth_error_nth. rewrite nth_error_map.
  rewrite nth_error_upto by lia. reflexivity.
Qed.

Lemma object_layer o : In o objs -> exists l, In l layers /\ fst o = l /\ Forall (fun a => 0 <= a)%Q (p_anchors l).
Proof.
  intro H. apply filter_In in H. destruct H as [H _]. apply in_flat_map in H. destruct H as (l & Hl & H). exists l. split; [exact Hl|].
  split; [|rewrite Forall_forall in F; exact (fl_anchors _ _ _ (F l Hl))].
  unfold places_of in H. apply in_flat_map in H. destruct H as (r & _ & H). apply in_flat_map in H. destruct H as (c & _ & H).
  apply in_map_iff in H. destruct H as (a & <- & _). reflexivity.
Qed.

Lemma nth_nonneg l i : Forall (fun a => 0 <= a)%Q l -> (0 <= nth i l 0)%Q.
Proof. intro H. destruct (nth_in_or_default i l 0%Q) as [I|E]; [rewrite Forall_forall in H; now apply H|rewrite E; lra]. Qed.

Lemma div_nonneg v z : (0 <= v)%Q -> 0 < z -> (0 <= v / inject_Z z)%Q.
Proof.
  intros Hv Hz. apply Qle_shift_div_l; [change 0%Q with (inject_Z 0); rewrite <- Zlt_Qlt; exact Hz|lra].
Qed.

Lemma object_proper o : In o objs -> proper (rect_of_box (raw_box expq netw neth b o)).
Proof.
  intro H. destruct (object_layer o H) as (l & _ & E & Fa). destruct o as [l' [[r c] a]]. cbn [fst] in E. subst l'.
  apply proper_box; unfold raw_box, anchor; cbn [bw bh].
  - apply div_nonneg; [|exact Hnw]. apply Qmult_le_0_compat; [apply Hexp|now apply nth_nonneg].
  - apply div_nonneg; [|exact Hnh]. apply Qmult_le_0_compat; [apply Hexp|now apply nth_nonneg].
Qed.

Lemma object_above i j o o' : nth_error objs i = Some o -> nth_error objs j = Some o' ->
  iou_above nms_thresh (box_of dets (Z.of_nat i)) (box_of dets (Z.of_nat j)) = true <->
  share_more nms_thresh (box_rect expq netw neth b o) (box_rect expq netw neth b o').
Proof.
  intros Hi Hj. rewrite (box_at_object _ _ Hi), (box_at_object _ _ Hj), <- !rect_of_raw.
  apply above_iff; apply object_proper; eapply nth_error_In; eassumption.
Qed.

(** class [k], sorted *)
Lemma class_sorted k : 0 <= k < classes -> exists L pk, Permutation L (upto total) /\ NoDup L /\ (forall i, pk i k = p i k) /\
  (forall u a v c w, L = u ++ a :: v ++ c :: w -> (p c k <= p a k)%Q) /\
  forall i, final i k = nms_class nms_thresh (box_of dets) k L pk i k.
Proof.
  intro Hk. destruct (fold_nms nms_thresh (box_of dets) sort total (upto classes) (NoDup_upto classes) p k) as [_ G].
  destruct G as (pk & E & G); [now apply In_upto|].
  destruct (Hsort (fun a => pk a k) (upto total)) as [P O].
  exists (sort (fun a c => qlt (pk c k) (pk a k)) (upto total)), pk. split; [exact P|]. split.
  - apply (Permutation_NoDup (Permutation_sym P)). apply NoDup_upto.
  - split; [exact E|]. split; [|exact G]. intros u a v c w S'. rewrite <- !E. exact (O u a v c w S').
Qed.

Lemma final_cases i o k : 0 <= k < classes -> nth_error objs i = Some o ->
  (kept i k = true -> final (Z.of_nat i) k = score b o k /\ (thresh < score b o k)%Q) /\
  (kept i k = false -> (final (Z.of_nat i) k == 0)%Q).
Proof.
  intros Hk Ho. destruct (class_sorted k Hk) as (L & pk & _ & _ & E & _ & G). unfold kept. rewrite G.
  destruct (nms_either nms_thresh (box_of dets) k L pk (Z.of_nat i)) as [->| ->].
  - rewrite E, (prob_at_object i o k Hk Ho). destruct (qlt thresh (score b o k)) eqn:Q.
    + split; intro H; [split; [reflexivity|now apply qlt_iff]|congruence].
    + split; intro H; [exfalso; apply qlt_iff in H; lra|reflexivity].
  - split; intro H; [exfalso; apply qlt_iff in H; lra|reflexivity].
Qed.

Lemma in_sorted L i o : Permutation L (upto total) -> nth_error objs i = Some o -> In (Z.of_nat i) L.
Proof.
  intros P Ho. apply (Permutation_in _ (Permutation_sym P)). apply In_upto. rewrite total_objs.
  assert (i < length objs)%nat by (apply nth_error_Some; congruence). lia.
Qed.

Lemma image_ok : exists rows, poster_image expq sort thresh nms_thresh classes netw neth layers b = SOk rows /\
  reported expq netw neth thresh nms_thresh classes b layers rows kept.
Proof.
  unfold poster_image. rewrite (all_detections expq thresh netw neth classes b layers F Hc Hb). cbn [bind2]. cbv zeta.
  exists (rows_of thresh (box_of dets) final total classes). split; [reflexivity|]. split.
  - assert (E : rows_of thresh (box_of dets) final total classes =
      map (fun ik : nat * Z => let b0 := box_of dets (Z.of_nat (fst ik)) in
            [(bx b0 - bw b0 / 2)%Q; (by_ b0 - bh b0 / 2)%Q; bw b0; bh b0; final (Z.of_nat (fst ik)) (snd ik); inject_Z (snd ik)])
        (filter (fun ik => kept (fst ik) (snd ik)) (list_prod (seq 0 (length objs)) (upto classes)))).
    { unfold rows_of. rewrite total_objs. rewrite map_filter_flat, prod_flat. change (upto (Z.of_nat (length objs))) with (map Z.of_nat (seq 0 (Z.to_nat (Z.of_nat (length objs))))).
      rewrite Nat2Z.id, flat_map_map. reflexivity. }
    rewrite E. apply F2_map. intros [i k] H. cbn [fst snd]. cbv zeta. apply filter_In in H. destruct H as [H Hkp]. cbn [fst snd] in Hkp.
    apply in_prod_iff in H. destruct H as [Hi Hk]. apply in_seq in Hi. apply In_upto in Hk. fold objs in Hi.
    destruct (nth_error objs i) as [o|] eqn:Ho; [|apply nth_error_None in Ho; lia]. exists o. split; [exact Ho|].
    rewrite (box_at_object _ _ Ho). pose proof (clamped_sides (raw_box expq netw neth b o)) as S'. cbv zeta in S'. rewrite rect_of_raw in S'.
    destruct S' as (A1 & A2 & A3 & A4 & A5 & A6). destruct (final_cases i o k Hk Ho) as [Fk _]. destruct (Fk Hkp) as [Ef _].
    unfold row_says. do 5 eexists. split; [reflexivity|]. rewrite A1, A3, A5, A6, Ef. repeat split; try reflexivity; ring.
  - intros i k o Hk Ho Hkp. destruct (final_cases i o k Hk Ho) as [Fk _]. now destruct (Fk Hkp).
  - intros i j k o o' Hk N Ho Ho' Ki Kj X. fold objs in Ho, Ho'.
    destruct (class_sorted k Hk) as (L & pk & P & ND & E & _ & G).
    destruct (proj1 (final_cases i o k Hk Ho) Ki) as [Fi Si]. destruct (proj1 (final_cases j o' k Hk Ho') Kj) as [Fj Sj].
    assert (Ni : ~ (nms_class nms_thresh (box_of dets) k L pk (Z.of_nat i) k == 0)%Q) by (rewrite <- G, Fi; lra).
    assert (Nj : ~ (nms_class nms_thresh (box_of dets) k L pk (Z.of_nat j) k == 0)%Q) by (rewrite <- G, Fj; lra).
    destruct (In_two L (Z.of_nat i) (Z.of_nat j)) as (u & v & w & [S'|S']); [exact (in_sorted L i o P Ho)|exact (in_sorted L j o' P Ho')|lia| |].
    + pose proof (nms_apart nms_thresh (box_of dets) k L ND pk u _ v _ w S' Ni Nj) as A.
      apply (object_above i j o o' Ho Ho') in X. congruence.
    + pose proof (nms_apart nms_thresh (box_of dets) k L ND pk u _ v _ w S' Nj Ni) as A.
      apply share_more_sym in X. apply (object_above j i o' o Ho' Ho) in X. congruence.
  - intros i k o Hk Ho Hs Kf. fold objs in Ho. destruct (class_sorted k Hk) as (L & pk & P & ND & E & O & G).
    pose proof (proj2 (final_cases i o k Hk Ho) Kf) as F0. rewrite G in F0.
    assert (Np : ~ (pk (Z.of_nat i) k == 0)%Q).
    { rewrite E, (prob_at_object i o k Hk Ho). rewrite (proj2 (qlt_iff _ _) Hs). lra. }
    destruct (nms_dropped nms_thresh (box_of dets) k L ND pk (Z.of_nat i) (in_sorted L i o P Ho) Np F0) as (u & j & v & w & S' & Nj & A).
    assert (Hj : 0 <= j < total).
    { apply In_upto. apply (Permutation_in _ P). rewrite S'. apply in_or_app. right. now left. }
    rewrite total_objs in Hj. destruct (nth_error objs (Z.to_nat j)) as [o'|] eqn:Ho'; [|apply nth_error_None in Ho'; lia].
    exists (Z.to_nat j), o'. split; [exact Ho'|].
    assert (Kj : kept (Z.to_nat j) k = true).
    { destruct (kept (Z.to_nat j) k) eqn:Kj; [reflexivity|]. exfalso. apply Nj. rewrite <- G. pose proof (proj2 (final_cases _ o' k Hk Ho') Kj) as X. rewrite Z2Nat.id in X by lia. exact X. }
    split; [exact Kj|]. destruct (proj1 (final_cases _ o' k Hk Ho') Kj) as [Fj Sj]. split.
    + pose proof (O u j v (Z.of_nat i) w S') as Le. rewrite (prob_at_object i o k Hk Ho), (proj2 (qlt_iff _ _) Hs) in Le.
      rewrite <- (Z2Nat.id j) in Le by lia. rewrite (prob_at_object _ o' k Hk Ho'), (proj2 (qlt_iff _ _) Sj) in Le. exact Le.
    + apply (object_above _ i o' o Ho' Ho). rewrite Z2Nat.id by lia. exact A.
Qed.
End Image.

Lemma images_ok {X} (f : Z -> sres X) (R : Z -> X -> Prop) l : (forall n, In n l -> exists a, f n = SOk a /\ R n a) ->
  exists r, images f l = SOk r /\ Forall2 R l r.
Proof.
  induction l as [|n l IH]; intros H; [exists []; split; [reflexivity|constructor]|]. destruct (H n (or_introl eq_refl)) as (a & E & Ra).
  destruct IH as (r & Er & Fr); [intros m Hm; apply H; now right|]. exists (a :: r). cbn [images]. rewrite E. cbn [bind2]. rewrite Er. split; [reflexivity|now constructor].
Qed.

(** C152.  The report of every image: exactly the objects above the
    threshold, each class suppressed greedily. *)
Theorem C152_poster_partial layers last batch rest :
  t_shape (p_out last) = batch :: rest -> p_classes last = classes -> 0 <= batch ->
  (forall b, 0 <= b < batch -> Forall (fits_layer classes b) (layers ++ [last])) ->
  exists reports, yolo_poster expq sort thresh nms_thresh netw neth (layers ++ [last]) = SOk reports /\
    Z.of_nat (length reports) = batch /\
    forall b rows, nth_error reports b = Some rows ->
      exists kept, reported expq netw neth thresh nms_thresh classes (Z.of_nat b) (layers ++ [last]) rows kept.
Proof.
  intros Hs Hl Hb F. unfold yolo_poster. rewrite rev_app_distr. cbn [rev app]. rewrite Hs, Hl.
  destruct (images_ok (poster_image expq sort thresh nms_thresh classes netw neth (layers ++ [last]))
    (fun b rows => exists kept, reported expq netw neth thresh nms_thresh classes b (layers ++ [last]) rows kept) (upto batch)) as (r & E & Fr).
  { intros n Hn. apply In_upto in Hn. destruct (image_ok (layers ++ [last]) n (proj1 Hn) (F n Hn)) as (rows & R & K). exists rows. split; [exact R|]. eexists. exact K. }
  exists r. split; [exact E|].
  assert (Len : length (upto batch) = length r) by (clear -Fr; induction Fr; cbn [length]; congruence). rewrite length_upto in Len.
  split; [lia|]. intros b rows Hr.
  assert (Hbb : (b < length r)%nat) by (apply nth_error_Some; congruence).
  assert (Hu : nth_error (upto batch) b = Some (Z.of_nat b)) by (rewrite <- (Nat2Z.id b) at 1; apply nth_error_upto; lia).
  exact (F2_at _ _ _ Fr _ _ _ Hu Hr).
Qed.
End Main.
Print Assumptions C152_poster_partial.

(** Every reported box is inside the unit square. *)
Theorem C152_inside expq netw neth thresh nms_thresh classes b layers rows kept :
  reported expq netw neth thresh nms_thresh classes b layers rows kept ->
  Forall (fun row => (0 <= nth 0 row 0 /\ 0 <= nth 1 row 0 /\ nth 0 row 0 + nth 2 row 0 <= 1 /\ nth 1 row 0 + nth 3 row 0 <= 1)%Q) rows.
Proof.
  intros [R _ _ _]. induction R as [|row ik rows l H _ IH]; constructor; [|exact IH].
  destruct H as (o & _ & x & y & w & h & s & -> & A & B & C & D & _). cbn [nth].
  assert (K : forall v, (0 <= clip v <= 1)%Q) by exact clip_range.
  destruct o as [l0 [[r c] a]]. cbn [box_rect x0 y0 x1 y1] in A, B, C, D. rewrite A, B in *.
  set (w' := (expq (number b (l0, (r, c, a)) 2) * anchor (l0, (r, c, a)) 0 / inject_Z netw)%Q) in *.
  set (h' := (expq (number b (l0, (r, c, a)) 3) * anchor (l0, (r, c, a)) 1 / inject_Z neth)%Q) in *.
  rewrite C, D. split; [apply K|]. split; [apply K|]. split; apply K.
Qed.
Print Assumptions C152_inside.

(** Layers with different numbers of classes are refused. *)
Theorem C152_classes_refused expq sort thresh nms_thresh netw neth classes batch rest b0 c0 h0 w0 (good more layers : list layer) (bad last : layer) :
  layers = good ++ bad :: more -> last = List.last more bad ->
  0 <= classes -> p_classes last = classes -> t_shape (p_out last) = batch :: rest -> 0 < batch ->
  Forall (fits_layer classes 0) good -> t_shape (p_out bad) = [b0; c0; h0; w0] -> p_classes bad <> classes ->
  yolo_poster expq sort thresh nms_thresh netw neth layers = SErr.
Proof.
  intros El Ea Hc Hl Hs Hb F Sb Nb. unfold yolo_poster.
  assert (E : exists r, rev layers = last :: r).
  { rewrite El, Ea. destruct (exists_last (l := bad :: more) ltac:(discriminate)) as (m & x & E).
    assert (List.last more bad = x).
    { transitivity (List.last (bad :: more) bad); [destruct more; reflexivity|]. rewrite E. apply last_last. }
    rewrite E. rewrite app_assoc, rev_app_distr. cbn [rev app]. eexists. now rewrite H. }
  destruct E as (r & ->). rewrite Hs, Hl.
  assert (U : exists l, upto batch = 0 :: l) by (unfold upto; destruct (Z.to_nat batch) eqn:Eb; [lia|]; cbn; eauto).
  destruct U as (l & ->). cbn [images]. unfold poster_image at 1.
  assert (C : collect (get_yolo_detections expq thresh classes netw neth 0) layers = SErr).
  { rewrite El. clear -F Sb Nb Hc. induction F as [|g good Hg _ IH]; cbn [app collect].
    - unfold get_yolo_detections. rewrite Sb. destruct (Z.eqb_spec (p_classes bad) classes); [contradiction|]. reflexivity.
    - destruct (fl_shape _ _ _ Hg) as (bt & h & w & Sg & Hbt). rewrite (layer_detections expq thresh netw neth classes 0 g Hg Hc (Z.le_refl 0) bt h w Sg Hbt).
      cbn [bind2]. rewrite IH. reflexivity. }
  rewrite C. reflexivity.
Qed.
Print Assumptions C152_classes_refused.

(** *** A sort *)
Lemma insert_perm lt x l : Permutation (insert_by lt x l) (x :: l).
Proof.
  induction l as [|y l IH]; [reflexivity|]. cbn [insert_by]. destruct (lt y x); [|reflexivity].
  rewrite IH. apply perm_swap.
Qed.

Definition ordered (key : Z -> Q) (l : list Z) : Prop := forall u a v b w, l = u ++ a :: v ++ b :: w -> (key b <= key a)%Q.

Lemma ordered_cons key x l : ordered key (x :: l) <-> (forall y, In y l -> (key y <= key x)%Q) /\ ordered key l.
Proof.
  split.
  - intros H. split.
    + intros y Hy. apply in_split in Hy. destruct Hy as (v & w & ->). exact (H [] x v y w eq_refl).
    + intros u a v b w ->. exact (H (x :: u) a v b w eq_refl).
  - intros [H1 H2] u a v b w E. destruct u as [|u0 u]; injection E as -> ->.
    + apply H1. apply in_or_app. right. now left.
    + exact (H2 u a v b w eq_refl).
Qed.

Lemma insert_ordered (key : Z -> Q) x l : ordered key l -> ordered key (insert_by (fun a b => negb (Qle_bool (key a) (key b))) x l).
Proof.
  induction l as [|y l IH]; intros H.
  - apply ordered_cons. split; [intros y []|]. intros u a v b w E. destruct u; discriminate.
  - cbn [insert_by]. apply ordered_cons in H. destruct H as [H1 H2].
    destruct (negb (Qle_bool (key y) (key x))) eqn:E.
    + apply ordered_cons. split; [|now apply IH]. intros z Hz. apply (Permutation_in _ (insert_perm _ x l)) in Hz.
      destruct Hz as [<-|Hz]; [|now apply H1]. apply qlt_iff in E. lra.
    + apply ordered_cons. apply negb_false_iff in E. apply Qle_bool_iff in E. split; [|apply ordered_cons; auto].
      intros z [<-|Hz]; [exact E|]. specialize (H1 z Hz). lra.
Qed.

Lemma insertion_sorts : sorts insertion_sort.
Proof.
  intros key l. cbv zeta. induction l as [|x l [P O]].
  - split; [reflexivity|]. intros u a v b w E. destruct u; discriminate.
  - cbn [insertion_sort fold_right]. fold (insertion_sort (fun a b => negb (Qle_bool (key a) (key b))) l). split.
    + rewrite insert_perm. now constructor.
    + now apply insert_ordered.
Qed.

(** *** Witnesses *)
(** one image of one pixel, two anchors of the same size, one class; both
    boxes are the whole square *)
Definition twins : layer := Packed (Tn 10 [1; 12; 1; 1] [1#2; 1#2; 0; 0; 1; 1;  1#2; 1#2; 0; 0; 1; 1 # 2]%Q) 1 [0; 1] [1; 1; 1; 1]%Q.

Lemma twins_fit : fits_layer 1 0 twins.
Proof.
  split; [split; [repeat constructor; lia|reflexivity]|reflexivity| | |].
  - exists 1, 1, 1. split; [reflexivity|lia].
  - repeat constructor; cbn; lia.
  - repeat constructor; cbn; lra.
Qed.

Example C152_example : exists reports,
  yolo_poster (fun _ => 1%Q) insertion_sort (1#4) (1#2) 1 1 [twins] = SOk reports /\
  map (map (map Qred)) reports = [[[0; 0; 1; 1; 1; 0]]]%Q.
Proof. eexists. split; [vm_compute; reflexivity|vm_compute; reflexivity]. Qed.

(** With a negative threshold what was suppressed is reported after all, with
    score 0, though the score of no object is 0. *)
Theorem C152_negative_threshold_refuted : exists rows row,
  yolo_poster (fun _ => 1%Q) insertion_sort (-1#4) (1#2) 1 1 [twins] = SOk [rows] /\ fits_layer 1 0 twins /\
  In row rows /\ Qeq (nth 4 row 1%Q) 0 /\ Forall (fun o => ~ (score 0 o 0 == 0)%Q) (objects (-1#4) 0 [twins]).
Proof.
  eexists _, _. split; [vm_compute; reflexivity|]. split; [exact twins_fit|]. split; [right; left; reflexivity|]. split; [reflexivity|].
  unfold objects. vm_compute. repeat constructor; intro H; discriminate H.
Qed.
Print Assumptions C152_negative_threshold_refuted.

(** The number of channels is not compared with the anchors: a layer with too
    few is read past its end. *)
Theorem C152_channels_refuted : exists l, wf (p_out l) /\ p_classes l = 1 /\ length (t_shape (p_out l)) = 4%nat /\
  yolo_poster (fun _ => 1%Q) insertion_sort (1#4) (1#2) 1 1 [l] = SUndef.
Proof.
  exists (Packed (Tn 10 [1; 1; 1; 1] [1%Q]) 1 [0] [1%Q; 1%Q]). split; [split; [repeat constructor; lia|reflexivity]|].
  split; [reflexivity|]. split; [reflexivity|vm_compute; reflexivity].
Qed.
Print Assumptions C152_channels_refuted.

(** The inferred shapes are not those of the report. *)
Theorem C152_infer_refuted : exists reports,
  yolo_poster (fun _ => 1%Q) insertion_sort (1#4) (1#2) 1 1 [twins] = SOk [reports] /\ fits_layer 1 0 twins /\
  poster_infer (1#4) [twins] = SOk [[2; 6]] /\ length reports = 1%nat.
Proof. eexists. split; [vm_compute; reflexivity|]. split; [exact twins_fit|]. split; [vm_compute; reflexivity|reflexivity]. Qed.
Print Assumptions C152_infer_refuted.
