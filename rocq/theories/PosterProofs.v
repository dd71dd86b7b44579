(** Proofs about yolo_poster: detections and suppression. *)
From Coq Require Import List ZArith Bool QArith Qminmax Lia Lqa Permutation.
From Verif Require Import ShapeModel ShapeSpec ShapeProofs KernelBase KernelSpec KernelProofs ResizeModel YoloModel
  NmsModel NmsSpec NmsProofs PosterModel PosterSpec.
Import ListNotations.
Local Open Scope Z_scope.

(** *** Lists *)
Lemma upto_add a b : 0 <= a -> 0 <= b -> upto (a + b) = upto a ++ map (fun i => a + i) (upto b).
Proof.
  intros Ha Hb. unfold upto. rewrite Z2Nat.inj_add by assumption. rewrite seq_app, map_app. f_equal. cbn [plus].
  rewrite map_map. rewrite <- (Nat.add_0_r (Z.to_nat a)) at 1. generalize 0%nat. generalize (Z.to_nat b).
  induction n as [|n IH]; intros s; [reflexivity|]. cbn [seq map]. f_equal; [rewrite Nat2Z.inj_add, Z2Nat.id by assumption; reflexivity|].
  rewrite <- Nat.add_succ_r. apply IH.
Qed.

Lemma upto_grid h w : 0 <= h -> 0 <= w -> upto (w * h) = flat_map (fun r => map (fun c => r * w + c) (upto w)) (upto h).
Proof.
  intros Hh Hw. pattern h. apply natlike_ind; [rewrite Z.mul_0_r; reflexivity| |exact Hh]. intros k Hk IH.
  replace (w * Z.succ k) with (w * k + w) by ring. rewrite upto_add by nia. rewrite IH.
  replace (Z.succ k) with (k + 1) by ring. rewrite (upto_add k 1) by lia. rewrite flat_map_app. f_equal.
  change (upto 1) with [0]. cbn [map flat_map]. rewrite app_nil_r. apply map_ext. intros c. ring.
Qed.

Lemma collect_ok {X Y} (f : X -> sres (list Y)) g l : (forall x, In x l -> f x = SOk (g x)) -> collect f l = SOk (flat_map g l).
Proof.
  induction l as [|x l IH]; intros H; [reflexivity|]. cbn [collect flat_map]. rewrite H by now left. cbn [bind2].
  rewrite IH by (intros y Hy; apply H; now right). reflexivity.
Qed.

Lemma flat_map_flat_map {X Y W} (f : Y -> list W) (g : X -> list Y) l : flat_map f (flat_map g l) = flat_map (fun x => flat_map f (g x)) l.
Proof. induction l as [|x l IH]; [reflexivity|]. cbn [flat_map]. now rewrite flat_map_app, IH. Qed.
Lemma flat_map_map {X Y W} (f : Y -> list W) (g : X -> Y) l : flat_map f (map g l) = flat_map (fun x => f (g x)) l.
Proof. induction l as [|x l IH]; [reflexivity|]. cbn [map flat_map]. now rewrite IH. Qed.
Lemma map_filter_flat {X Y} (f : X -> Y) P l : map f (filter P l) = flat_map (fun o => if P o then [f o] else []) l.
Proof. induction l as [|x l IH]; [reflexivity|]. cbn [filter flat_map]. destruct (P x); cbn [map app]; now rewrite IH. Qed.
Lemma flat_map_eq {X Y} (f g : X -> list Y) l : (forall x, In x l -> f x = g x) -> flat_map f l = flat_map g l.
Proof. induction l as [|x l IH]; intros H; [reflexivity|]. cbn [flat_map]. rewrite H by now left. rewrite IH; [reflexivity|]. intros y Hy. apply H. now right. Qed.

(** *** Detections *)
Section Detect.
Variable expq : Q -> Q.
Variables (thresh : Q) (netw neth : Z).

Definition raw_box (b : Z) (o : place) : box :=
  let '(l, (r, c, a)) := o in
  Box ((inject_Z c + number b o 0) / inject_Z (width l))%Q ((inject_Z r + number b o 1) / inject_Z (height l))%Q
      (expq (number b o 2) * anchor o 0 / inject_Z netw)%Q (expq (number b o 3) * anchor o 1 / inject_Z neth)%Q.

Definition det_of (classes b : Z) (o : place) : detection :=
  Det (raw_box b o) (map (fun k => if qlt thresh (score b o k) then score b o k else 0%Q) (upto classes)).

Lemma entry_at w h outputs classes a i e : 0 <= i < w * h -> 0 <= a ->
  entry_index w h outputs classes 0 (a * w * h + i) e = SOk ((a * (5 + classes) + e) * (w * h) + i).
Proof.
  intros Hi Ha. unfold entry_index. destruct (Z.eqb_spec (w * h) 0) as [E|_]; [lia|].
  replace (a * w * h + i) with (i + a * (w * h)) by ring. rewrite Z.quot_add, Z.rem_add by (try lia; apply Z.mul_nonneg_nonneg; nia).
  rewrite Z.quot_small, Z.rem_small by exact Hi. f_equal. ring.
Qed.

Section Layer.
Variables (classes b : Z) (l : layer).
Hypothesis F : fits_layer classes b l.
Hypothesis Hc : 0 <= classes.
Hypothesis Hb : 0 <= b.
Variables (batch h w : Z).
Let n := Z.of_nat (length (p_mask l)).
Hypothesis Hs : t_shape (p_out l) = [batch; n * (5 + classes); h; w].
Hypothesis Hbb : b < batch.

Lemma sizes_of : height l = h /\ width l = w /\ 0 <= h /\ 0 <= w.
Proof.
  unfold height, width. rewrite Hs. cbn [nth]. split; [reflexivity|]. split; [reflexivity|]. destruct F as [[W _] _ _ _ _]. rewrite Hs in W.
  split; [exact (Forall_inv (Forall_inv_tail (Forall_inv_tail W)))|exact (Forall_inv (Forall_inv_tail (Forall_inv_tail (Forall_inv_tail W))))].
Qed.

Lemma load_number r c a e : 0 <= r < h -> 0 <= c < w -> 0 <= a < n -> 0 <= e < 5 + classes ->
  load (t_data (p_out l)) (b * (n * (5 + classes) * h * w) + ((a * (5 + classes) + e) * (w * h) + (r * w + c))) = SOk (number b (l, (r, c, a)) e).
Proof.
  intros Hr Hcc Ha He. destruct F as [[W Wl] Fc _ _ _]. unfold number, elt. rewrite Hs, Fc. rewrite Hs in Wl.
  set (pos := b * (n * (5 + classes) * h * w) + ((a * (5 + classes) + e) * (w * h) + (r * w + c))).
  assert (Ep : position [batch; n * (5 + classes); h; w] [b; a * (5 + classes) + e; r; c] = pos) by (unfold pos; cbn [position elements]; ring).
  assert (Bp : 0 <= pos < Z.of_nat (length (t_data (p_out l)))).
  { rewrite <- Ep, Wl. apply position_bound. assert (Hch : 0 <= a * (5 + classes) + e < n * (5 + classes)) by nia.
    constructor; [lia|]. constructor; [exact Hch|]. constructor; [lia|]. constructor; [lia|]. constructor. }
  rewrite Ep. unfold load. destruct (Z.ltb_spec pos 0); [lia|].
  destruct (nth_error (t_data (p_out l)) (Z.to_nat pos)) as [v|] eqn:E; [reflexivity|]. apply nth_error_None in E. lia.
Qed.

Lemma class_probs_ok r c a js : 0 <= r < h -> 0 <= c < w -> 0 <= a < n -> Forall (fun j => 0 <= j < classes) js ->
  class_probs thresh (t_data (p_out l)) (b * (n * (5 + classes) * h * w)) w h (n * (5 + classes) * h * w) classes (a * w * h + (r * w + c))
    (number b (l, (r, c, a)) 4) js =
  SOk (map (fun k => if qlt thresh (score b (l, (r, c, a)) k) then score b (l, (r, c, a)) k else 0%Q) js).
Proof.
  intros Hr Hcc Ha. induction 1 as [|j js Hj _ IH]; [reflexivity|]. cbn [class_probs map].
  rewrite entry_at by (try lia; nia). cbn [bind2]. rewrite load_number by lia. cbn [bind2]. rewrite IH. cbn [bind2].
  replace (4 + 1 + j) with (5 + j) by ring. reflexivity.
Qed.

Lemma detect_ok r c a : 0 <= r < h -> 0 <= c < w -> 0 <= a < n ->
  detect expq thresh (p_out l) w h (n * (5 + classes) * h * w) classes (b * (n * (5 + classes) * h * w)) l netw neth (r * w + c) a =
  SOk (if negb (Qle_bool (number b (l, (r, c, a)) 4) thresh) then [det_of classes b (l, (r, c, a))] else []).
Proof.
  intros Hr Hcc Ha. unfold detect. cbv zeta. rewrite entry_at by (try lia; nia). cbn [bind2]. rewrite load_number by lia. cbn [bind2].
  destruct (Qle_bool (number b (l, (r, c, a)) 4) thresh); [reflexivity|]. cbn [negb].
  rewrite entry_at by (try lia; nia). cbn [bind2].
  assert (Em : exists m, nth_error (p_mask l) (Z.to_nat a) = Some m).
  { destruct (nth_error (p_mask l) (Z.to_nat a)) as [m|] eqn:E; [eauto|]. apply nth_error_None in E. unfold n in Ha. lia. }
  destruct Em as (m & Em). assert (Lm : load (p_mask l) a = SOk m) by (unfold load; destruct (Z.ltb_spec a 0); [lia|]; now rewrite Em).
  assert (Hm : 0 <= m /\ 2 * m + 1 < Z.of_nat (length (p_anchors l))).
  { pose proof (fl_mask _ _ _ F) as Fm. rewrite Forall_forall in Fm. apply Fm. exact (nth_error_In _ _ Em). }
  assert (Nm : nth (Z.to_nat a) (p_mask l) 0 = m) by exact (nth_error_nth _ _ 0 Em).
  assert (La : forall k, 0 <= k <= 1 -> load (p_anchors l) (2 * m + k) = SOk (anchor (l, (r, c, a)) k)).
  { intros k Hk. unfold anchor. rewrite Nm. unfold load. destruct (Z.ltb_spec (2 * m + k) 0); [lia|].
    destruct (nth_error (p_anchors l) (Z.to_nat (2 * m + k))) as [v|] eqn:E; [now rewrite (nth_error_nth _ _ 0%Q E)|]. apply nth_error_None in E. lia. }
  rewrite Lm. cbn [bind2]. unfold get_yolo_box. 
  assert (Ld : forall e, 0 <= e < 4 -> load (t_data (p_out l)) (b * (n * (5 + classes) * h * w) + ((a * (5 + classes) + 0) * (w * h) + (r * w + c) + e * (w * h))) = SOk (number b (l, (r, c, a)) e)).
  { intros e He. rewrite <- load_number by lia. f_equal. ring. }
  rewrite !Ld by lia. cbn [bind2]. rewrite <- (Z.add_0_r (2 * m)) at 1. rewrite !La by lia. cbn [bind2].
  rewrite class_probs_ok; [|assumption..|apply Forall_forall; intros j Hj; now apply In_upto in Hj]. cbn [bind2].
  unfold det_of, raw_box. destruct sizes_of as (-> & -> & _ & _).
  assert (Hp : 0 <= r * w + c) by nia.
  assert (EQ : Z.quot (r * w + c) w = r) by (rewrite Z.quot_div_nonneg by lia; rewrite Z.div_add_l by lia; rewrite Z.div_small by lia; ring).
  assert (ER : Z.rem (r * w + c) w = c) by (rewrite Z.rem_mod_nonneg by lia; rewrite Z.add_comm, Z.mod_add by lia; now rewrite Z.mod_small by lia).
  rewrite EQ, ER. reflexivity.
Qed.

Lemma layer_detections :
  get_yolo_detections expq thresh classes netw neth b l =
  SOk (map (det_of classes b) (filter (fun o => negb (Qle_bool (number b o 4) thresh)) (places_of l))).
Proof.
  destruct sizes_of as (Eh & Ew & Hh & Hw). unfold get_yolo_detections. rewrite Hs. rewrite (fl_classes _ _ _ F), Z.eqb_refl. cbn [negb]. cbv zeta. fold n.
  rewrite map_filter_flat. unfold places_of. rewrite Eh, Ew. fold n. rewrite flat_map_flat_map.
  assert (G : forall i, In i (upto (w * h)) ->
    collect (fun a => detect expq thresh (p_out l) w h (n * (5 + classes) * h * w) classes (b * (n * (5 + classes) * h * w)) l netw neth i a) (upto n) =
    SOk (flat_map (fun a => let o := (l, (i / w, i mod w, a)) in if negb (Qle_bool (number b o 4) thresh) then [det_of classes b o] else []) (upto n))).
  { intros i Hi. apply In_upto in Hi. apply collect_ok. intros a Ha. apply In_upto in Ha.
    assert (Hw' : 0 < w) by nia. pose proof (Z.div_mod i w ltac:(lia)) as D. pose proof (Z.mod_pos_bound i w Hw') as M.
    assert (0 <= i / w < h) by (split; [apply Z.div_pos; lia|apply Z.div_lt_upper_bound; lia]).
    cbv zeta. rewrite <- detect_ok by assumption. f_equal. rewrite D at 1. ring. }
  rewrite (collect_ok _ _ _ G). f_equal. rewrite upto_grid by assumption. rewrite flat_map_flat_map. apply flat_map_eq. intros r Hr. apply In_upto in Hr.
  rewrite flat_map_map, flat_map_flat_map. apply flat_map_eq. intros c Hcc. apply In_upto in Hcc. rewrite flat_map_map. cbv zeta.
  assert (E1 : (r * w + c) / w = r) by (rewrite Z.div_add_l, Z.div_small by lia; lia).
  assert (E2 : (r * w + c) mod w = c) by (rewrite Z.add_comm, Z.mod_add, Z.mod_small by lia; reflexivity).
  rewrite E1, E2. reflexivity.
Qed.
End Layer.

Lemma all_detections classes b layers : Forall (fits_layer classes b) layers -> 0 <= classes -> 0 <= b ->
  collect (get_yolo_detections expq thresh classes netw neth b) layers = SOk (map (det_of classes b) (objects thresh b layers)).
Proof.
  intros F Hc Hb. rewrite (collect_ok _ (fun l => map (det_of classes b) (filter (fun o => negb (Qle_bool (number b o 4) thresh)) (places_of l)))).
  - f_equal. unfold objects. induction layers as [|l layers IH]; [reflexivity|]. cbn [flat_map]. rewrite filter_app, map_app. f_equal.
    apply IH. exact (Forall_inv_tail F).
  - intros l Hl. rewrite Forall_forall in F. pose proof (F l Hl) as Fl. destruct (fl_shape _ _ _ Fl) as (batch & h & w & Hs & Hbb).
    exact (layer_detections classes b l Fl Hc Hb batch h w Hs Hbb).
Qed.
End Detect.

(** *** Suppression *)
Section Suppress.
Variable nms_thresh : Q.
Variable boxes : Z -> box.

Lemma drop_other p j k i k' : (i <> j \/ k' <> k) -> drop p j k i k' = p i k'.
Proof. intro H. unfold drop. destruct (Z.eqb_spec i j), (Z.eqb_spec k' k); cbn [andb]; try reflexivity. destruct H; congruence. Qed.
Lemma drop_same p j k : drop p j k j k = 0%Q.
Proof. unfold drop. now rewrite !Z.eqb_refl. Qed.

Lemma suppress_class a k rest : forall p i k', k' <> k -> suppress nms_thresh boxes a k rest p i k' = p i k'.
Proof.
  induction rest as [|j rest IH]; intros p i k' H; [reflexivity|]. cbn [suppress]. rewrite IH by exact H.
  destruct (iou_above nms_thresh a (boxes j)); [|reflexivity]. apply drop_other. now right.
Qed.
Lemma suppress_out a k rest : forall p i, ~ In i rest -> suppress nms_thresh boxes a k rest p i k = p i k.
Proof.
  induction rest as [|j rest IH]; intros p i H; [reflexivity|]. cbn [suppress]. rewrite IH by (intro; apply H; now right).
  destruct (iou_above nms_thresh a (boxes j)); [|reflexivity]. apply drop_other. left. intros ->. apply H. now left.
Qed.
Lemma suppress_either a k rest : forall p i, suppress nms_thresh boxes a k rest p i k = p i k \/ suppress nms_thresh boxes a k rest p i k = 0%Q.
Proof.
  induction rest as [|j rest IH]; intros p i; [now left|]. cbn [suppress].
  destruct (IH (if iou_above nms_thresh a (boxes j) then drop p j k else p) i) as [->| ->]; [|now right].
  destruct (iou_above nms_thresh a (boxes j)); [|now left]. destruct (Z.eq_dec i j) as [->|N]; [right; apply drop_same|left; apply drop_other; now left].
Qed.
Lemma suppress_in a k rest : forall p i, In i rest -> iou_above nms_thresh a (boxes i) = true -> suppress nms_thresh boxes a k rest p i k = 0%Q.
Proof.
  induction rest as [|j rest IH]; intros p i Hin A; [destruct Hin|]. destruct Hin as [->|H]; cbn [suppress].
  - rewrite A. destruct (suppress_either a k rest (drop p i k) i) as [->| ->]; [apply drop_same|reflexivity].
  - apply IH; assumption.
Qed.
Lemma suppress_not a k rest : forall p i, iou_above nms_thresh a (boxes i) = false -> suppress nms_thresh boxes a k rest p i k = p i k.
Proof.
  induction rest as [|j rest IH]; intros p i A; [reflexivity|]. cbn [suppress]. rewrite IH by exact A.
  destruct (iou_above nms_thresh a (boxes j)) eqn:E; [|reflexivity]. apply drop_other. left. intros ->. congruence.
Qed.

Lemma nms_other k L : forall p i k', k' <> k -> nms_class nms_thresh boxes k L p i k' = p i k'.
Proof.
  induction L as [|a L IH]; intros p i k' H; [reflexivity|]. cbn [nms_class]. rewrite IH by exact H.
  destruct (Qeq_bool (p a k) 0); [reflexivity|]. now apply suppress_class.
Qed.
Lemma nms_out k L : forall p i, ~ In i L -> nms_class nms_thresh boxes k L p i k = p i k.
Proof.
  induction L as [|a L IH]; intros p i H; [reflexivity|]. cbn [nms_class]. rewrite IH by (intro; apply H; now right).
  destruct (Qeq_bool (p a k) 0); [reflexivity|]. apply suppress_out. intro. apply H. now right.
Qed.
Lemma nms_either k L : forall p i, nms_class nms_thresh boxes k L p i k = p i k \/ nms_class nms_thresh boxes k L p i k = 0%Q.
Proof.
  induction L as [|a L IH]; intros p i; [now left|]. cbn [nms_class].
  destruct (IH (if Qeq_bool (p a k) 0 then p else suppress nms_thresh boxes (boxes a) k L p) i) as [->| ->]; [|now right].
  destruct (Qeq_bool (p a k) 0); [now left|]. apply suppress_either.
Qed.

Lemma nms_apart k L : NoDup L -> forall p u i v j w, L = u ++ i :: v ++ j :: w ->
  ~ (nms_class nms_thresh boxes k L p i k == 0)%Q -> ~ (nms_class nms_thresh boxes k L p j k == 0)%Q -> iou_above nms_thresh (boxes i) (boxes j) = false.
Proof.
  induction 1 as [|a L Ha ND IH]; intros p u i v j w E Hi Hj; [destruct u; discriminate|]. destruct u as [|a' u].
  - injection E as -> ->. cbn [nms_class] in Hi, Hj. rewrite nms_out in Hi by exact Ha.
    destruct (Qeq_bool (p i k) 0) eqn:E0.
    + exfalso. apply Hi. now apply Qeq_bool_iff.
    + destruct (iou_above nms_thresh (boxes i) (boxes j)) eqn:A; [|reflexivity]. exfalso. apply Hj.
      destruct (nms_either k (v ++ j :: w) (suppress nms_thresh boxes (boxes i) k (v ++ j :: w) p) j) as [->| ->]; [|reflexivity].
      rewrite suppress_in; [reflexivity|apply in_or_app; right; now left|exact A].
  - injection E as <- ->. cbn [nms_class] in Hi, Hj. exact (IH _ u i v j w eq_refl Hi Hj).
Qed.

Lemma nms_dropped k L : NoDup L -> forall p j, In j L -> ~ (p j k == 0)%Q -> (nms_class nms_thresh boxes k L p j k == 0)%Q ->
  exists u i v w, L = u ++ i :: v ++ j :: w /\ ~ (nms_class nms_thresh boxes k L p i k == 0)%Q /\ iou_above nms_thresh (boxes i) (boxes j) = true.
Proof.
  induction 1 as [|a L Ha ND IH]; intros p j Hin Hp H0; [destruct Hin|]. cbn [nms_class] in *. destruct Hin as [->|Hin].
  - exfalso. apply Hp. rewrite nms_out in H0 by exact Ha. destruct (Qeq_bool (p j k) 0) eqn:E0; [now apply Qeq_bool_iff|].
    now rewrite suppress_out in H0 by exact Ha.
  - set (p1 := if Qeq_bool (p a k) 0 then p else suppress nms_thresh boxes (boxes a) k L p) in *.
    destruct (Qeq_bool (p1 j k) 0) eqn:E1.
    + apply Qeq_bool_iff in E1. unfold p1 in E1. destruct (Qeq_bool (p a k) 0) eqn:E0; [contradiction|].
      destruct (iou_above nms_thresh (boxes a) (boxes j)) eqn:A; [|rewrite suppress_not in E1 by exact A; contradiction].
      apply in_split in Hin. destruct Hin as (v & w & E). exists [], a, v, w. split; [now rewrite E|]. split; [|exact A].
      rewrite nms_out by exact Ha. unfold p1. rewrite suppress_out by exact Ha. intro X. apply Qeq_bool_iff in X. congruence.
    + destruct (IH p1 j Hin) as (u & i & v & w & E & G & A); [intro X; apply Qeq_bool_iff in X; congruence|exact H0|].
      exists (a :: u), i, v, w. split; [now rewrite E|]. auto.
Qed.

Variable sort : (Z -> Z -> bool) -> list Z -> list Z.

Lemma fold_nms total ks : NoDup ks -> forall p k,
  let final := fold_left (fun p k => nms_class nms_thresh boxes k (sort (fun a b => qlt (p b k) (p a k)) (upto total)) p) ks p in
  (~ In k ks -> forall i, final i k = p i k) /\
  (In k ks -> exists pk, (forall i, pk i k = p i k) /\
     forall i, final i k = nms_class nms_thresh boxes k (sort (fun a b => qlt (pk b k) (pk a k)) (upto total)) pk i k).
Proof.
  induction 1 as [|k0 ks Hk ND IH]; intros p k; cbn [fold_left].
  - split; [reflexivity|intros []].
  - set (p1 := nms_class nms_thresh boxes k0 (sort (fun a b => qlt (p b k0) (p a k0)) (upto total)) p).
    destruct (IH p1 k) as [I1 I2]. split.
    + intros H i. rewrite I1 by (intro; apply H; now right). unfold p1. apply nms_other. intros ->. apply H. now left.
    + intros [->|H].
      * exists p. split; [reflexivity|]. intro i. now apply I1.
      * destruct (I2 H) as (pk & E & G). exists pk. split; [|exact G]. intro i. rewrite E. unfold p1. apply nms_other. intros ->. contradiction.
Qed.
End Suppress.

(** *** Boxes *)
Definition rect_of_box (x : box) : rect :=
  Rect (clip (by_ x - bh x / 2)) (clip (bx x - bw x / 2)) (clip (by_ x + bh x / 2)) (clip (bx x + bw x / 2)).

Lemma clamp1_clip v : (clamp1 v == clip v)%Q.
Proof. unfold clamp1, clip. rewrite std_max_ok, std_min_ok. reflexivity. Qed.

Lemma clamped_sides x : let c := clamp_box x in let r := rect_of_box x in
  (bx c - bw c / 2 == x0 r /\ bx c + bw c / 2 == x1 r /\ by_ c - bh c / 2 == y0 r /\ by_ c + bh c / 2 == y1 r /\
   bw c == x1 r - x0 r /\ bh c == y1 r - y0 r)%Q.
Proof.
  cbv zeta. unfold clamp_box, rect_of_box. cbn [bx by_ bw bh x0 x1 y0 y1].
  pose proof (clamp1_clip (bx x - bw x / 2)) as A. pose proof (clamp1_clip (bx x + bw x / 2)) as B.
  pose proof (clamp1_clip (by_ x - bh x / 2)) as C. pose proof (clamp1_clip (by_ x + bh x / 2)) as D.
  repeat split; rewrite <- ?A, <- ?B, <- ?C, <- ?D; field.
Qed.

Lemma clip_mono u v : (u <= v)%Q -> (clip u <= clip v)%Q.
Proof. intro H. unfold clip. apply Q.max_le_compat_l. apply Q.min_le_compat_l. exact H. Qed.
Lemma clip_range u : (0 <= clip u <= 1)%Q.
Proof. unfold clip. split; [apply Q.le_max_l|]. apply Q.max_lub; [lra|apply Q.le_min_l]. Qed.
