(** Depthwise convolution: the general kernel and the 3x3 kernels. *)
From Coq Require Import List ZArith Bool Lia Ring.
From Verif Require Import ShapeModel ShapeSpec ShapeProofs KernelBase KernelSpec KernelProofs LoopModel LoopProofs EltwiseModel EltwiseKernelProofs
  PoolingModel PoolingProofs GemmModel GemmSpec GemmProofs ConvModel ConvSpec ConvProofs DeconvProofs DepthwiseModel DepthwiseSpec.
Import ListNotations.
Local Open Scope Z_scope.

Lemma length_steps lo hi by_ : Z.of_nat (length (steps lo hi by_)) = Z.max 0 ((hi - lo + by_ - 1) / by_).
Proof. unfold steps. rewrite map_length, length_upto. lia. Qed.

Lemma length_range a b : Z.of_nat (length (range a b)) = Z.max 0 (b - a).
Proof. unfold range. rewrite map_length, length_upto. lia. Qed.

Section Proofs.
Context {R : Type} (rO rI : R) (radd rmul : R -> R -> R).
Hypothesis Rth : semi_ring_theory rO rI radd rmul eq.
Add Ring Rring : Rth.
Notation "a +! b" := (radd a b) (at level 50, left associativity).
Notation "a *! b" := (rmul a b) (at level 40, left associativity).
Notation sum_of := (sum_of rO radd).

Lemma sum_terms_ok {X} (f : X -> sres R) (v : X -> R) l : (forall x, In x l -> f x = SOk (v x)) ->
  forall acc, sum_terms radd acc (map f l) = SOk (acc +! suml rO radd v l).
Proof using Rth.
  induction l as [|x l IH]; intros H acc; cbn [map sum_terms]; [rewrite suml_nil; f_equal; ring|].
  rewrite (H x) by now left. rewrite IH by (intros; apply H; now right). rewrite suml_cons. f_equal. ring.
Qed.

Lemma terms_grid kh kw (f : list Z -> sres R) (v : Z -> Z -> R) :
  (forall p q, 0 <= p < kh -> 0 <= q < kw -> f [p; q] = SOk (v p q)) ->
  sum_terms radd rO (map f (loops [kh; kw])) = SOk (sum_of kh (fun p => sum_of kw (fun q => v p q))).
Proof using Rth.
  intros H. rewrite (sum_terms_ok f (fun c => match c with [p; q] => v p q | _ => rO end)).
  - f_equal. match goal with |- rO +! ?x = _ => transitivity x; [ring|] end.
    rewrite (suml_loops rO rI radd rmul Rth). apply sum_ext. intros p Hp. rewrite (suml_loops rO rI radd rmul Rth). apply sum_ext. intros q Hq.
    cbn [loops]. rewrite suml_cons, suml_nil. ring.
  - intros c Hc. apply In_loops in Hc. inversion Hc as [|? p ? c1 Hp Hc1]; subst. inversion Hc1 as [|? q ? c2 Hq Hc2]; subst. inversion Hc2; subst. now apply H.
Qed.

(** the value at a place of one plane *)
Definition plane_at (K : Z -> Z -> R) (image : Z -> Z -> R) (h w kh kw : Z) (pv : R) (win : window) (i j : Z) : R :=
  sum_of kh (fun p => sum_of kw (fun q =>
    K p q *! padded pv h w image (i * stride_h win + p * dil_h win - top win) (j * stride_w win + q * dil_w win - left_ win))).

(** stores that fill a plane with its values *)
Definition fills (V : Z -> Z -> R) (oh ow : Z) (tr : list (event R)) : Prop :=
  (forall d v, In (d, v) tr -> exists i j, 0 <= i < oh /\ 0 <= j < ow /\ d = i * ow + j /\ v = SOk (V i j)) /\
  (forall i j, 0 <= i < oh -> 0 <= j < ow -> In (i * ow + j) (map fst tr)).

Lemma general_fills (x k : Z -> sres R) h w kh kw oh ow win pv K image :
  0 <= oh -> 0 <= ow ->
  (forall i j, 0 <= i < h -> 0 <= j < w -> x (i * w + j) = SOk (image i j)) ->
  (forall p q, 0 <= p < kh -> 0 <= q < kw -> k (p * kw + q) = SOk (K p q)) ->
  fills (plane_at K image h w kh kw pv win) oh ow (plane_general rO radd rmul x k h w kh kw oh ow win pv).
Proof using Rth.
  intros Hoh How Hx Hk. unfold plane_general. split.
  - intros d v Hin. apply in_map_iff in Hin. destruct Hin as ((kk & c) & E & Hin). apply In_counted_loops in Hin. destruct Hin as [Hc ->].
    cbn [fst snd] in E. inversion Hc as [|? i ? c1 Hi Hc1]; subst. inversion Hc1 as [|? j ? c2 Hj Hc2]; subst. inversion Hc2; subst.
    apply pair_equal_spec in E. destruct E as [<- <-]. exists i, j. split; [exact Hi|]. split; [exact Hj|]. split; [cbn [position elements]; ring|].
    unfold plane_at. apply terms_grid. intros p q Hp Hq. rewrite Hk by assumption.
    replace (i * stride_h win + p * dil_h win - top win) with (- top win + i * stride_h win + p * dil_h win) by ring.
    replace (j * stride_w win + q * dil_w win - left_ win) with (- left_ win + j * stride_w win + q * dil_w win) by ring.
    set (a := - top win + i * stride_h win + p * dil_h win). set (b := - left_ win + j * stride_w win + q * dil_w win). unfold padded.
    destruct ((0 <=? a) && (a <? h) && (0 <=? b) && (b <? w)) eqn:E; [|reflexivity].
    rewrite !andb_true_iff, !Z.leb_le, !Z.ltb_lt in E. destruct E as (((E1 & E2) & E3) & E4). rewrite Hx by lia. reflexivity.
  - intros i j Hi Hj. apply in_map_iff. eexists. split; [|apply in_map_iff; exists (position [oh; ow] [i; j], [i; j]); split; [reflexivity|]].
    + cbn [fst position elements]. ring.
    + apply In_counted_loops. split; [repeat (constructor; [lia|]); constructor|reflexivity].
Qed.

Section Fast.
Variables (x k : Z -> sres R) (h w oh ow s : Z) (win : window) (pv : R) (K image : Z -> Z -> R).
Hypothesis Hs : s = 1 \/ s = 2.
Hypothesis Estride : stride_h win = s /\ stride_w win = s /\ dil_h win = 1 /\ dil_w win = 1.
Hypothesis Hx : forall i j, 0 <= i < h -> 0 <= j < w -> x (i * w + j) = SOk (image i j).
Hypothesis Hk : forall p q, 0 <= p < 3 -> 0 <= q < 3 -> k (p * 3 + q) = SOk (K p q).
Let V := plane_at K image h w 3 3 pv win.

Lemma inner_value i j : depthwise_inner rO radd rmul x k h w s ow win pv i j = (i * ow + j, SOk (V i j)).
Proof using All.
  unfold depthwise_inner. f_equal. unfold V, plane_at. apply terms_grid. intros p q Hp Hq. rewrite Hk by assumption.
  destruct Estride as (-> & -> & -> & ->).
  replace (i * s + p * 1 - top win) with (p + (i * s - top win)) by ring. replace (j * s + q * 1 - left_ win) with (q + (j * s - left_ win)) by ring.
  set (a := p + (i * s - top win)). set (b := q + (j * s - left_ win)). unfold padded.
  destruct ((0 <=? a) && (a <? h) && (0 <=? b) && (b <? w)) eqn:E; [|cbn [lift2]; f_equal; ring].
  rewrite !andb_true_iff, !Z.leb_le, !Z.ltb_lt in E. destruct E as (((E1 & E2) & E3) & E4). rewrite Hx by lia. cbn [lift2]. f_equal. ring.
Qed.

Lemma lanes_value i j : 0 <= i * s - top win -> i * s - top win + 2 < h -> 0 <= j * s - left_ win -> (j + 3) * s - left_ win + 2 < w ->
  lanes rO radd rmul x k w s ow win i j = map (fun l => (i * ow + (j + l), SOk (V i (j + l)))) (upto 4).
Proof using All.
  intros H1 H2 H3 H4. unfold lanes. apply map_ext_in. intros l Hl. apply In_upto in Hl. f_equal; [ring|]. unfold V, plane_at. apply terms_grid.
  intros p q Hp Hq. rewrite Hk by assumption. destruct Estride as (-> & -> & -> & ->).
  replace (i * s + p * 1 - top win) with (i * s - top win + p) by ring. replace ((j + l) * s + q * 1 - left_ win) with ((j + l) * s - left_ win + q) by ring.
  set (a := i * s - top win + p). set (b := (j + l) * s - left_ win + q).
  assert (Ha : 0 <= a < h) by lia. assert (Hb : 0 <= b < w) by (unfold b; destruct Hs as [->| ->]; lia).
  replace ((i * s - top win) * w + (j * s - left_ win) + p * w + q + l * s) with (a * w + b) by (unfold a, b; ring).
  rewrite Hx by assumption. cbn [lift2]. unfold padded.
  replace ((0 <=? a) && (a <? h) && (0 <=? b) && (b <? w)) with true by (symmetry; rewrite !andb_true_iff, !Z.leb_le, !Z.ltb_lt; lia). f_equal. ring.
Qed.

Variables (hs he ws we : Z).
Hypothesis Hhs : 0 <= hs <= oh.
Hypothesis Hhe : he <= oh.
Hypothesis Hws : 0 <= ws <= ow.
Hypothesis Hwe : we <= ow.
Hypothesis Hrow : forall i, hs <= i < he -> 0 <= i * s - top win /\ i * s - top win + 2 < h.
Hypothesis Hcol : forall j, ws <= j < we -> 0 <= j * s - left_ win /\ j * s - left_ win + 2 < w.

Let inner := depthwise_inner rO radd rmul x k h w s ow win pv.
Let quad := lanes rO radd rmul x k w s ow win.
Let cols := steps ws (we - 3) 4.
Let w_rest := ws + 4 * Z.of_nat (length cols).

Definition good (e : event R) : Prop := exists i j, 0 <= i < oh /\ 0 <= j < ow /\ fst e = i * ow + j /\ snd e = SOk (V i j).

Lemma good_inner i j : 0 <= i < oh -> 0 <= j < ow -> good (inner i j).
Proof using All. intros Hi Hj. exists i, j. unfold inner. rewrite inner_value. auto. Qed.

Lemma good_quad i j e : hs <= i < he -> In j cols -> In e (quad i j) -> good e.
Proof using All.
  intros Hi Hj He. unfold cols in Hj. apply In_steps in Hj; [|lia]. destruct Hj as (t & Ht & -> & Hlt).
  destruct (Hrow i Hi) as [R1 R2]. destruct (Hcol (ws + 4 * t)) as [C1 _]; [lia|]. destruct (Hcol (ws + 4 * t + 3)) as [_ C2]; [lia|].
  unfold quad in He. rewrite lanes_value in He by assumption. apply in_map_iff in He. destruct He as (l & <- & Hl). apply In_upto in Hl.
  exists i, (ws + 4 * t + l). cbn [fst snd]. split; [lia|]. split; [lia|]. auto.
Qed.

Lemma cover_quad i j : hs <= i < he -> ws <= j < w_rest -> exists c, In c cols /\ In (i * ow + j) (map fst (quad i c)).
Proof using All.
  intros Hi Hj. unfold w_rest, cols in Hj. rewrite length_steps in Hj.
  set (t := (j - ws) / 4). assert (Ht : 0 <= t /\ 4 * t <= j - ws < 4 * t + 4) by (unfold t; Z.to_euclidean_division_equations; lia).
  assert (Hlt : ws + 4 * t < we - 3) by (Z.to_euclidean_division_equations; lia).
  assert (Hin : In (ws + 4 * t) cols) by (unfold cols; apply In_steps; [lia|]; exists t; split; [lia|]; split; [reflexivity|exact Hlt]).
  exists (ws + 4 * t). split; [exact Hin|].
  destruct (Hrow i Hi) as [R1 R2]. destruct (Hcol (ws + 4 * t)) as [C1 _]; [lia|]. destruct (Hcol (ws + 4 * t + 3)) as [_ C2]; [lia|].
  unfold quad. rewrite lanes_value by assumption. rewrite map_map. cbn [fst]. apply in_map_iff. exists (j - ws - 4 * t). split; [ring|]. apply In_upto. lia.
Qed.

Lemma rest_le : ws <= w_rest.
Proof using All. unfold w_rest. lia. Qed.

Lemma whole_good i e : 0 <= i < oh -> In e (map (inner i) (range 0 ow)) -> good e.
Proof using All. intros Hi He. apply in_map_iff in He. destruct He as (j & <- & Hj). apply In_range in Hj. now apply good_inner. Qed.

Lemma whole_cover i j : 0 <= j < ow -> In (i * ow + j) (map fst (map (inner i) (range 0 ow))).
Proof using All.
  intros Hj. rewrite map_map. apply in_map_iff. exists j. split; [unfold inner; now rewrite inner_value|]. now apply In_range.
Qed.

Lemma fills_good tr : (forall e, In e tr -> good e) -> (forall i j, 0 <= i < oh -> 0 <= j < ow -> In (i * ow + j) (map fst tr)) -> fills V oh ow tr.
Proof using All. intros H1 H2. split; [|exact H2]. intros d v Hin. apply (H1 (d, v) Hin). Qed.

(** stride 1: two rows at a time *)
Lemma fills_s1 : let rows := steps hs (he - 1) 2 in
  fills V oh ow (flat_map (fun r => map (inner r) (range 0 ow)) (range 0 hs) ++
         flat_map (fun r =>
           flat_map (fun c => [inner r c; inner (r + 1) c]) (range 0 ws) ++
           flat_map (fun c => quad r c ++ quad (r + 1) c) cols ++
           flat_map (fun c => [inner r c; inner (r + 1) c]) (range w_rest ow)) rows ++
         flat_map (fun r => map (inner r) (range 0 ow)) (range (hs + 2 * Z.of_nat (length rows)) oh)).
Proof using All.
  intros rows. apply fills_good.
  - intros e He. apply in_app_or in He. destruct He as [He|He]; [|apply in_app_or in He; destruct He as [He|He]].
    + apply in_flat_map in He. destruct He as (i & Hi & He). apply In_range in Hi. apply (whole_good i); [lia|exact He].
    + apply in_flat_map in He. destruct He as (i & Hi & He). unfold rows in Hi. apply In_steps in Hi; [|lia]. destruct Hi as (t & Ht & -> & Hlt).
      assert (Edge : forall a b, 0 <= a -> b <= ow -> In e (flat_map (fun c => [inner (hs + 2 * t) c; inner (hs + 2 * t + 1) c]) (range a b)) -> good e).
      { intros a b Ha Hb Hin. apply in_flat_map in Hin. destruct Hin as (c & Hc & Hin). apply In_range in Hc.
        destruct Hin as [<-|[<-|[]]]; apply good_inner; lia. }
      apply in_app_or in He. destruct He as [He|He]; [|apply in_app_or in He; destruct He as [He|He]].
      * apply (Edge 0 ws); [lia|lia|exact He].
      * apply in_flat_map in He. destruct He as (c & Hc & He). apply in_app_or in He. destruct He as [He|He]; eapply good_quad; try eassumption; lia.
      * apply (Edge w_rest ow); [pose proof rest_le; lia|lia|exact He].
    + apply in_flat_map in He. destruct He as (i & Hi & He). apply In_range in Hi. apply (whole_good i); [lia|exact He].
  - intros i j Hi Hj. rewrite !map_app, !in_app_iff.
    destruct (Z_lt_dec i hs) as [D|D].
    { left. rewrite flat_map_concat_map, concat_map, map_map, <- flat_map_concat_map. apply in_flat_map. exists i. split; [apply In_range; lia|now apply whole_cover]. }
    right. destruct (Z_lt_dec i (hs + 2 * Z.of_nat (length rows))) as [D'|D'].
    2:{ right. rewrite flat_map_concat_map, concat_map, map_map, <- flat_map_concat_map. apply in_flat_map. exists i. split; [apply In_range; lia|now apply whole_cover]. }
    left. rewrite flat_map_concat_map, concat_map, map_map, <- flat_map_concat_map. apply in_flat_map.
    unfold rows in D'. rewrite length_steps in D'.
    set (t := (i - hs) / 2). assert (Ht : 0 <= t /\ 2 * t <= i - hs < 2 * t + 2) by (unfold t; Z.to_euclidean_division_equations; lia).
    assert (Hlt : hs + 2 * t < he - 1) by (Z.to_euclidean_division_equations; lia).
    exists (hs + 2 * t). split; [unfold rows; apply In_steps; [lia|]; exists t; lia|].
    assert (Ei : i = hs + 2 * t \/ i = hs + 2 * t + 1) by lia.
    assert (Edge : forall a b, a <= j < b -> In (i * ow + j) (map fst (flat_map (fun c => [inner (hs + 2 * t) c; inner (hs + 2 * t + 1) c]) (range a b)))).
    { intros a b Hab. rewrite flat_map_concat_map, concat_map, map_map, <- flat_map_concat_map. apply in_flat_map. exists j. split; [apply In_range; lia|].
      unfold inner. rewrite !inner_value. cbn [map fst]. destruct Ei as [<-|<-]; [now left|right; now left]. }
    rewrite !map_app, !in_app_iff. destruct (Z_lt_dec j ws) as [E|E]; [left; apply Edge; lia|]. right.
    destruct (Z_lt_dec j w_rest) as [E'|E']; [left|right; apply Edge; lia].
    destruct (cover_quad i j) as (c & Hc & Hin); [lia|lia|]. rewrite flat_map_concat_map, concat_map, map_map, <- flat_map_concat_map. apply in_flat_map. exists c. split; [exact Hc|].
    rewrite map_app, in_app_iff. destruct Ei as [<-|<-]; auto.
Qed.

(** stride 2: one row at a time *)
Lemma fills_s2 : let rows := range hs he in
  fills V oh ow (flat_map (fun r => map (inner r) (range 0 ow)) (range 0 hs) ++
         flat_map (fun r => map (inner r) (range 0 ws) ++ flat_map (quad r) cols ++ map (inner r) (range w_rest ow)) rows ++
         flat_map (fun r => map (inner r) (range 0 ow)) (range (hs + Z.of_nat (length rows)) oh)).
Proof using All.
  intros rows. apply fills_good.
  - intros e He. apply in_app_or in He. destruct He as [He|He]; [|apply in_app_or in He; destruct He as [He|He]].
    + apply in_flat_map in He. destruct He as (i & Hi & He). apply In_range in Hi. apply (whole_good i); [lia|exact He].
    + apply in_flat_map in He. destruct He as (i & Hi & He). unfold rows in Hi. apply In_range in Hi.
      assert (Edge : forall a b, 0 <= a -> b <= ow -> In e (map (inner i) (range a b)) -> good e).
      { intros a b Ha Hb Hin. apply in_map_iff in Hin. destruct Hin as (c & <- & Hc). apply In_range in Hc. apply good_inner; lia. }
      apply in_app_or in He. destruct He as [He|He]; [|apply in_app_or in He; destruct He as [He|He]].
      * apply (Edge 0 ws); [lia|lia|exact He].
      * apply in_flat_map in He. destruct He as (c & Hc & He). eapply good_quad; try eassumption; lia.
      * apply (Edge w_rest ow); [pose proof rest_le; lia|lia|exact He].
    + apply in_flat_map in He. destruct He as (i & Hi & He). apply In_range in Hi. apply (whole_good i); [lia|exact He].
  - intros i j Hi Hj. rewrite !map_app, !in_app_iff.
    destruct (Z_lt_dec i hs) as [D|D].
    { left. rewrite flat_map_concat_map, concat_map, map_map, <- flat_map_concat_map. apply in_flat_map. exists i. split; [apply In_range; lia|now apply whole_cover]. }
    right. destruct (Z_lt_dec i (hs + Z.of_nat (length rows))) as [D'|D'].
    2:{ right. rewrite flat_map_concat_map, concat_map, map_map, <- flat_map_concat_map. apply in_flat_map. exists i. split; [apply In_range; lia|now apply whole_cover]. }
    left. rewrite flat_map_concat_map, concat_map, map_map, <- flat_map_concat_map. apply in_flat_map.
    unfold rows in D'. rewrite length_range in D'. exists i. split; [unfold rows; apply In_range; lia|].
    assert (Edge : forall a b, a <= j < b -> In (i * ow + j) (map fst (map (inner i) (range a b)))).
    { intros a b Hab. rewrite map_map. apply in_map_iff. exists j. split; [unfold inner; now rewrite inner_value|apply In_range; lia]. }
    rewrite !map_app, !in_app_iff. destruct (Z_lt_dec j ws) as [E|E]; [left; apply Edge; lia|]. right.
    destruct (Z_lt_dec j w_rest) as [E'|E']; [left|right; apply Edge; lia].
    destruct (cover_quad i j) as (c & Hc & Hin); [lia|lia|]. rewrite flat_map_concat_map, concat_map, map_map, <- flat_map_concat_map. apply in_flat_map. exists c. split; [exact Hc|exact Hin].
Qed.
End Fast.

(** rows and columns that touch the padding *)
Lemma pad_lines_ok s pad : s = 1 \/ s = 2 -> 0 <= pad -> 0 <= pad_lines pad s /\ pad <= pad_lines pad s * s < pad + s.
Proof.
  intros Hs Hp. unfold pad_lines. destruct (Z.eqb_spec pad 0) as [->|N]; [destruct Hs as [->| ->]; lia|].
  rewrite Z.quot_div_nonneg by (destruct Hs as [->| ->]; lia). destruct Hs as [->| ->]; Z.to_euclidean_division_equations; lia.
Qed.

Lemma plane3x3_fills s (x k : Z -> sres R) h w oh ow win pv K image :
  s = 1 \/ s = 2 -> stride_h win = s /\ stride_w win = s /\ dil_h win = 1 /\ dil_w win = 1 ->
  0 <= top win -> 0 <= bottom win -> 0 <= left_ win -> 0 <= right_ win -> 2 <= h -> 2 <= w ->
  3 <= h + top win + bottom win -> 3 <= w + left_ win + right_ win ->
  oh = (h + top win + bottom win - 3) / s + 1 -> ow = (w + left_ win + right_ win - 3) / s + 1 ->
  (forall i j, 0 <= i < h -> 0 <= j < w -> x (i * w + j) = SOk (image i j)) ->
  (forall p q, 0 <= p < 3 -> 0 <= q < 3 -> k (p * 3 + q) = SOk (K p q)) -> (exists v, k 9 = SOk v) ->
  exists tr, plane3x3 rO radd rmul s x k h w oh ow win pv = SOk tr /\ fills (plane_at K image h w 3 3 pv win) oh ow tr.
Proof using Rth.
  intros Hs Est Ht Hb Hl Hr Hh Hw Fh Fw Eoh Eow Hx Hk Hk9.
  destruct (pad_lines_ok s (top win) Hs Ht) as [T0 T1]. destruct (pad_lines_ok s (bottom win) Hs Hb) as [B0 B1].
  destruct (pad_lines_ok s (left_ win) Hs Hl) as [L0 L1]. destruct (pad_lines_ok s (right_ win) Hs Hr) as [R0 R1].
  assert (Soh : s * (oh - 1) <= h + top win + bottom win - 3 < s * (oh - 1) + s) by (rewrite Eoh; destruct Hs as [->| ->]; Z.to_euclidean_division_equations; lia).
  assert (Sow : s * (ow - 1) <= w + left_ win + right_ win - 3 < s * (ow - 1) + s) by (rewrite Eow; destruct Hs as [->| ->]; Z.to_euclidean_division_equations; lia).
  clear Eoh Eow.
  assert (Ek : kernel_loads k = true).
  { destruct Hk9 as (v & E9). unfold kernel_loads. cbn [app forallb].
    pose proof (Hk 0 0 ltac:(lia) ltac:(lia)) as K0. pose proof (Hk 0 1 ltac:(lia) ltac:(lia)) as K1. pose proof (Hk 0 2 ltac:(lia) ltac:(lia)) as K2.
    pose proof (Hk 1 0 ltac:(lia) ltac:(lia)) as K3. pose proof (Hk 1 1 ltac:(lia) ltac:(lia)) as K4. pose proof (Hk 1 2 ltac:(lia) ltac:(lia)) as K5.
    pose proof (Hk 2 0 ltac:(lia) ltac:(lia)) as K6. pose proof (Hk 2 1 ltac:(lia) ltac:(lia)) as K7. pose proof (Hk 2 2 ltac:(lia) ltac:(lia)) as K8.
    cbn in K0, K1, K2, K3, K4, K5, K6, K7, K8. rewrite K0, K1, K2, K3, K4, K5, K6, K7, K8, E9. reflexivity. }
  unfold plane3x3. rewrite Ek. cbn [negb].
  set (hs := pad_lines (top win) s) in *. set (ws := pad_lines (left_ win) s) in *.
  set (he := oh - pad_lines (bottom win) s). set (we := ow - pad_lines (right_ win) s).
  assert (A1 : 0 <= hs <= oh) by (destruct Hs as [->| ->]; lia). assert (A2 : he <= oh) by (unfold he; lia).
  assert (A3 : 0 <= ws <= ow) by (destruct Hs as [->| ->]; lia). assert (A4 : we <= ow) by (unfold we; lia).
  assert (A5 : forall i, hs <= i < he -> 0 <= i * s - top win /\ i * s - top win + 2 < h) by (intros i Hi; unfold he in Hi; destruct Hs as [->| ->]; lia).
  assert (A6 : forall j, ws <= j < we -> 0 <= j * s - left_ win /\ j * s - left_ win + 2 < w) by (intros j Hj; unfold we in Hj; destruct Hs as [->| ->]; lia).
  destruct (Z.eqb_spec s 1) as [E1|E1]; eexists; (split; [reflexivity|]).
  - exact (fills_s1 x k h w oh ow s win pv K image Hs Est Hx Hk hs he ws we A1 A2 A3 A4 A5 A6).
  - exact (fills_s2 x k h w oh ow s win pv K image Hs Est Hx Hk hs he ws we A1 A2 A3 A4 A5 A6).
Qed.

(** the parameters for which the 3x3 kernels run *)
Definition fast3x3 (kh kw : Z) (win : window) : Prop :=
  kh = 3 /\ kw = 3 /\ (stride_h win = 1 /\ stride_w win = 1 \/ stride_h win = 2 /\ stride_w win = 2) /\ dil_h win = 1 /\ dil_w win = 1.

Lemma depthwise_plane_fills is_float (x k : Z -> sres R) h w kh kw oh ow win pv K image :
  0 <= oh -> 0 <= ow -> forward win h w kh kw = SOk (oh, ow) ->
  dil_h win * (kh - 1) + 1 <= h + top win + bottom win -> dil_w win * (kw - 1) + 1 <= w + left_ win + right_ win ->
  (is_float = true -> fast3x3 kh kw win -> 0 <= top win /\ 0 <= bottom win /\ 0 <= left_ win /\ 0 <= right_ win /\ 2 <= h /\ 2 <= w /\ exists v, k 9 = SOk v) ->
  (forall i j, 0 <= i < h -> 0 <= j < w -> x (i * w + j) = SOk (image i j)) ->
  (forall p q, 0 <= p < kh -> 0 <= q < kw -> k (p * kw + q) = SOk (K p q)) ->
  exists tr, depthwise_plane rO radd rmul is_float x k h w kh kw oh ow win pv = SOk tr /\ fills (plane_at K image h w kh kw pv win) oh ow tr.
Proof using Rth.
  intros Hoh How Hf F1 F2 Hfast Hx Hk. unfold depthwise_plane.
  assert (G : fills (plane_at K image h w kh kw pv win) oh ow (plane_general rO radd rmul x k h w kh kw oh ow win pv)) by now apply general_fills.
  destruct is_float; cbn [negb]; [|eauto].
  assert (Fast : forall s, s = 1 \/ s = 2 -> (kh =? 3) && (kw =? 3) && (stride_h win =? s) && (stride_w win =? s) && (dil_h win =? 1) && (dil_w win =? 1) = true ->
    exists tr, plane3x3 rO radd rmul s x k h w oh ow win pv = SOk tr /\ fills (plane_at K image h w kh kw pv win) oh ow tr).
  { intros s Hs E. rewrite !andb_true_iff, !Z.eqb_eq in E. destruct E as (((((E1 & E2) & E3) & E4) & E5) & E6). subst kh kw.
    destruct Hfast as (Ht & Hb & Hl & Hr & Hh & Hw & H9); [reflexivity|unfold fast3x3; repeat split; try assumption; destruct Hs as [->| ->]; [left|right]; auto|].
    rewrite E5 in F1. rewrite E6 in F2.
    apply plane3x3_fills; auto; try lia.
    - unfold forward, conv_size in Hf. rewrite E3, E4 in Hf. destruct (Z.eqb_spec s 0); [lia|]. cbn [bind] in Hf. injection Hf as <- _.
      rewrite E5. rewrite Z.quot_div_nonneg by lia. do 2 f_equal; lia.
    - unfold forward, conv_size in Hf. rewrite E3, E4 in Hf. destruct (Z.eqb_spec s 0); [lia|]. cbn [bind] in Hf. injection Hf as _ <-.
      rewrite E6. rewrite Z.quot_div_nonneg by lia. do 2 f_equal; lia. }
  destruct ((kh =? 3) && (kw =? 3) && (stride_h win =? 1) && (stride_w win =? 1) && (dil_h win =? 1) && (dil_w win =? 1)) eqn:E1; [apply Fast; auto|].
  destruct ((kh =? 3) && (kw =? 3) && (stride_h win =? 2) && (stride_w win =? 2) && (dil_h win =? 1) && (dil_w win =? 1)) eqn:E2; [apply Fast; auto|]. eauto.
Qed.

(** all the planes *)
Lemma depthwise_run_ok is_float (x k : Z -> sres R) n c h w kh kw oh ow win pv K image :
  0 <= n -> 0 <= c -> 0 <= h -> 0 <= w -> 0 <= kh -> 0 <= kw -> 0 <= oh -> 0 <= ow -> forward win h w kh kw = SOk (oh, ow) ->
  dil_h win * (kh - 1) + 1 <= h + top win + bottom win -> dil_w win * (kw - 1) + 1 <= w + left_ win + right_ win ->
  (is_float = true -> fast3x3 kh kw win -> 0 <= top win /\ 0 <= bottom win /\ 0 <= left_ win /\ 0 <= right_ win /\ 2 <= h /\ 2 <= w /\
     forall ch, 0 <= ch < c -> exists v, k (ch * (kh * kw) + 9) = SOk v) ->
  (forall b ch i j, 0 <= b < n -> 0 <= ch < c -> 0 <= i < h -> 0 <= j < w -> x ((b * c + ch) * (h * w) + (i * w + j)) = SOk (image b ch i j)) ->
  (forall ch p q, 0 <= ch < c -> 0 <= p < kh -> 0 <= q < kw -> k (ch * (kh * kw) + (p * kw + q)) = SOk (K ch p q)) ->
  exists stores out, depthwise_run rO radd rmul is_float x k n c h w kh kw oh ow win pv = SOk stores /\
    exec (fresh (n * c * oh * ow)) stores = SOk (map Some out) /\ Z.of_nat (length out) = elements [n; c; oh; ow] /\
    forall b ch i j, 0 <= b < n -> 0 <= ch < c -> 0 <= i < oh -> 0 <= j < ow ->
      nth_error out (Z.to_nat (position [n; c; oh; ow] [b; ch; i; j])) = Some (plane_at (K ch) (image b ch) h w kh kw pv win i j).
Proof using Rth.
  intros Hn Hc Hh Hw Hkh Hkw Hoh How Hf F1 F2 Hfast Hx Hk.
  set (one := fun b ch => depthwise_plane rO radd rmul is_float (fun i => x ((b * c + ch) * (h * w) + i)) (fun i => k (ch * (kh * kw) + i)) h w kh kw oh ow win pv).
  assert (Hone : forall b ch, 0 <= b < n -> 0 <= ch < c -> exists tr, one b ch = SOk tr /\ fills (plane_at (K ch) (image b ch) h w kh kw pv win) oh ow tr).
  { intros b ch Hb Hch. apply depthwise_plane_fills; auto.
    intros X Y. destruct (Hfast X Y) as (G1 & G2 & G3 & G4 & G5 & G6 & G7). repeat (split; [assumption|]). now apply G7. }
  set (tr := fun nc => match nc with [b; ch] => match one b ch with SOk s => shift ((b * c + ch) * (oh * ow)) s | _ => [] end | _ => [] end).
  exists (flat_map tr (loops [n; c])).
  assert (Erun : depthwise_run rO radd rmul is_float x k n c h w kh kw oh ow win pv = SOk (flat_map tr (loops [n; c]))).
  { unfold depthwise_run. rewrite (each_ok _ tr).
    - cbn [bind]. now rewrite <- flat_map_concat_map.
    - intros nc Hin. apply In_loops in Hin. inversion Hin as [|? b ? c1 Hb Hc1]; subst. inversion Hc1 as [|? ch ? c2 Hch Hc2]; subst. inversion Hc2; subst.
      destruct (Hone b ch Hb Hch) as (s & Es & _). fold (one b ch). unfold tr. rewrite Es. reflexivity. }
  assert (N : Forall (fun d => 0 <= d) [n; c; oh; ow]) by (repeat constructor; assumption).
  destruct (exec_grid [n; c; oh; ow]
     (fun l => match l with [b; ch; i; j] => plane_at (K ch) (image b ch) h w kh kw pv win i j | _ => rO end)
     (flat_map tr (loops [n; c])) (fresh (n * c * oh * ow)) N) as (out & E & L & P).
  - unfold fresh. rewrite repeat_length. cbn [elements]. rewrite Z2Nat.id by (repeat apply Z.mul_nonneg_nonneg; assumption). ring.
  - intros d v Hin. apply in_flat_map in Hin. destruct Hin as (nc & Hin1 & Hin). apply In_loops in Hin1.
    inversion Hin1 as [|? b ? c1 Hb Hc1]; subst. inversion Hc1 as [|? ch ? c2 Hch Hc2]; subst. inversion Hc2; subst.
    destruct (Hone b ch Hb Hch) as (s & Es & S1 & _). unfold tr in Hin. rewrite Es in Hin. apply in_map_iff in Hin.
    destruct Hin as ((d' & v') & Ed & Hin). cbn [fst snd] in Ed. apply pair_equal_spec in Ed. destruct Ed as [<- <-].
    destruct (S1 d' v' Hin) as (i & j & Hi & Hj & -> & ->). exists [b; ch; i; j].
    split; [repeat (constructor; [lia|]); constructor|]. split; [|reflexivity]. cbn [position elements]. ring.
  - intros l Hl. inversion Hl as [|? b ? c1 Hb Hc1]; subst. inversion Hc1 as [|? ch ? c2 Hch Hc2]; subst. inversion Hc2 as [|? i ? c3 Hi Hc3]; subst.
    inversion Hc3 as [|? j ? c4 Hj Hc4]; subst. inversion Hc4; subst.
    destruct (Hone b ch Hb Hch) as (s & Es & _ & S2). pose proof (S2 i j Hi Hj) as Hin. apply in_map_iff in Hin. destruct Hin as ((d & v) & Ed & Hin).
    cbn [fst] in Ed. apply in_map_iff. exists ((b * c + ch) * (oh * ow) + d, v). split; [cbn [fst position elements]; rewrite Ed; ring|].
    apply in_flat_map. exists [b; ch]. split; [apply In_loops; repeat (constructor; [lia|]); constructor|]. unfold tr. rewrite Es. apply in_map_iff. exists (d, v). split; [reflexivity|exact Hin].
  - exists out. split; [exact Erun|]. split; [exact E|]. split; [exact L|]. intros b ch i j Hb Hch Hi Hj. apply (P [b; ch; i; j]).
    repeat (constructor; [lia|]). constructor.
Qed.
End Proofs.
