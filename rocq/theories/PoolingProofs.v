(** Proofs about the pooling kernels. *)
From Coq Require Import List ZArith Bool Lia.
From Verif Require Import ShapeModel ShapeSpec ShapeProofs KernelBase KernelSpec KernelProofs LoopModel LoopProofs CoordProofs
  ConvModel ConvSpec ConvProofs PoolingModel PoolingSpec.
Import ListNotations.
Local Open Scope Z_scope.

(** ** Windows *)

Lemma In_range a b y : In y (range a b) <-> a <= y < b.
Proof.
  unfold range. rewrite in_map_iff. split.
  - intros (d & <- & H). apply In_upto in H. lia.
  - intros H. exists (y - a). split; [lia|]. apply In_upto. lia.
Qed.

Lemma range_nil a b : b <= a -> range a b = [].
Proof. intros H. unfold range, upto. replace (Z.to_nat (b - a)) with O by lia. reflexivity. Qed.

Lemma range_cons a b : a < b -> range a b = a :: range (a + 1) b.
Proof.
  intros H. unfold range, upto. replace (Z.to_nat (b - a)) with (S (Z.to_nat (b - (a + 1)))) by lia.
  cbn [seq map]. f_equal; [lia|]. rewrite <- seq_shift, !map_map. apply map_ext. intros n. lia.
Qed.

Lemma filter_range lo hi n : forall a b, Z.to_nat (b - a) = n -> filter (fun y => (lo <=? y) && (y <? hi)) (range a b) = range (Z.max a lo) (Z.min (a + Z.max 0 (b - a)) hi).
Proof.
  induction n as [|n IH]; intros a b E.
  - rewrite !range_nil by lia. reflexivity.
  - rewrite range_cons by lia. cbn [filter]. rewrite IH by lia.
    destruct (Z.leb_spec lo a) as [H1|H1]; destruct (Z.ltb_spec a hi) as [H2|H2]; cbn [andb].
    + rewrite (range_cons (Z.max a lo)) by lia. f_equal; [lia|]. f_equal; lia.
    + rewrite !range_nil by lia. reflexivity.
    + f_equal; lia.
    + rewrite !range_nil by lia. reflexivity.
Qed.

Lemma filter_list_prod {A B} (P : A -> bool) (Q : B -> bool) l m :
  filter (fun p => P (fst p) && Q (snd p)) (list_prod l m) = list_prod (filter P l) (filter Q m).
Proof.
  assert (E : forall a, filter (fun p => P (fst p) && Q (snd p)) (map (fun y => (a, y)) m) = if P a then map (fun y => (a, y)) (filter Q m) else []).
  { intros a. induction m as [|b m IH]; [now destruct (P a)|]. cbn [map filter fst snd]. rewrite IH. destruct (P a), (Q b); reflexivity. }
  induction l as [|a l IH]; [reflexivity|]. cbn [list_prod filter]. rewrite filter_app, IH, E. destruct (P a); reflexivity.
Qed.

Lemma list_prod_flat {A B C} (f : A -> B -> C) l m : map (fun p => f (fst p) (snd p)) (list_prod l m) = flat_map (fun a => map (f a) m) l.
Proof.
  induction l as [|a l IH]; [reflexivity|]. cbn [list_prod flat_map]. rewrite map_app, IH, map_map. reflexivity.
Qed.

(** the scanned positions are the cells of the window in the image *)
Lemma scan_cells win h w oh ow : 0 <= k_h win -> 0 <= k_w win ->
  scan w (limits win h w oh ow) =
  map (fun p => fst p * w + snd p) (cells h w (oh * s_h win - p_top win) (ow * s_w win - p_left win) (k_h win) (k_w win)).
Proof.
  intros Hh Hw. unfold cells. rewrite (filter_list_prod (fun y => (0 <=? y) && (y <? h)) (fun y => (0 <=? y) && (y <? w))).
  assert (E : forall a k hi, 0 <= k -> filter (fun y => (0 <=? y) && (y <? hi)) (map (Z.add a) (upto k)) = range (Z.max a 0) (Z.min (a + k) hi)).
  { intros a k hi Hk. replace (map (Z.add a) (upto k)) with (range a (a + k)) by (unfold range; do 2 f_equal; lia).
    rewrite (filter_range 0 hi _ a (a + k) eq_refl). f_equal; lia. }
  rewrite !E by assumption. rewrite (list_prod_flat (fun y x => y * w + x)). reflexivity.
Qed.

Lemma In_cells h w a b kh kw y x : In (y, x) (cells h w a b kh kw) <-> (0 <= y < h /\ a <= y < a + kh) /\ 0 <= x < w /\ b <= x < b + kw.
Proof.
  unfold cells. rewrite filter_In, in_prod_iff, !in_map_iff. cbn [fst snd]. rewrite !andb_true_iff, !Z.leb_le, !Z.ltb_lt. split.
  - intros [[(d & <- & Hd) (e & <- & He)] H]. apply In_upto in Hd. apply In_upto in He. lia.
  - intros H. split; [|lia]. split; [exists (y - a)|exists (x - b)]; (split; [lia|]; apply In_upto; lia).
Qed.

(** ** Accumulation *)
Section Acc.
Context {T : Type} (ltb : T -> T -> bool).

Lemma accumulate_ok (f : T -> T -> T) rd (val : Z -> T) ps : forall a, (forall p, In p ps -> rd p = SOk (val p)) ->
  accumulate f rd (SOk a) ps = SOk (fold_left (fun a p => f a (val p)) ps a).
Proof.
  induction ps as [|p ps IH]; intros a H; [reflexivity|]. unfold accumulate in *. cbn [fold_left bind].
  rewrite (H p (or_introl eq_refl)). cbn [bind]. apply IH. intros q Hq. apply H. now right.
Qed.

Hypothesis wo : weak_order ltb.

Lemma fold_greatest (val : Z -> T) ps : forall a,
  let m := fold_left (fun a p => if ltb a (val p) then val p else a) ps a in greatest ltb m (a :: map val ps).
Proof using wo.
  destruct wo as [As Nt].
  assert (Tr : forall a b c, ltb a b = false -> ltb b c = false -> ltb a c = false).
  { intros a b c H1 H2. destruct (ltb a c) eqn:E; [|reflexivity]. destruct (Nt a b c E); congruence. }
  assert (Ir : forall a, ltb a a = false) by (intros a; destruct (ltb a a) eqn:E; [pose proof (As a a E); congruence|reflexivity]).
  induction ps as [|p ps IH]; intros a; cbn [fold_left map].
  - split; [now left|]. intros u [<-|[]]. apply Ir.
  - specialize (IH (if ltb a (val p) then val p else a)). cbv zeta in IH. destruct IH as [I1 I2].
    set (m := fold_left _ ps _) in *. split.
    + destruct I1 as [E|I1]; [|right; right; exact I1]. rewrite <- E. destruct (ltb a (val p)); [right; now left|now left].
    + intros u [<-|[<-|Hu]].
      * pose proof (I2 _ (or_introl eq_refl)) as H. destruct (ltb a (val p)) eqn:E; [|exact H]. apply (Tr m (val p)); [exact H|now apply As].
      * pose proof (I2 _ (or_introl eq_refl)) as H. destruct (ltb a (val p)) eqn:E; [exact H|]. now apply (Tr m a).
      * apply I2. now right.
Qed.
End Acc.

(** ** The kernels for stride two *)
Section Special.
Context {T : Type} (ltb : T -> T -> bool).

(** the part of the image that window [i] of an axis covers *)
Definition from (before i : Z) : Z := Z.max 0 (2 * i - before).
Definition span (x before k i : Z) : Z := Z.min (2 * i - before + k) x - from before i.

(** an axis: [windows] windows of [k] every second element, [pad] elements
    past the end, [full] windows that do not reach the end *)
Record axis (x before k windows pad full : Z) : Prop := {
  ax_k : k = 2 \/ k = 3;
  ax_before : before = 0 \/ before = 1;
  ax_pad : 0 <= pad < k;
  ax_end : 2 * windows + (k - 2) = before + x + pad;
  ax_full : full = if 0 <? pad then windows - 1 else windows;
  ax_first : before <= full;
  ax_some : 1 <= windows
}.

Lemma tail_axis x before k windows pad full : axis x before k windows pad full ->
  tail k pad = if 0 <? pad then Some (k - pad) else None.
Proof.
  intros [K B P E F I S1]. unfold tail. destruct K as [-> | ->]; cbn [Z.eqb Pos.eqb].
  - destruct (Z.ltb_spec 0 pad); [|reflexivity]. do 2 f_equal; lia.
  - destruct (Z.ltb_spec 0 pad); destruct (Z.eqb_spec pad 1); destruct (Z.eqb_spec pad 2); subst; try lia; reflexivity.
Qed.

Lemma row_ok (rd : Z -> sres T) k w rows left right ow windows i0 out_at :
  axis w left k windows right ow ->
  let '(es, (d, o)) := pool_row ltb rd k w rows left right ow i0 out_at in
  (forall e v, In (e, v) es -> exists j, 0 <= j < windows /\ e = out_at + j /\ v = block_max ltb rd w (i0 + from left j) rows (span w left k j)) /\
  (forall j, 0 <= j < windows -> In (out_at + j) (map fst es)) /\
  d = 2 * ow - left /\ o = out_at + windows.
Proof.
  intros X. pose proof (tail_axis _ _ _ _ _ _ X) as Ht. destruct X as [K B P E F I S1].
  assert (F' : (0 < right /\ ow = windows - 1) \/ (right <= 0 /\ ow = windows)) by (destruct (Z.ltb_spec 0 right); lia). clear F.
  unfold pool_row. set (blocks := if left =? 1 then Z.quot (ow - 1) 4 else Z.quot ow 4).
  assert (Hb : 0 <= blocks /\ blocks * 4 + left <= ow).
  { unfold blocks. destruct B as [-> | ->]; cbn [Z.eqb Pos.eqb]; rewrite Z.quot_div_nonneg by lia; Z.to_euclidean_division_equations; lia. }
  assert (Hi1 : (if left =? 1 then i0 + 1 else i0) = i0 + left) by (destruct B as [-> | ->]; cbn; lia).
  assert (Ho1 : (if left =? 1 then out_at + 1 else out_at) = out_at + left) by (destruct B as [-> | ->]; cbn; lia).
  assert (Hr : (if left =? 1 then blocks * 4 + 1 else blocks * 4) = blocks * 4 + left) by (destruct B as [-> | ->]; cbn; lia).
  rewrite Hi1, Ho1, Hr, !Z.max_r by lia.
  set (first := if left =? 1 then _ else _).
  set (vectors := flat_map _ (upto blocks)). set (scalars := map _ (upto (ow - _))).
  assert (Hfirst : forall e v, In (e, v) first -> left = 1 /\ e = out_at /\ v = block_max ltb rd w (i0 + from left 0) rows (span w left k 0)).
  { intros e v H. unfold first in H. destruct (Z.eqb_spec left 1) as [->|]; [|destruct H]. destruct H as [H|[]]. apply pair_equal_spec in H; destruct H as [<- <-].
    split; [reflexivity|]. split; [reflexivity|]. unfold span, from. destruct (Z.ltb_spec 0 right); f_equal; lia. }
  assert (Hmid : forall e v, In (e, v) (vectors ++ scalars) -> exists j, left <= j < ow /\ e = out_at + j /\ v = block_max ltb rd w (i0 + from left j) rows (span w left k j)).
  { intros e v H. assert (exists j, left <= j < ow /\ e = out_at + j /\ v = block_max ltb rd w (i0 + (2 * j - left)) rows k) as (j & Hj & He & Hv).
    { apply in_app_iff in H. destruct H as [H|H].
      - unfold vectors in H. apply in_flat_map in H. destruct H as (b & Hb' & H). apply In_upto in Hb'. apply in_map_iff in H. destruct H as (lane & H & Hl).
        apply In_upto in Hl. apply pair_equal_spec in H; destruct H as [<- <-]. exists (left + 4 * b + lane). split; [lia|]. split; [lia|]. f_equal; lia.
      - unfold scalars in H. apply in_map_iff in H. destruct H as (r & H & Hr'). apply In_upto in Hr'. apply pair_equal_spec in H; destruct H as [<- <-].
        exists (left + 4 * blocks + r). split; [lia|]. split; [lia|]. f_equal; lia. }
    exists j. split; [exact Hj|]. split; [exact He|]. rewrite Hv. unfold span, from. destruct (Z.ltb_spec 0 right); f_equal; lia. }
  assert (Hall : forall j, 0 <= j < ow -> In (out_at + j) (map fst (first ++ vectors ++ scalars))).
  { intros j Hj. rewrite !map_app, !in_app_iff. destruct (Z_lt_dec j left) as [Hl|Hl].
    - left. unfold first. assert (left = 1) as -> by lia. cbn. left. lia.
    - right. destruct (Z_lt_dec (j - left) (4 * blocks)) as [Hq|Hq].
      + left. apply in_map_iff. eexists (out_at + j, _). split; [reflexivity|]. unfold vectors. apply in_flat_map. exists ((j - left) / 4).
        split; [apply In_upto; Z.to_euclidean_division_equations; lia|]. apply in_map_iff. exists ((j - left) mod 4).
        split; [f_equal; Z.to_euclidean_division_equations; lia|]. apply In_upto. Z.to_euclidean_division_equations; lia.
      + right. apply in_map_iff. eexists (out_at + j, _). split; [reflexivity|]. unfold scalars. apply in_map_iff. exists (j - left - 4 * blocks).
        split; [f_equal; lia|]. apply In_upto. lia. }
  assert (Hsub : forall e v, In (e, v) (first ++ vectors ++ scalars) -> exists j, 0 <= j < ow /\ e = out_at + j /\ v = block_max ltb rd w (i0 + from left j) rows (span w left k j)).
  { intros e v H. rewrite in_app_iff in H. destruct H as [H|H].
    - destruct (Hfirst e v H) as (-> & -> & ->). exists 0. split; [lia|]. split; [lia|reflexivity].
    - destruct (Hmid e v H) as (j & Hj & He & Hv). exists j. split; [lia|]. auto. }
  rewrite Ht. destruct (Z.ltb_spec 0 right) as [Hp|Hp].
  - split; [|split; [|split; lia]].
    + intros e v H. rewrite 2 app_assoc in H. apply in_app_iff in H. destruct H as [H|[H|[]]].
      * rewrite <- app_assoc in H. destruct (Hsub e v H) as (j & Hj & He & Hv). exists j. split; [lia|]. auto.
      * apply pair_equal_spec in H; destruct H as [<- <-]. exists ow. split; [lia|]. split; [lia|]. unfold span, from. f_equal; lia.
    + intros j Hj. rewrite 2 app_assoc, map_app, <- app_assoc. apply in_app_iff. destruct (Z.eq_dec j ow) as [->|Hn]; [right; left; cbn [fst map]; lia|left; apply Hall; lia].
  - split; [|split; [|split; lia]].
    + intros e v H. destruct (Hsub e v H) as (j & Hj & He & Hv). exists j. split; [lia|]. auto.
    + intros j Hj. apply Hall; lia.
Qed.

Lemma rows_ok (rd : Z -> sres T) k w left right ow windows : axis w left k windows right ow -> forall number i0 out_at,
  let '(es, (d, o)) := pool_rows ltb number rd k w left right ow (w - (2 * ow - left)) i0 out_at in
  (forall e v, In (e, v) es -> exists i j, 0 <= i < Z.of_nat number /\ 0 <= j < windows /\ e = out_at + i * windows + j /\
     v = block_max ltb rd w (i0 + 2 * i * w + from left j) k (span w left k j)) /\
  (forall i j, 0 <= i < Z.of_nat number -> 0 <= j < windows -> In (out_at + i * windows + j) (map fst es)) /\
  d = i0 + 2 * Z.of_nat number * w /\ o = out_at + Z.of_nat number * windows.
Proof.
  intros X. induction number as [|number IH]; intros i0 out_at; cbn [pool_rows].
  - split; [intros e v []|]. split; [intros; lia|]. lia.
  - pose proof (row_ok rd k w k left right ow windows i0 out_at X) as H.
    destruct (pool_row ltb rd k w k left right ow i0 out_at) as [es [d o]]. destruct H as (H1 & H2 & -> & ->).
    specialize (IH (i0 + (2 * ow - left) + (w - (2 * ow - left) + w)) (out_at + windows)).
    destruct (pool_rows _ _ _ _ _ _ _ _ _ _ _) as [rest [d' o']]. destruct IH as (I1 & I2 & -> & ->).
    split; [|split; [|split; lia]].
    + intros e v H. apply in_app_iff in H. destruct H as [H|H].
      * destruct (H1 e v H) as (j & Hj & He & Hv). exists 0, j. split; [lia|]. split; [exact Hj|]. split; [lia|]. rewrite Hv. f_equal; lia.
      * destruct (I1 e v H) as (i & j & Hi & Hj & He & Hv). exists (i + 1), j. split; [lia|]. split; [exact Hj|]. split; [lia|]. rewrite Hv. f_equal; lia.
    + intros i j Hi Hj. rewrite map_app. apply in_app_iff. destruct (Z.eq_dec i 0) as [->|Hn].
      * left. replace (out_at + 0 * windows + j) with (out_at + j) by lia. now apply H2.
      * right. replace (out_at + i * windows + j) with (out_at + windows + (i - 1) * windows + j) by lia. apply I2; lia.
Qed.

Lemma channel_ok (rd : Z -> sres T) k win h w oh ow : 
  let right := 2 * ow + (k - 2) - w - p_left win in let bottom := 2 * oh + (k - 2) - h - p_top win in
  axis w (p_left win) k ow right (if 0 <? right then ow - 1 else ow) ->
  axis h (p_top win) k oh bottom (if 0 <? bottom then oh - 1 else oh) ->
  (forall e v, In (e, v) (pool_channel ltb rd k win h w oh ow) -> exists i j, 0 <= i < oh /\ 0 <= j < ow /\ e = i * ow + j /\
     v = block_max ltb rd w (from (p_top win) i * w + from (p_left win) j) (span h (p_top win) k i) (span w (p_left win) k j)) /\
  (forall i j, 0 <= i < oh -> 0 <= j < ow -> In (i * ow + j) (map fst (pool_channel ltb rd k win h w oh ow))).
Proof.
  intros right bottom X Y. unfold pool_channel. pose proof (tail_axis _ _ _ _ _ _ Y) as Ht.
  assert (Ew : Z.max 0 (2 * ow + (k - 2) - w) - p_left win = right) by (destruct X; unfold right in *; lia).
  assert (Eh : Z.max 0 (2 * oh + (k - 2) - h) - p_top win = bottom) by (destruct Y; unfold bottom in *; lia).
  rewrite Ew, Eh, Ht. clear Ht. set (full_w := if 0 <? right then _ else _) in *. set (full_h := if 0 <? bottom then _ else _) in *.
  assert (Er : (if p_left win =? 1 then w - full_w * 2 + 1 else w - full_w * 2) = w - (2 * full_w - p_left win)).
  { destruct (ax_before _ _ _ _ _ _ X) as [E|E]; rewrite E; cbn [Z.eqb Pos.eqb]; lia. }
  rewrite Er. clearbody right bottom. destruct Y as [K B P E F I S1].
  assert (F' : (0 < bottom /\ full_h = oh - 1) \/ (bottom <= 0 /\ full_h = oh)) by (subst full_h; destruct (Z.ltb_spec 0 bottom); lia). clear F. clearbody full_h full_w.
  pose proof (row_ok rd k w (k - 1) (p_left win) right full_w ow 0 0 X) as Rt.
  set (top := p_top win) in *. set (left := p_left win) in *. clearbody top left.
  destruct (pool_row ltb rd k w (k - 1) left right full_w 0 0) as [tes [td to]]. destruct Rt as (T1 & T2 & -> & ->).
  pose proof (rows_ok rd k w left right full_w ow X (Z.to_nat (full_h - top)) (top * w) (top * ow)) as Rc.
  assert (Eh0 : (if top =? 1 then 1 else 0) = top) by (destruct B as [-> | ->]; reflexivity). rewrite Eh0.
  assert (Etop : (if top =? 1 then (tes, (2 * full_w - left + (w - (2 * full_w - left)), 0 + ow)) else ([], (0, 0))) =
    ((if top =? 1 then tes else []), (top * w, top * ow))).
  { destruct B as [-> | ->]; cbn [Z.eqb Pos.eqb]; f_equal; f_equal; lia. }
  rewrite Etop. destruct (pool_rows _ _ _ _ _ _ _ _ _ _ _) as [ces [cd co]]. destruct Rc as (C1 & C2 & -> & ->).
  rewrite Z2Nat.id in * by lia. clear Etop.
  assert (Ht1 : forall e v, In (e, v) (if top =? 1 then tes else []) -> exists i j, 0 <= i < oh /\ 0 <= j < ow /\ e = i * ow + j /\
     v = block_max ltb rd w (from top i * w + from left j) (span h top k i) (span w left k j)).
  { intros e v H. destruct (Z.eqb_spec top 1) as [->|]; [|destruct H]. destruct (T1 e v H) as (j & Hj & He & Hv).
    exists 0, j. split; [lia|]. split; [exact Hj|]. split; [lia|]. rewrite Hv.
    assert (E1 : from 1 0 = 0) by reflexivity. assert (E2 : span h 1 k 0 = k - 1).
    { unfold span. rewrite E1. destruct (Z.ltb_spec 0 bottom); lia. }
    rewrite E1, E2. f_equal; lia. }
  assert (Hc1 : forall e v, In (e, v) ces -> exists i j, 0 <= i < oh /\ 0 <= j < ow /\ e = i * ow + j /\
     v = block_max ltb rd w (from top i * w + from left j) (span h top k i) (span w left k j)).
  { intros e v H. destruct (C1 e v H) as (i & j & Hi & Hj & He & Hv). exists (i + top), j.
    assert (Hlt : i + top < oh) by (destruct (Z.ltb_spec 0 bottom); lia).
    split; [lia|]. split; [exact Hj|]. split; [lia|]. rewrite Hv.
    assert (E1 : from top (i + top) = 2 * i + top) by (unfold from; lia).
    assert (E2 : span h top k (i + top) = k) by (unfold span; rewrite E1; destruct (Z.ltb_spec 0 bottom); lia).
    rewrite E1, E2. f_equal; lia. }
  destruct (Z.ltb_spec 0 bottom) as [Hp|Hp].
  - pose proof (row_ok rd k w (k - bottom) left right full_w ow (top * w + 2 * (full_h - top) * w) (top * ow + (full_h - top) * ow) X) as Rb.
    destruct (pool_row _ _ _ _ _ _ _ _ _ _) as [bes [bd bo]]. destruct Rb as (B1 & B2 & _). cbn [fst]. split.
    + intros e v H. rewrite !in_app_iff in H. destruct H as [H|[H|H]]; [now apply Ht1|now apply Hc1|].
      destruct (B1 e v H) as (j & Hj & He & Hv). exists full_h, j. split; [lia|]. split; [exact Hj|]. split; [lia|]. rewrite Hv.
      assert (E1 : from top full_h = 2 * full_h - top) by (unfold from; lia).
      assert (E2 : span h top k full_h = k - bottom) by (unfold span; rewrite E1; lia).
      rewrite E1, E2. f_equal; lia.
    + intros i j Hi Hj. rewrite !map_app, !in_app_iff. destruct (Z_lt_dec i top) as [H1|H1].
      * left. assert (top = 1) as -> by lia. cbn [Z.eqb Pos.eqb]. replace (i * ow + j) with (0 + j) by (assert (i = 0) by lia; subst; lia). now apply T2.
      * right. destruct (Z_lt_dec i full_h) as [H2|H2].
        -- left. replace (i * ow + j) with (top * ow + (i - top) * ow + j) by lia. apply C2; lia.
        -- right. replace (i * ow + j) with (top * ow + (full_h - top) * ow + j) by (assert (i = full_h) by lia; subst; lia). now apply B2.
  - rewrite app_nil_r. split.
    + intros e v H. rewrite !in_app_iff in H. destruct H as [H|H]; [now apply Ht1|now apply Hc1].
    + intros i j Hi Hj. rewrite !map_app, !in_app_iff. destruct (Z_lt_dec i top) as [H1|H1].
      * left. assert (top = 1) as -> by lia. cbn [Z.eqb Pos.eqb]. replace (i * ow + j) with (0 + j) by (assert (i = 0) by lia; subst; lia). now apply T2.
      * right. replace (i * ow + j) with (top * ow + (i - top) * ow + j) by lia. apply C2; lia.
Qed.
End Special.

(** ** Values *)
Lemma covering_size x before after k s n : 1 <= s -> k <= x + before + after -> covering (x + before + after) k s n -> pool_size x before after k s = SOk n.
Proof.
  intros Hs Hk (H1 & H2 & H3). unfold pool_size. destruct (Z.eqb_spec s 0); [lia|]. f_equal.
  set (a := x + before + after - k) in *.
  assert (E : (- a) / s = 1 - n); [|lia].
  assert (Hn : n = 1 \/ 1 < n) by lia. symmetry. apply (Z.div_unique_pos (- a) s (1 - n) (- a - s * (1 - n))); [|ring].
  unfold a in *. destruct Hn as [-> | Hn]; [nia|]. specialize (H3 Hn). nia.
Qed.

Section Values.
Context {T : Type} (ltb : T -> T -> bool) (zero : T) (add : T -> T -> T) (div : T -> Z -> T).

Lemma block_scan (rd : Z -> sres T) w r0 c0 rows cols :
  block_max ltb rd w (r0 * w + c0) rows cols =
  match scan w ((r0, r0 + rows), (c0, c0 + cols)) with [] => SUndef | p :: ps => accumulate (max2 ltb) rd (rd p) ps end.
Proof.
  unfold block_max, scan, range. cbn [fst snd]. replace (r0 + rows - r0) with rows by lia. replace (c0 + cols - c0) with cols by lia.
  rewrite !flat_map_concat_map, map_map.
  replace (map (fun r => map (fun c => r0 * w + c0 + r * w + c) (upto cols)) (upto rows))
    with (map (fun x => map (fun iw => (r0 + x) * w + iw) (map (Z.add c0) (upto cols))) (upto rows)); [reflexivity|].
  apply map_ext. intros r. rewrite map_map. apply map_ext. intros c. ring.
Qed.

Lemma greatest_perm v (a b : list T) : (forall u, In u a <-> In u b) -> greatest ltb v a -> greatest ltb v b.
Proof. intros H [H1 H2]. split; [now apply H|]. intros u Hu. apply H2. now apply H. Qed.

Section Window.
Hypothesis wo : weak_order ltb.
Variables (rd : Z -> sres T) (val : Z -> T) (w : Z) (win : pool_window) (h i j : Z).
Hypothesis kh0 : 0 <= k_h win.
Hypothesis kw0 : 0 <= k_w win.
Let window := cells h w (i * s_h win - p_top win) (j * s_w win - p_left win) (k_h win) (k_w win).
Let vals := map (fun p => val (fst p * w + snd p)) window.
Hypothesis reads : forall y x, In (y, x) window -> rd (y * w + x) = SOk (val (y * w + x)).

Lemma scan_reads p : In p (scan w (limits win h w i j)) -> rd p = SOk (val p).
Proof using reads kh0 kw0.
  rewrite scan_cells by assumption. intros H. apply in_map_iff in H. destruct H as ([y x] & <- & H). now apply reads.
Qed.

Lemma scan_vals : map val (scan w (limits win h w i j)) = vals.
Proof using kh0 kw0. rewrite scan_cells by assumption. now rewrite map_map. Qed.

Lemma max_cell_ok : window <> [] -> exists v, max_cell ltb rd h w win i j = SOk v /\ greatest ltb v vals.
Proof using wo reads kh0 kw0.
  intros Hne. unfold max_cell. set (l := limits win h w i j).
  assert (Hfirst : In (fst (fst l) * w + fst (snd l)) (scan w l)).
  { destruct window as [|[y x] r] eqn:E; [congruence|]. assert (Hin : In (y, x) window) by (rewrite E; now left).
    unfold window in Hin. apply In_cells in Hin. unfold l, limits, scan. cbn [fst snd].
    apply in_flat_map. exists (Z.max (i * s_h win - p_top win) 0). split; [apply In_range; lia|]. apply in_map_iff.
    exists (Z.max (j * s_w win - p_left win) 0). split; [reflexivity|]. apply In_range; lia. }
  rewrite (scan_reads _ Hfirst), (accumulate_ok _ rd val) by (intros p Hp; now apply scan_reads).
  eexists. split; [reflexivity|]. pose proof (fold_greatest ltb wo val (scan w l) (val (fst (fst l) * w + fst (snd l)))) as G. cbv zeta in G.
  apply (greatest_perm _ _ vals) in G; [exact G|]. intros u. rewrite <- scan_vals. fold l. cbn [In]. split; [|now right].
  intros [<-|Hu]; [now apply in_map|exact Hu].
Qed.

Lemma block_max_ok k : k_h win = k -> k_w win = k -> s_h win = 2 -> s_w win = 2 -> window <> [] ->
  exists v, block_max ltb rd w (from (p_top win) i * w + from (p_left win) j) (span h (p_top win) k i) (span w (p_left win) k j) = SOk v /\
    greatest ltb v vals.
Proof using wo reads kh0 kw0.
  intros Kh Kw Sh Sw Hne. rewrite block_scan.
  assert (El : ((from (p_top win) i, from (p_top win) i + span h (p_top win) k i), (from (p_left win) j, from (p_left win) j + span w (p_left win) k j)) = limits win h w i j).
  { unfold limits, from, span, from. rewrite Kh, Kw, Sh, Sw. f_equal; f_equal; lia. }
  rewrite El. pose proof scan_vals as Ev. pose proof scan_reads as Er.
  destruct (scan w (limits win h w i j)) as [|p ps] eqn:E.
  - exfalso. unfold vals in Ev. cbn in Ev. destruct window; [congruence|discriminate].
  - rewrite (Er p (or_introl eq_refl)). rewrite (accumulate_ok _ rd val) by (intros q Hq; apply Er; now right).
    eexists. split; [reflexivity|]. rewrite <- Ev. cbn [map]. apply (fold_greatest ltb wo val ps (val p)).
Qed.

Lemma sum_ok : accumulate add rd (SOk zero) (scan w (limits win h w i j)) = SOk (fold_left add vals zero).
Proof using reads kh0 kw0.
  rewrite (accumulate_ok _ rd val) by (intros q Hq; now apply scan_reads). f_equal. rewrite <- scan_vals.
  generalize (scan w (limits win h w i j)) zero. intros l. induction l as [|p l IH]; intros z; [reflexivity|]. cbn [fold_left map]. apply IH.
Qed.

Lemma avg_cell_ok : avg_cell zero add div rd h w win i j = SOk (if Nat.eqb (length window) 0 then zero else div (fold_left add vals zero) (Z.of_nat (length window))).
Proof using reads kh0 kw0.
  unfold avg_cell. rewrite sum_ok. cbn [bind]. rewrite scan_cells by assumption. rewrite map_length. fold window.
  destruct (Nat.eqb_spec (length window) 0) as [E|E]; [rewrite E; reflexivity|]. destruct (Z.eqb_spec (Z.of_nat (length window)) 0); [lia|reflexivity].
Qed.

Lemma avg_white_cell_ok : avg_white_cell zero add div rd h w win i j = SOk (div (fold_left add vals zero) (k_h win * k_w win)).
Proof using reads kh0 kw0. unfold avg_white_cell. rewrite sum_ok. reflexivity. Qed.
End Window.
End Values.
