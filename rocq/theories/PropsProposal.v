(** C159, C160: the region proposals are the greedy survivors of the best candidates. *)
From Coq Require Import List ZArith Bool QArith Qminmax Permutation Lia Lqa.
From Verif Require Import ShapeModel KernelBase KernelProofs ResizeModel NmsModel NmsProofs DetectModel DetectSpec DetectProofs PosterProofs PropsPriorBox ProposalModel ProposalSpec ProposalSortProofs ProposalProofs.
Import ListNotations.
Local Open Scope Z_scope.

Lemma F2_list {X Y} (R : X -> Y -> Prop) (f : X -> Y) l : (forall x, In x l -> R x (f x)) -> Forall2 R l (map f l).
Proof. induction l as [|x l IH]; intros H; cbn [map]; constructor; [apply H; now left|]. apply IH. intros y Hy. apply H. now right. Qed.
Lemma traverse_ext {X Y} (f g : X -> sres Y) l : (forall x, In x l -> f x = g x) -> traverse f l = traverse g l.
Proof. induction l as [|x l IH]; intros H; [reflexivity|]. cbn [traverse]. rewrite (H x) by now left. rewrite IH by (intros y Hy; apply H; now right). reflexivity. Qed.
Lemma traverse_map {X Y W} (f : Y -> sres W) (g : X -> Y) l : traverse f (map g l) = traverse (fun x => f (g x)) l.
Proof. induction l as [|x l IH]; [reflexivity|]. cbn [map traverse]. now rewrite IH. Qed.
Lemma traverse_some {X Y} (f : X -> sres Y) (P : X -> Y -> Prop) l : (forall x, In x l -> exists y, f x = SOk y /\ P x y) ->
  exists r, traverse f l = SOk r /\ Forall2 P l r.
Proof.
  induction l as [|x l IH]; intros H; [exists []; auto|]. destruct (H x (or_introl eq_refl)) as (y & E & Q). destruct IH as (r & R & F); [intros z Hz; apply H; now right|].
  exists (y :: r). cbn [traverse]. rewrite E. cbn [bind2]. rewrite R. split; [reflexivity|now constructor].
Qed.
Lemma load_app {X} (l m : list X) i : i < Z.of_nat (length l) -> load (l ++ m) i = load l i.
Proof. intros H. unfold load. destruct (Z.ltb_spec i 0); [reflexivity|]. rewrite nth_error_app1 by lia. reflexivity. Qed.
Lemma Forall_at (P : Q -> Prop) l i : Forall P l -> 0 <= i < Z.of_nat (length l) -> P (at_ l i).
Proof. intros F H. rewrite Forall_forall in F. apply F. unfold at_. apply nth_In. lia. Qed.

(** *** The answer, given what each image has *)
Definition on_level (level : Q -> Z) (p : params) (b : corners) : Z :=
  Z.max (min_level p) (Z.min (max_level p) (level (pixels b))).
Definition distributed (level : Q -> Z) (p : params) (rois : list (Q * corners)) (outs : list (list (Q * corners))) : Prop :=
  (min_level p = max_level p /\ outs = [rois]) \/
  (min_level p < max_level p /\ Z.of_nat (length outs) = max_level p - min_level p + 1 /\
   forall m, 0 <= m <= max_level p - min_level p ->
     let mine := filter (fun r => on_level level p (snd r) =? min_level p + m) rois in
     (mine <> [] -> nth_error outs (Z.to_nat m) = Some mine) /\
     (mine = [] -> nth_error outs (Z.to_nat m) = Some [(0%Q, Corners 0 0 1 1)])).
Lemma distribute_ok level p rois : min_level p <= max_level p ->
  exists outs, (let outputs := max_level p - min_level p + 1 in if 1 <? outputs then distribute level p outputs rois else SOk [rois]) = SOk outs /\
    distributed level p rois outs.
Proof.
  intros H. cbv zeta. destruct (Z.ltb_spec 1 (max_level p - min_level p + 1)) as [C|C].
  - assert (B : forall b, bin level p b = on_level level p b - min_level p).
    { intros b. unfold bin, roi_level, on_level, pixels. lia. }
    unfold distribute. destruct (existsb _ rois) eqn:E.
    { apply existsb_exists in E. destruct E as (r & _ & E). rewrite B in E. apply Z.leb_le in E. unfold on_level in E. lia. }
    eexists. split; [reflexivity|]. right. split; [lia|]. split; [rewrite map_length, length_upto; lia|].
    intros m Hm mine. rewrite nth_error_map, nth_error_upto by lia. cbn [option_map].
    assert (F : filter (fun r => bin level p (snd r) =? m) rois = mine).
    { unfold mine. apply filter_ext. intros r. rewrite B. destruct (Z.eqb_spec (on_level level p (snd r) - min_level p) m), (Z.eqb_spec (on_level level p (snd r)) (min_level p + m)); lia || reflexivity. }
    rewrite F. destruct mine; split; intros X; congruence.
  - exists [rois]. split; [reflexivity|]. left. split; [lia|reflexivity].
Qed.

Section Theorems.
Variables expq sqrtq : Q -> Q.
Variable level : Q -> Z.
Hypothesis Hsqrt : forall v, (0 <= sqrtq v)%Q.
Hypothesis Hexp : forall v, (0 <= expq v)%Q.
Variables (p : params) (num columns : Z) (scores deltas info : list Q).

(** the numbers of image i in [im_info] *)
Definition im_h (i : Z) : Q := at_ info (i * columns).
Definition im_w (i : Z) : Q := at_ info (i * columns + 1).
Definition limit (i : Z) : Q := (inject_Z (min_size p) * at_ info (i * columns + 2))%Q.
Record sane : Prop := {
  s_num : 0 <= num; s_columns : 3 <= columns; s_info : Z.of_nat (length info) = num * columns;
  s_size : forall i, 0 <= i < num -> (1 <= im_h i)%Q /\ (1 <= im_w i)%Q;
  s_ratios : ratios p <> [] /\ Forall (fun r => (0 < r)%Q) (ratios p);
  s_scales : scales p <> [] /\ Forall (fun r => (0 <= r)%Q) (scales p);
  s_pre : 0 <= pre_nms p; s_post : 1 <= post_nms p; s_levels : min_level p <= max_level p }.

(** what the survivors of candidates inside an image are *)
Lemma survivors_sound l kept w h : ProposalSpec.survivors (pre_nms p) (post_nms p) (thresh p) l kept -> 1 <= post_nms p ->
  Forall (fun c => (0 <= xmin (fst c) /\ xmin (fst c) <= xmax (fst c) /\ xmax (fst c) <= w - 1 /\ 0 <= ymin (fst c) /\ ymin (fst c) <= ymax (fst c) /\ ymax (fst c) <= h - 1)%Q) l ->
  Z.of_nat (length kept) <= post_nms p /\
  Forall (fun b => (0 <= xmin b /\ xmin b <= xmax b /\ xmax b <= w - 1 /\ 0 <= ymin b /\ ymin b <= ymax b /\ ymax b <= h - 1)%Q) kept /\
  forall i j x y, (i < j)%nat -> nth_error kept i = Some x -> nth_error kept j = Some y -> exists o, shares x y o /\ (o <= thresh p)%Q.
Proof.
  intros (order & P & _ & K) HP IN. destruct (picked_facts _ _ _ _ _ K) as (A & B & C & _); [cbn; lia|]. split; [exact A|]. split.
  - rewrite Forall_forall in IN |- *. intros b Hb. destruct (B b Hb) as [[]|Hb']. apply in_map_iff in Hb'. destruct Hb' as (c & <- & Hc).
    apply IN. apply firstn_In in Hc. apply (Permutation_in _ (Permutation_sym P) Hc).
  - intros i j x y Hij X Y. apply (C i j); auto. cbn. lia.
Qed.
Definition inside (i : Z) (b : corners) : Prop :=
  (0 <= xmin b /\ xmin b <= xmax b /\ xmax b <= im_w i - 1 /\ 0 <= ymin b /\ ymin b <= ymax b /\ ymax b <= im_h i - 1)%Q.

Section Single.
Variables (fh fw stride : Z) (rest : list (Z * Z)) (total : Z).
Definition count : Z := Z.of_nat (length (ratios p)) * Z.of_nat (length (scales p)).
Record fits : Prop := {
  f_sane : sane; f_strides : strides p = [stride]; f_fh : 1 <= fh; f_fw : 1 <= fw;
  f_scores : count * fh * fw <= Z.of_nat (length scores); f_deltas : 4 * count * fh * fw <= Z.of_nat (length deltas) }.
Hypothesis F : fits.

Lemma cells_in h w i j : In (h, w, i, j) (cells p fh fw) -> 0 <= h < fh /\ 0 <= w < fw /\ 0 <= i < Z.of_nat (length (ratios p)) /\ 0 <= j < Z.of_nat (length (scales p)).
Proof.
  unfold cells. rewrite in_flat_map. intros (h' & H & X). apply in_flat_map in X. destruct X as (w' & W & X).
  apply in_flat_map in X. destruct X as (i' & I & X). apply in_map_iff in X. destruct X as (j' & E & J). apply In_upto in H, W, I, J.
  injection E as -> -> -> ->. auto.
Qed.
Lemma cells_list : flat_map (fun h => flat_map (fun w => map (fun a => (h, w, a)) (upto count)) (upto fw)) (upto fh) =
  map (fun t => let '(h, w, i, j) := t in (h, w, i * Z.of_nat (length (scales p)) + j)) (cells p fh fw).
Proof.
  unfold cells. rewrite !flat_map_concat_map, concat_map, map_map. f_equal. apply map_ext. intros h.
  rewrite !flat_map_concat_map, concat_map, map_map. f_equal. apply map_ext. intros w.
  unfold count. replace (Z.of_nat (length (ratios p)) * Z.of_nat (length (scales p))) with (Z.of_nat (length (scales p)) * Z.of_nat (length (ratios p))) by ring.
  rewrite upto_grid by lia. rewrite !flat_map_concat_map, !concat_map, !map_map. f_equal. apply map_ext. intros i. now rewrite !map_map.
Qed.
Lemma generate_ok i : 0 <= i < num -> exists l,
  generate expq fh fw stride (im_w i) (im_h i) (limit i) (limit i) scores deltas (anchors sqrtq stride (ratios p) (scales p)) = SOk l /\
  Forall2 (candidate_at expq sqrtq p stride fh fw (im_w i) (im_h i) (limit i) scores deltas) (cells p fh fw) l /\
  Forall (fun c => inside i (fst c)) l /\ length l = length (cells p fh fw).
Proof.
  intros Hi. pose proof (f_sane F) as SN. destruct (s_size SN i Hi) as (IH & IW).
  unfold generate. rewrite anchors_length. fold count. rewrite cells_list, traverse_map.
  destruct (traverse_some (fun x => let '(h, w, a) := (let '(h, w, i0, j) := x in (h, w, i0 * Z.of_nat (length (scales p)) + j)) in
    bind2 (load deltas (h * fw + w + (a * 4 + 0) * (fh * fw))) (fun dx =>
    bind2 (load deltas (h * fw + w + (a * 4 + 1) * (fh * fw))) (fun dy =>
    bind2 (load deltas (h * fw + w + (a * 4 + 2) * (fh * fw))) (fun dlw =>
    bind2 (load deltas (h * fw + w + (a * 4 + 3) * (fh * fw))) (fun dlh =>
    bind2 (load (anchors sqrtq stride (ratios p) (scales p)) a) (fun b =>
    bind2 (load scores (h * fw + w + a * (fh * fw))) (fun s =>
    SOk (scored (transform expq dx dy dlw dlh (im_w i) (im_h i) (limit i) (limit i) (shifted stride h w b)) s))))))))
    (fun t c => candidate_at expq sqrtq p stride fh fw (im_w i) (im_h i) (limit i) scores deltas t c /\ inside i (fst c)) (cells p fh fw)) as (l & L & F2).
  - intros [[[h w] x] y] H. apply cells_in in H. destruct H as (Hh & Hw & Hx & Hy). pose proof (f_scores F) as LS. pose proof (f_deltas F) as LD. unfold count in LS, LD.
    set (n := Z.of_nat (length (scales p))) in *. set (m := Z.of_nat (length (ratios p))) in *.
    assert (A : 0 <= x * n + y <= m * n - 1) by nia. assert (K : 0 <= h * fw + w <= fh * fw - 1) by nia.
    set (a := x * n + y) in *. set (c := m * n) in *. set (k := fh * fw) in *. replace (c * fh * fw) with (c * k) in LS by (unfold k; ring).
    replace (4 * c * fh * fw) with (4 * (c * k)) in LD by (unfold k; ring).
    assert (AK : 0 <= a * k) by nia. assert (AK2 : a * k <= c * k - k) by nia.
    assert (LO : forall d, 0 <= d <= 3 -> load deltas (h * fw + w + (a * 4 + d) * k) = SOk (at_ deltas (((a * 4 + d) * fh + h) * fw + w))).
    { intros d Hd. replace (((a * 4 + d) * fh + h) * fw + w) with (h * fw + w + (a * 4 + d) * k) by (unfold k; ring).
      assert (DK : 0 <= d * k <= 3 * k) by nia. apply load_at. lia. }
    rewrite !LO by lia. cbn [bind2]. 
    assert (AA : load (anchors sqrtq stride (ratios p) (scales p)) a = SOk (an sqrtq stride (ratios p) (scales p) x y)) by (exact (anchors_at sqrtq stride (ratios p) (scales p) x y Hx Hy)).
    rewrite AA. cbn [bind2].
    replace (h * fw + w + a * k) with ((a * fh + h) * fw + w) by (unfold k; ring). rewrite load_at by (split; [unfold k in *; nia|]; replace ((a * fh + h) * fw + w) with (h * fw + w + a * k) by (unfold k; ring); lia).
    cbn [bind2]. eexists. split; [reflexivity|]. destruct (s_ratios SN) as (_ & RP). destruct (s_scales SN) as (_ & SP).
    destruct (an_ok sqrtq Hsqrt stride (ratios p) (scales p) x y) as (AN & WP & HP); [apply (Forall_at (fun r => (0 <= r)%Q)); [eapply Forall_impl; [|exact RP]; cbn; intros; lra|exact Hx]|now apply (Forall_at (fun r => (0 <= r)%Q))|].
    match goal with |- candidate_at _ _ _ _ _ _ _ _ _ _ _ _ (scored (transform _ ?dx ?dy ?dlw ?dlh _ _ _ _ _) ?s) /\ _ =>
      pose proof (transform_ok expq dx dy dlw dlh (im_w i) (im_h i) stride h w (an sqrtq stride (ratios p) (scales p) x y) (limit i) s) as T end.
    cbv zeta in T. destruct T as (T1 & T2).
    split; [|exact (proposed_inside expq Hexp _ _ _ _ _ _ _ _ _ _ WP HP IW IH T1)].
    unfold candidate_at. exists (an sqrtq stride (ratios p) (scales p) x y). split; [exact AN|]. split; [exact T1|exact T2].
  - exists l. split; [exact L|]. assert (LL : length l = length (cells p fh fw)) by (clear -F2; induction F2; cbn; congruence). split; [|split; [|exact LL]].
    + clear -F2. induction F2 as [|t c ts cs (H & _) _ IH]; constructor; assumption.
    + clear -F2. induction F2 as [|t c ts cs (_ & H) _ IH]; constructor; assumption.
Qed.

Definition shown (kept : Z -> list corners) : list (Q * corners) := flat_map (fun i => map (fun b => (inject_Z i, b)) (kept i)) (upto num).
Lemma info_ok i : sane -> 0 <= i < num ->
  load info (i * columns) = SOk (im_h i) /\ load info (i * columns + 1) = SOk (im_w i) /\ load info (i * columns + 2) = SOk (at_ info (i * columns + 2)).
Proof.
  intros SN Hi. pose proof (s_columns SN) as C. pose proof (s_info SN) as L. assert (B : 0 <= i * columns /\ i * columns + columns <= num * columns) by nia.
  unfold im_h, im_w. split; [|split]; apply load_at; lia.
Qed.
Lemma straight_inside i b : inside i b -> straight b.
Proof. intros (A & B & C & D & E & G). split; assumption. Qed.
Lemma assemble (img : Z -> sres (list (Q * corners))) (P : Z -> list corners -> Prop) :
  (forall i, 0 <= i < num -> exists kept, img i = SOk (map (fun b => (inject_Z i, b)) kept) /\ P i kept) ->
  exists kept, (forall i, 0 <= i < num -> P i (kept i)) /\ exists rs, traverse img (upto num) = SOk rs /\ concat rs = shown kept.
Proof.
  intros H. set (get := fun i => match img i with SOk l => map snd l | _ => [] end). exists get.
  assert (G : forall i, 0 <= i < num -> img i = SOk (map (fun b => (inject_Z i, b)) (get i)) /\ P i (get i)).
  { intros i Hi. destruct (H i Hi) as (kept & E & Q). unfold get. rewrite E.
    assert (X : map snd (map (fun b : corners => (inject_Z i, b)) kept) = kept) by (clear; induction kept as [|b l IH]; [reflexivity|]; cbn; now rewrite IH).
    rewrite X. auto. }
  split; [intros i Hi; now apply G|]. exists (map (fun i => map (fun b => (inject_Z i, b)) (get i)) (upto num)). split.
  - apply traverse_ok. intros i Hi. apply In_upto in Hi. now apply G.
  - unfold shown. now rewrite flat_map_concat_map.
Qed.
Definition made (i : Z) : list candidate :=
  match generate expq fh fw stride (im_w i) (im_h i) (limit i) (limit i) scores deltas (anchors sqrtq stride (ratios p) (scales p)) with SOk l => l | _ => [] end.
Theorem C159_proposals_partial : exists (candidates : Z -> list candidate) (kept : Z -> list corners) outs,
  (forall i, 0 <= i < num ->
     Forall2 (candidate_at expq sqrtq p stride fh fw (im_w i) (im_h i) (limit i) scores deltas) (cells p fh fw) (candidates i) /\
     ProposalSpec.survivors (pre_nms p) (post_nms p) (thresh p) (candidates i) (kept i)) /\
  proposal expq sqrtq level p num num columns ((fh, fw) :: rest) total scores deltas info = SOk outs /\
  distributed level p (shown kept) outs /\
  (forall i, 0 <= i < num -> Z.of_nat (length (kept i)) <= post_nms p /\ Forall (inside i) (kept i) /\
     forall a b x y, (a < b)%nat -> nth_error (kept i) a = Some x -> nth_error (kept i) b = Some y -> exists o, shares x y o /\ (o <= thresh p)%Q).
Proof.
  pose proof (f_sane F) as SN.
  assert (NE : cells p fh fw <> []).
  { destruct (s_ratios SN) as (R & _). destruct (s_scales SN) as (S & _). assert (RL : 1 <= Z.of_nat (length (ratios p))) by (destruct (ratios p); [congruence|cbn [length]; lia]).
    assert (SL : 1 <= Z.of_nat (length (scales p))) by (destruct (scales p); [congruence|cbn [length]; lia]).
    intros E. assert (I : In (0, 0, 0, 0) (cells p fh fw)); [|rewrite E in I; destruct I]. pose proof (f_fh F). pose proof (f_fw F).
    unfold cells. apply in_flat_map. exists 0. split; [apply In_upto; lia|]. apply in_flat_map. exists 0. split; [apply In_upto; lia|].
    apply in_flat_map. exists 0. split; [apply In_upto; lia|]. apply in_map_iff. exists 0. split; [reflexivity|apply In_upto; lia]. }
  destruct (assemble (image expq sqrtq p ((fh, fw) :: rest) total scores deltas info columns)
    (fun i kept => Forall2 (candidate_at expq sqrtq p stride fh fw (im_w i) (im_h i) (limit i) scores deltas) (cells p fh fw) (made i) /\
       ProposalSpec.survivors (pre_nms p) (post_nms p) (thresh p) (made i) kept /\ Forall (fun c => inside i (fst c)) (made i))) as (kept & KP & rs & TR & CR).
  { intros i Hi. destruct (info_ok i SN Hi) as (I1 & I2 & I3). unfold image. rewrite I1. cbn [bind2]. rewrite I2. cbn [bind2]. rewrite I3. cbn [bind2].
    rewrite (f_strides F). destruct (generate_ok i Hi) as (l & G & F2 & IN & LL). unfold made. rewrite G. unfold limit in G. cbv zeta. rewrite G. cbn [bind2].
    destruct (choose_ok p i l) as (kept & K & S); [apply (s_post SN)|apply (s_pre SN)|destruct l; [destruct (cells p fh fw); [congruence|discriminate]|discriminate]| |].
    - rewrite Forall_map. eapply Forall_impl; [|exact IN]. intros c Hc. now apply straight_inside with i.
    - exists kept. auto. }
  destruct (distribute_ok level p (shown kept) (s_levels SN)) as (outs & DO & DD).
  exists made, kept, outs. split; [intros i Hi; destruct (KP i Hi) as (A & B & _); auto|]. split.
  - unfold proposal. rewrite Z.eqb_refl. cbn [negb]. rewrite TR. cbn [bind2]. rewrite CR. exact DO.
  - split; [exact DD|]. intros i Hi. destruct (KP i Hi) as (_ & B & C). exact (survivors_sound _ _ (im_w i) (im_h i) B (s_post SN) C).
Qed.
(** refuted: each image has its own scores.  Whatever follows the numbers of the
    first image is never looked at *)
Theorem C159_images_refuted more more' :
  proposal expq sqrtq level p num num columns ((fh, fw) :: rest) total (scores ++ more) (deltas ++ more') info =
  proposal expq sqrtq level p num num columns ((fh, fw) :: rest) total scores deltas info.
Proof.
  unfold proposal. rewrite Z.eqb_refl. cbn [negb]. f_equal. apply traverse_ext. intros i _.
  assert (G : forall im_w im_h mw mh, generate expq fh fw stride im_w im_h mw mh (scores ++ more) (deltas ++ more') (anchors sqrtq stride (ratios p) (scales p)) =
                  generate expq fh fw stride im_w im_h mw mh scores deltas (anchors sqrtq stride (ratios p) (scales p))).
  { intros. unfold generate. rewrite anchors_length. fold count. rewrite cells_list, !traverse_map. apply traverse_ext. intros [[[h w] x] y] H.
    apply cells_in in H. destruct H as (Hh & Hw & Hx & Hy). pose proof (f_scores F) as LS. pose proof (f_deltas F) as LD. unfold count in LS, LD.
    set (n := Z.of_nat (length (scales p))) in *. set (m := Z.of_nat (length (ratios p))) in *.
    assert (A : 0 <= x * n + y <= m * n - 1) by nia. assert (K : 0 <= h * fw + w <= fh * fw - 1) by nia.
    set (a := x * n + y) in *. set (c := m * n) in *. set (k := fh * fw) in *. replace (c * fh * fw) with (c * k) in LS by (unfold k; ring).
    replace (4 * c * fh * fw) with (4 * (c * k)) in LD by (unfold k; ring).
    assert (AK : 0 <= a * k) by nia. assert (AK2 : a * k <= c * k - k) by nia.
    assert (LO : forall d, 0 <= d <= 3 -> load (deltas ++ more') (h * fw + w + (a * 4 + d) * k) = load deltas (h * fw + w + (a * 4 + d) * k)).
    { intros d Hd. assert (DK : 0 <= d * k <= 3 * k) by nia. apply load_app. lia. }
    rewrite !LO by lia. rewrite (load_app scores) by lia. reflexivity. }
  unfold image. rewrite (f_strides F). destruct (load info (i * columns)); cbn [bind2]; [|reflexivity..].
  destruct (load info (i * columns + 1)); cbn [bind2]; [|reflexivity..]. destruct (load info (i * columns + 2)); cbn [bind2]; [|reflexivity..]. cbv zeta.
  now rewrite G.
Qed.
End Single.

(** *** Several strides *)
Section Several.
Variables (maps : list (Z * Z)).
Definition total : Z := Z.of_nat (length (places p maps)).
Record fits_several : Prop := {
  g_sane : sane; g_strides : (2 <= length (strides p))%nat; g_maps : length maps = length (strides p); g_scales : length (scales p) = length (strides p);
  g_sizes : Forall (fun m => 1 <= fst m /\ 1 <= snd m) maps;
  g_scores : total <= Z.of_nat (length scores); g_deltas : 4 * total <= Z.of_nat (length deltas) }.
Hypothesis F : fits_several.

Definition first_anchor (s i : Z) : corners := an sqrtq s (ratios p) (firstn 1 (scales p)) i 0.
Definition the_grid : list corners :=
  flat_map (fun t => grid_anchors (fst (snd t)) (snd (snd t)) (fst t) (anchors sqrtq (fst t) (ratios p) (firstn 1 (scales p)))) (combine (strides p) maps).
Lemma one_scale : length (firstn 1 (scales p)) = 1%nat.
Proof. pose proof (g_scales F). pose proof (g_strides F). rewrite firstn_length. lia. Qed.
Lemma grid_places : the_grid = map (fun t => let '(m, i, h, w) := t in shifted (nth m (strides p) 0) h w (first_anchor (nth m (strides p) 0) i)) (places p maps).
Proof.
  unfold the_grid, places. pose proof (g_maps F) as L.
  assert (C : combine (strides p) maps = map (fun m => (nth m (strides p) 0, nth m maps (0, 0))) (seq 0 (length maps))).
  { revert L. generalize (strides p). clear. induction maps as [|x l IH]; intros s H; [destruct s; reflexivity|]. destruct s as [|y s]; [discriminate|]. cbn [combine length seq map nth]. f_equal.
    rewrite (IH s) by (cbn in H; lia). rewrite <- seq_shift, map_map. reflexivity. }
  rewrite C, PosterProofs.flat_map_map. rewrite !flat_map_concat_map, concat_map, map_map. f_equal. apply map_ext. intros m. cbn [fst snd].
  unfold grid_anchors. rewrite anchors_grid. rewrite one_scale. change (upto (Z.of_nat 1)) with [0]. cbn [map].
  rewrite flat_map_flat_map. rewrite !flat_map_concat_map, concat_map, map_map. f_equal. apply map_ext. intros i. cbn [flat_map map]. rewrite app_nil_r.
  rewrite !flat_map_concat_map, concat_map, map_map. f_equal. apply map_ext. intros h. rewrite map_map. reflexivity.
Qed.
Lemma grid_total : Z.of_nat (length the_grid) = total.
Proof. unfold total. now rewrite grid_places, map_length. Qed.
Lemma places_in m i h w : In (m, i, h, w) (places p maps) -> (m < length maps)%nat /\ 0 <= i < Z.of_nat (length (ratios p)).
Proof.
  unfold places. rewrite in_flat_map. intros (m' & M & X). apply in_flat_map in X. destruct X as (i' & I & X). apply in_flat_map in X. destruct X as (h' & H & X).
  apply in_map_iff in X. destruct X as (w' & E & _). injection E as -> -> -> ->. apply in_seq in M. apply In_upto in I. split; [lia|exact I].
Qed.
Definition numbered : list (Z * (nat * Z * Z * Z)) := combine (upto total) (places p maps).
Lemma combine_map_r {X Y W} (f : Y -> W) (a : list X) : forall b, combine a (map f b) = map (fun t => (fst t, f (snd t))) (combine a b).
Proof. induction a as [|x a IH]; intros [|y b]; try reflexivity. cbn [map combine fst snd]. now rewrite IH. Qed.
Lemma generate_v2_ok i : 0 <= i < num -> exists l,
  generate_v2 expq (im_w i) (im_h i) (limit i) (limit i) scores deltas the_grid = SOk l /\
  Forall2 (candidate_of expq sqrtq p (fun _ => at_ (scales p) 0) total (im_w i) (im_h i) (limit i) scores deltas) numbered l /\
  Forall (fun c => inside i (fst c)) l /\ length l = length (places p maps).
Proof.
  intros Hi. pose proof (g_sane F) as SN. destruct (s_size SN i Hi) as (IH & IW). unfold generate_v2. rewrite grid_total.
  assert (NL : length numbered = length (places p maps)) by (unfold numbered, total; rewrite combine_length, length_upto; lia).
  rewrite grid_places, combine_map_r, traverse_map. fold numbered. cbn [fst snd].
  destruct (traverse_some (fun t : Z * (nat * Z * Z * Z) =>
    bind2 (load deltas (fst t)) (fun dx =>
    bind2 (load deltas (total + fst t)) (fun dy =>
    bind2 (load deltas (2 * total + fst t)) (fun dlw =>
    bind2 (load deltas (3 * total + fst t)) (fun dlh =>
    bind2 (load scores (fst t)) (fun s =>
    SOk (scored (transform expq dx dy dlw dlh (im_w i) (im_h i) (limit i) (limit i)
      (let '(m, i0, h, w) := snd t in shifted (nth m (strides p) 0) h w (first_anchor (nth m (strides p) 0) i0))) s)))))))
    (fun t c => candidate_of expq sqrtq p (fun _ => at_ (scales p) 0) total (im_w i) (im_h i) (limit i) scores deltas t c /\ inside i (fst c)) numbered) as (l & L & F2).
  - intros [n [[[m x] h] w]] H. assert (HN := in_combine_l _ _ _ _ H). assert (HP := in_combine_r _ _ _ _ H). apply In_upto in HN. apply places_in in HP. destruct HP as (Hm & Hx).
    cbn [fst snd]. pose proof (g_scores F). pose proof (g_deltas F).
    rewrite (load_at deltas n) by lia. rewrite (load_at deltas (total + n)), (load_at deltas (2 * total + n)), (load_at deltas (3 * total + n)), (load_at scores n) by lia.
    cbn [bind2]. eexists. split; [reflexivity|]. destruct (s_ratios SN) as (_ & RP). destruct (s_scales SN) as (_ & SP).
    assert (A0 : at_ (firstn 1 (scales p)) 0 = at_ (scales p) 0) by (destruct (scales p); reflexivity).
    destruct (an_ok sqrtq Hsqrt (nth m (strides p) 0) (ratios p) (firstn 1 (scales p)) x 0) as (AN & WP & HP).
    { apply (Forall_at (fun r => (0 <= r)%Q)); [eapply Forall_impl; [|exact RP]; cbn; intros; lra|exact Hx]. }
    { rewrite A0. apply (Forall_at (fun r => (0 <= r)%Q)); [exact SP|]. pose proof (g_scales F). pose proof (g_strides F). lia. }
    rewrite A0 in AN. fold (first_anchor (nth m (strides p) 0) x) in AN, WP, HP.
    pose proof (transform_ok expq (at_ deltas n) (at_ deltas (total + n)) (at_ deltas (2 * total + n)) (at_ deltas (3 * total + n)) (im_w i) (im_h i)
      (nth m (strides p) 0) h w (first_anchor (nth m (strides p) 0) x) (limit i) (at_ scores n)) as T.
    cbv zeta in T. destruct T as (T1 & T2).
    split; [|exact (proposed_inside expq Hexp _ _ _ _ _ _ _ _ _ _ WP HP IW IH T1)].
    unfold candidate_of. exists (first_anchor (nth m (strides p) 0) x). split; [exact AN|].
    replace (0 * total + n) with n by ring. replace (1 * total + n) with (total + n) by ring. split; [exact T1|exact T2].
  - exists l. split; [exact L|]. assert (LL : length l = length numbered) by (clear -F2; induction F2; cbn; congruence). split; [|split; [|congruence]].
    + clear -F2. induction F2 as [|t c ts cs (H & _) _ IH]; constructor; assumption.
    + clear -F2. induction F2 as [|t c ts cs (_ & H) _ IH]; constructor; assumption.
Qed.
Definition made_v2 (i : Z) : list candidate :=
  match generate_v2 expq (im_w i) (im_h i) (limit i) (limit i) scores deltas the_grid with SOk l => l | _ => [] end.
Lemma image_several t i : sane -> 0 <= i < num ->
  image expq sqrtq p maps t scores deltas info columns i =
  if t <? total then SUndef else if negb (total =? t) then SErr else
  bind2 (generate_v2 expq (im_w i) (im_h i) (limit i) (limit i) scores deltas the_grid) (choose p i).
Proof.
  intros SN Hi. destruct (info_ok i SN Hi) as (I1 & I2 & I3). unfold image. rewrite I1. cbn [bind2]. rewrite I2. cbn [bind2]. rewrite I3. cbn [bind2]. cbv zeta.
  pose proof (g_strides F) as GS. pose proof grid_total as GT. unfold the_grid in *.
  destruct (strides p) as [|s1 [|s2 ss]] eqn:ES; [cbn in GS; lia|cbn in GS; lia|]. rewrite <- ES in *.
  rewrite (g_maps F), (g_scales F), !Nat.eqb_refl. cbn [negb orb]. rewrite GT. reflexivity.
Qed.

(** as far as the scales are all the same *)
Theorem C160_levels_partial : (forall m, (m < length (scales p))%nat -> nth m (scales p) 0%Q = at_ (scales p) 0) ->
  exists (candidates : Z -> list candidate) (kept : Z -> list corners) outs,
  (forall i, 0 <= i < num ->
     Forall2 (candidate_of expq sqrtq p (fun m => nth m (scales p) 0%Q) total (im_w i) (im_h i) (limit i) scores deltas) numbered (candidates i) /\
     ProposalSpec.survivors (pre_nms p) (post_nms p) (thresh p) (candidates i) (kept i)) /\
  proposal expq sqrtq level p num num columns maps total scores deltas info = SOk outs /\
  distributed level p (shown kept) outs /\
  (forall i, 0 <= i < num -> Z.of_nat (length (kept i)) <= post_nms p /\ Forall (inside i) (kept i) /\
     forall a b x y, (a < b)%nat -> nth_error (kept i) a = Some x -> nth_error (kept i) b = Some y -> exists o, shares x y o /\ (o <= thresh p)%Q).
Proof.
  intros SAME. pose proof (g_sane F) as SN.
  assert (NE : places p maps <> []).
  { destruct (s_ratios SN) as (R & _). assert (RL : 1 <= Z.of_nat (length (ratios p))) by (destruct (ratios p); [congruence|cbn [length]; lia]).
    pose proof (g_maps F) as GM. pose proof (g_strides F) as GS. pose proof (g_sizes F) as SZ.
    destruct maps as [|m0 ms] eqn:EM; [cbn in GM; lia|]. inversion SZ as [|? ? (A & B) _]; subst.
    intros E. assert (I : In (0%nat, 0, 0, 0) (places p (m0 :: ms))); [|rewrite E in I; destruct I].
    unfold places. apply in_flat_map. exists 0%nat. split; [apply in_seq; cbn; lia|]. cbn [nth]. apply in_flat_map. exists 0. split; [apply In_upto; lia|].
    apply in_flat_map. exists 0. split; [apply In_upto; lia|]. apply in_map_iff. exists 0. split; [reflexivity|apply In_upto; lia]. }
  destruct (assemble (image expq sqrtq p maps total scores deltas info columns)
    (fun i kept => Forall2 (candidate_of expq sqrtq p (fun m => nth m (scales p) 0%Q) total (im_w i) (im_h i) (limit i) scores deltas) numbered (made_v2 i) /\
       ProposalSpec.survivors (pre_nms p) (post_nms p) (thresh p) (made_v2 i) kept /\ Forall (fun c => inside i (fst c)) (made_v2 i))) as (kept & KP & rs & TR & CR).
  { intros i Hi. rewrite (image_several total i SN Hi), Z.ltb_irrefl, Z.eqb_refl. cbn [negb].
    destruct (generate_v2_ok i Hi) as (l & G & F2 & IN & LL). unfold made_v2. rewrite G. cbn [bind2].
    destruct (choose_ok p i l) as (kept & K & S); [apply (s_post SN)|apply (s_pre SN)|destruct l; [destruct (places p maps); [congruence|discriminate]|discriminate]| |].
    - rewrite Forall_map. eapply Forall_impl; [|exact IN]. intros c Hc. now apply straight_inside with i.
    - exists kept. split; [exact K|]. split; [|split; [exact S|exact IN]].
      assert (IP : Forall (fun t : Z * (nat * Z * Z * Z) => (fst (fst (fst (snd t))) < length (scales p))%nat) numbered).
      { apply Forall_forall. intros [n [[[m x] h] w]] H. apply in_combine_r, places_in in H. cbn. pose proof (g_scales F). pose proof (g_maps F). lia. }
      clear -F2 SAME IP. induction F2 as [|t c ts cs H _ IH]; [constructor|]. inversion IP; subst. constructor; [|now apply IH].
      destruct t as [n [[[m x] h] w]]. cbn [fst snd] in *. unfold candidate_of in *. rewrite SAME by assumption. exact H. }
  destruct (distribute_ok level p (shown kept) (s_levels SN)) as (outs & DO & DD).
  exists made_v2, kept, outs. split; [intros i Hi; destruct (KP i Hi) as (A & B & _); auto|]. split.
  - unfold proposal. rewrite Z.eqb_refl. cbn [negb]. rewrite TR. cbn [bind2]. rewrite CR. exact DO.
  - split; [exact DD|]. intros i Hi. destruct (KP i Hi) as (_ & B & C). exact (survivors_sound _ _ (im_w i) (im_h i) B (s_post SN) C).
Qed.
(** the number of predictions: fewer than the maps have cells, and the rows are
    written past the end of [proposals_] before they are counted *)
Theorem C160_overflow_refuted t : 1 <= num -> t < total ->
  proposal expq sqrtq level p num num columns maps t scores deltas info = SUndef.
Proof.
  intros N T. unfold proposal. rewrite Z.eqb_refl. cbn [negb]. assert (U : exists l, upto num = 0 :: l) by (unfold upto; destruct (Z.to_nat num) eqn:E; [lia|cbn; eauto]).
  destruct U as (l & ->). cbn [traverse]. rewrite (image_several t 0 (g_sane F)) by lia. destruct (Z.ltb_spec t total); [|lia]. reflexivity.
Qed.
Theorem C160_count t : 1 <= num -> total < t -> proposal expq sqrtq level p num num columns maps t scores deltas info = SErr.
Proof.
  intros N T. unfold proposal. rewrite Z.eqb_refl. cbn [negb]. assert (U : exists l, upto num = 0 :: l) by (unfold upto; destruct (Z.to_nat num) eqn:E; [lia|cbn; eauto]).
  destruct U as (l & ->). cbn [traverse]. rewrite (image_several t 0 (g_sane F)) by lia. destruct (Z.ltb_spec t total); [lia|]. destruct (Z.eqb_spec total t); [lia|]. reflexivity.
Qed.
End Several.
End Theorems.

(** refuted: each stride has its own scale.  Only the first scale is looked at *)
Theorem C160_scales_refuted expq sqrtq level p q num columns maps total scores deltas info : (2 <= length (strides p))%nat ->
  strides q = strides p -> ratios q = ratios p -> pre_nms q = pre_nms p -> post_nms q = post_nms p -> thresh q = thresh p -> min_size q = min_size p ->
  min_level q = min_level p -> max_level q = max_level p -> length (scales q) = length (scales p) -> firstn 1 (scales q) = firstn 1 (scales p) ->
  proposal expq sqrtq level q num num columns maps total scores deltas info = proposal expq sqrtq level p num num columns maps total scores deltas info.
Proof.
  intros GS ES ER E1 E2 E3 E4 E5 E6 EL EF. unfold proposal. rewrite E5, E6. destruct (negb (num =? num)); [reflexivity|].
  assert (IM : forall i, image expq sqrtq q maps total scores deltas info columns i = image expq sqrtq p maps total scores deltas info columns i).
  { intros i. unfold image. rewrite ES, ER, EF, EL, E4. destruct (load info (i * columns)); cbn [bind2]; [|reflexivity..].
    destruct (load info (i * columns + 1)); cbn [bind2]; [|reflexivity..]. destruct (load info (i * columns + 2)); cbn [bind2]; [|reflexivity..]. cbv zeta.
    assert (CH : forall l, choose q i l = choose p i l) by (intros l; unfold choose; now rewrite E1, E2, E3).
    destruct (strides p) as [|s1 [|s2 ss]]; [cbn in GS; lia|cbn in GS; lia|].
    destruct (_ || _); [reflexivity|]. destruct (total <? _); [reflexivity|]. destruct (negb (_ =? total)); [reflexivity|].
    match goal with |- bind2 ?x _ = bind2 ?x _ => destruct x; cbn [bind2]; [apply CH|reflexivity..] end. }
  rewrite (traverse_ext (image expq sqrtq q maps total scores deltas info columns) (image expq sqrtq p maps total scores deltas info columns)) by (intros; apply IM).
  destruct (traverse (image expq sqrtq p maps total scores deltas info columns) (upto num)); cbn [bind2]; [|reflexivity..].
  destruct (1 <? _); [|reflexivity]. unfold distribute, bin, roi_level. now rewrite E5, E6.
Qed.

(** *** Examples.  One map of 1 x 3 cells: the third box is moved onto the second,
    which scores more; two images of which the second has no scores of its own *)
Definition sixteen (_ : Q) : Q := 16.
Definition one (_ : Q) : Q := 1.
Definition ex (lo hi : Z) : params := Params [16] [1%Q] [1%Q] 100 2 (7 # 10) 4 lo hi.
Definition ex_scores : list Q := [1 # 2; 9 # 10; 8 # 10]%Q.
Definition ex_deltas : list Q := [0; 0; -(1);  0; 0; 0;  0; 0; 0;  0; 0; 0]%Q.
Definition ex_info : list Q := [40; 60; 1;  40; 60; 1]%Q.
(** answers with their fractions in lowest terms *)
Definition lowest (r : sres (list (list (Q * corners)))) :=
  match r with SOk l => SOk (map (map (fun t => (Qred (fst t), Corners (Qred (xmin (snd t))) (Qred (ymin (snd t))) (Qred (xmax (snd t))) (Qred (ymax (snd t)))))) l) | e => e end.
(** big boxes go to level 3 *)
Definition by_area (a : Q) : Z := if Qle_bool 250 a then 7 else 2.
Lemma ex_fits lo hi : lo <= hi -> fits (ex lo hi) 2 3 ex_scores ex_deltas ex_info 1 3 16.
Proof.
  intros H. constructor; cbn; try lia; try reflexivity. constructor; cbn; try lia; try reflexivity.
  - intros i Hi. assert (C : i = 0 \/ i = 1) by lia. destruct C as [-> | ->]; vm_compute; split; congruence.
  - split; [discriminate|]. constructor; [reflexivity|constructor].
  - split; [discriminate|]. constructor; [discriminate|constructor].
Qed.
Example C159_example : fits (ex 0 0) 2 3 ex_scores ex_deltas ex_info 1 3 16 /\
  lowest (proposal one sixteen by_area (ex 0 0) 2 2 3 [(1, 3)] 0 ex_scores ex_deltas ex_info) =
    SOk [[(0, Corners 16 0 32 16); (0, Corners 0 0 16 16); (1, Corners 16 0 32 16); (1, Corners 0 0 16 16)]]%Q.
Proof. split; [apply ex_fits; lia|vm_compute; reflexivity]. Qed.
(** the third box would be second, were it not suppressed *)
Example C159_example_kept : lowest (proposal one sixteen by_area (Params [16] [1%Q] [1%Q] 100 2 1 4 0 0) 1 1 3 [(1, 3)] 0 ex_scores ex_deltas [40; 60; 1]%Q) =
    SOk [[(0, Corners 16 0 32 16); (0, Corners 16 0 32 16)]]%Q.
Proof. vm_compute. reflexivity. Qed.
(** all on level 4, the others have one box of no image of theirs *)
Example C159_example_levels : fits (ex 2 4) 2 3 ex_scores ex_deltas ex_info 1 3 16 /\
  lowest (proposal one sixteen by_area (ex 2 4) 2 2 3 [(1, 3)] 0 ex_scores ex_deltas ex_info) =
    SOk [[(0, Corners 0 0 1 1)]; [(0, Corners 0 0 1 1)];
         [(0, Corners 16 0 32 16); (0, Corners 0 0 16 16); (1, Corners 16 0 32 16); (1, Corners 0 0 16 16)]]%Q.
Proof. split; [apply ex_fits; lia|vm_compute; reflexivity]. Qed.
(** the second image has other scores, and is not asked *)
Example C159_images_example :
  proposal one sixteen by_area (ex 0 0) 2 2 3 [(1, 3)] 0 (ex_scores ++ [1; 0; 0]%Q) (ex_deltas ++ ex_deltas) ex_info =
  proposal one sixteen by_area (ex 0 0) 2 2 3 [(1, 3)] 0 ex_scores ex_deltas ex_info.
Proof. apply C159_images_refuted with (stride := 16). apply ex_fits. lia. Qed.
(** maps of 1 x 2 and 1 x 1 cells *)
Definition ex_many (s2 : Q) : params := Params [16; 32] [1%Q] [1%Q; s2] 100 2 (7 # 10) 4 2 4.
Lemma many_fits s2 : (0 <= s2)%Q -> fits_several (ex_many s2) 1 3 ex_scores ex_deltas [40; 60; 1]%Q [(1, 2); (1, 1)].
Proof.
  intros H. constructor; cbn; try lia; try reflexivity; try (vm_compute; congruence).
  - constructor; cbn; try lia; try reflexivity.
    + intros i Hi. assert (C : i = 0) by lia. subst i. vm_compute; split; congruence.
    + split; [discriminate|]. constructor; [reflexivity|constructor].
    + split; [discriminate|]. constructor; [discriminate|]. constructor; [exact H|constructor].
  - repeat constructor; cbn; lia.
Qed.
Example C160_example : fits_several (ex_many 1) 1 3 ex_scores ex_deltas [40; 60; 1]%Q [(1, 2); (1, 1)] /\
  (forall m, (m < length (scales (ex_many 1)))%nat -> nth m (scales (ex_many 1)) 0%Q = at_ (scales (ex_many 1)) 0) /\ total (ex_many 1) [(1, 2); (1, 1)] = 3 /\
  lowest (proposal one sixteen by_area (ex_many 1) 1 1 3 [(1, 2); (1, 1)] 3 ex_scores ex_deltas [40; 60; 1]%Q) =
    SOk [[(0, Corners 0 8 8 24)]; [(0, Corners 0 0 1 1)]; [(0, Corners 16 0 32 16)]]%Q.
Proof.
  split; [apply many_fits; discriminate|]. split; [|split; [reflexivity|vm_compute; reflexivity]].
  cbn. intros m Hm. destruct m as [|[|m]]; [reflexivity|reflexivity|lia].
Qed.
(** the second map's anchors should be four times as large *)
Example C160_scales_example :
  proposal one sixteen by_area (ex_many 4) 1 1 3 [(1, 2); (1, 1)] 3 ex_scores ex_deltas [40; 60; 1]%Q =
  proposal one sixteen by_area (ex_many 1) 1 1 3 [(1, 2); (1, 1)] 3 ex_scores ex_deltas [40; 60; 1]%Q.
Proof. apply C160_scales_refuted; cbn; auto. Qed.
Example C160_overflow_example :
  proposal one sixteen by_area (ex_many 1) 1 1 3 [(1, 2); (1, 1)] 2 ex_scores ex_deltas [40; 60; 1]%Q = SUndef /\
  proposal one sixteen by_area (ex_many 1) 1 1 3 [(1, 2); (1, 1)] 4 ex_scores ex_deltas [40; 60; 1]%Q = SErr.
Proof.
  assert (H : fits_several (ex_many 1) 1 3 ex_scores ex_deltas [40; 60; 1]%Q [(1, 2); (1, 1)]) by (apply many_fits; discriminate).
  split; [apply (C160_overflow_refuted _ _ _ _ _ _ _ _ _ _ H); vm_compute; congruence|apply (C160_count _ _ _ _ _ _ _ _ _ _ H); vm_compute; congruence].
Qed.

Print Assumptions C159_proposals_partial.
Print Assumptions C159_images_refuted.
Print Assumptions C160_levels_partial.
Print Assumptions C160_count.
Print Assumptions C160_overflow_refuted.
Print Assumptions C160_scales_refuted.
