(** C158: the detections reported are the greedy survivors, decoded, best first. *)
From Coq Require Import List ZArith Bool QArith Qminmax Sorting.Sorted Permutation Lia Lqa.
From Verif Require Import ShapeModel KernelBase KernelProofs ResizeModel NmsModel NmsProofs DetectModel DetectSpec DetectProofs.
Import ListNotations.
Local Open Scope Z_scope.

Lemma sorted_ext {A} (R R' : A -> A -> Prop) l : (forall x y, In x l -> In y l -> R x y -> R' x y) -> StronglySorted R l -> StronglySorted R' l.
Proof.
  induction 2 as [|x l S IH FA]; [constructor|]. constructor.
  - apply IH. intros a b Ha Hb. apply H; now right.
  - rewrite Forall_forall in FA |- *. intros y Hy. apply H; [now left|now right|auto].
Qed.
Lemma ranked_ext n s s' t k l : (forall i, 0 <= i < n -> s i = s' i) -> ranked n s t k l -> ranked n s' t k l /\ forall i, In i l -> 0 <= i < n.
Proof.
  intros E (full & A & B & C). split.
  - exists full. split; [|split; [|exact C]].
    + intros i. rewrite A. split; intros (X & Y); (split; [exact X|]); [rewrite <- E|rewrite E]; auto.
    + eapply sorted_ext; [|exact B]. cbn. intros x y Hx Hy. apply A in Hx, Hy. rewrite !E by tauto. auto.
  - intros i Hi. destruct C as [(_ & ->)|(_ & ->)]; [|apply firstn_In in Hi]; now apply A in Hi.
Qed.
Lemma greedy_ext p (n : Z) b b' kept l r : (forall i, 0 <= i < n -> b i = b' i) -> (forall i, In i kept -> 0 <= i < n) -> (forall i, In i l -> 0 <= i < n) ->
  greedy p b kept l r -> greedy p b' kept l r.
Proof.
  intros E K L G. induction G as [kept|kept i l r t T O G IH|kept i l r t T O G IH].
  - constructor.
  - apply greedy_keep with (t := t); [exact T| |].
    + intros k Hk. rewrite <- !E; [now apply O|now apply K|apply L; now left].
    + apply IH; [|intros j Hj; apply L; now right]. intros j Hj. apply in_app_iff in Hj. destruct Hj as [Hj|[<-|[]]]; [auto|apply L; now left].
  - apply greedy_drop with (t := t); [exact T| |apply IH; [exact K|intros j Hj; apply L; now right]].
    destruct O as (k & o & Hk & O & X). exists k, o. rewrite <- !E; [auto|now apply K|apply L; now left].
Qed.
Lemma survivors_ext p n s s' b b' l : (forall i, 0 <= i < n -> s i = s' i) -> (forall i, 0 <= i < n -> b i = b' i) ->
  survivors p n s b l -> survivors p n s' b' l.
Proof.
  intros ES EB (cand & R & G). destruct (ranked_ext _ _ s' _ _ _ ES R) as (R' & IN). exists cand. split; [exact R'|].
  eapply greedy_ext; [exact EB| |exact IN|exact G]. intros i [].
Qed.
Lemma nth_map_upto {A} (f : Z -> A) n k d : 0 <= k < n -> nth (Z.to_nat k) (map f (upto n)) d = f k.
Proof.
  intros H. rewrite (nth_indep _ d (f 0)) by (rewrite map_length, length_upto; lia). rewrite map_nth.
  rewrite (nth_error_nth _ _ 0 (nth_error_upto n k H)). reflexivity.
Qed.
Lemma flat_map_filter {A B} (f : A -> bool) (F : A -> list B) l : (forall x, In x l -> f x = false -> F x = []) -> flat_map F (filter f l) = flat_map F l.
Proof.
  induction l as [|x l IH]; intros H; [reflexivity|]. cbn. destruct (f x) eqn:E; cbn; rewrite IH by (intros y Hy; apply H; now right); [reflexivity|].
  now rewrite (H x (or_introl eq_refl) E).
Qed.
Lemma flat_map_map' {A B C} (F : B -> list C) (g : A -> B) l : flat_map F (map g l) = flat_map (fun x => F (g x)) l.
Proof. induction l as [|x l IH]; [reflexivity|]. cbn. now rewrite IH. Qed.

Section Theorems.
Variable expq : Q -> Q.
Variable sort : list (Q * (Z * Z)) -> list (Q * (Z * Z)).
Hypothesis Hsort : sorting sort.
Variables (p : params) (num priors : Z) (loc conf prior : list Q).

(** the inputs fit together *)
Record fits : Prop := {
  f_num : 0 <= num; f_priors : 0 < priors; f_classes : 1 <= classes p;
  f_loc : Z.of_nat (length loc) = num * priors * loc_classes p * 4;
  f_conf : Z.of_nat (length conf) = num * priors * classes p;
  f_prior : 8 * priors <= Z.of_nat (length prior);
  f_code : code p = 1 \/ ((code p = 2 \/ code p = 3) /\
     forall k, 0 <= k < priors -> (0 < width (prior_at prior k))%Q /\ (0 < height (prior_at prior k))%Q);
  f_background : share p = true -> background p <> -1 }.
Hypothesis F : fits.

Let S (i c k : Z) : Q := confidence_at p conf priors i c k.
Definition box (i c k : Z) : corners :=
  match decode expq p (prior_at prior k) (variance_at prior priors k) (prediction p loc priors i c k) with SOk r => r | _ => no_box end.

Lemma box_decoded i c k : 0 <= k < priors ->
  decode expq p (prior_at prior k) (variance_at prior priors k) (prediction p loc priors i c k) = SOk (box i c k) /\
  decoded expq p (prior_at prior k) (variance_at prior priors k) (prediction p loc priors i c k) (box i c k).
Proof.
  intros H. destruct (decode_ok expq p (prior_at prior k) (variance_at prior priors k) (prediction p loc priors i c k)) as (r & E & D).
  { destruct (f_code F) as [C|(C & W)]; [now left|right]. split; [exact C|now apply W]. }
  unfold box. rewrite E. split; [reflexivity|exact D].
Qed.
Lemma loc_classes_pos : 1 <= loc_classes p.
Proof. unfold loc_classes. pose proof (f_classes F). destruct (share p); lia. Qed.
Lemma slot_same c : 0 <= c < loc_classes p -> slot p c = c.
Proof. unfold slot, loc_classes. destruct (share p); lia. Qed.
Lemma slot_range c : 0 <= c < classes p -> 0 <= slot p c < loc_classes p.
Proof. unfold slot, loc_classes. destruct (share p); lia. Qed.
Lemma label_slot c : label_of p (slot p c) = label_of p c.
Proof. unfold label_of, slot. now destruct (share p). Qed.

Lemma locations_ok i : 0 <= i < num ->
  locations p loc priors i = SOk (map (fun c => (label_of p c, map (prediction p loc priors i c) (upto priors))) (upto (loc_classes p))).
Proof.
  intros I. unfold locations. pose proof (f_priors F) as P. destruct (Z.leb_spec priors 0); [lia|].
  apply traverse_ok. intros c Hc. apply In_upto in Hc. rewrite (traverse_ok _ (prediction p loc priors i c)); [reflexivity|].
  intros k Hk. apply In_upto in Hk. unfold prediction. rewrite (slot_same c Hc).
  replace (i * (priors * loc_classes p * 4) + k * loc_classes p * 4 + c * 4) with (((i * priors + k) * loc_classes p + c) * 4) by ring.
  pose proof (f_loc F) as L. set (n := loc_classes p) in *.
  assert (A : 0 <= i * priors + k <= num * priors - 1) by nia.
  assert (B : 0 <= (i * priors + k) * n + c) by nia.
  assert (C : (i * priors + k) * n + c <= num * priors * n - 1) by nia.
  apply four_at; lia.
Qed.
Lemma confidences_ok i : 0 <= i < num ->
  confidences p conf priors i = SOk (map (fun c => (c, map (S i c) (upto priors))) (upto (classes p))).
Proof.
  intros I. unfold confidences. pose proof (f_priors F) as P. destruct (Z.leb_spec priors 0); [lia|].
  apply traverse_ok. intros c Hc. apply In_upto in Hc. rewrite (traverse_ok _ (S i c)); [reflexivity|].
  intros k Hk. apply In_upto in Hk. unfold S, confidence_at.
  replace (i * (priors * classes p) + k * classes p + c) with ((i * priors + k) * classes p + c) by ring.
  pose proof (f_conf F) as L. set (n := classes p) in *.
  assert (A : 0 <= i * priors + k <= num * priors - 1) by nia.
  assert (B : 0 <= (i * priors + k) * n + c) by nia.
  assert (C : (i * priors + k) * n + c <= num * priors * n - 1) by nia.
  apply load_at. lia.
Qed.
Lemma prior_boxes_ok : prior_boxes prior priors = SOk (map (prior_at prior) (upto priors), map (variance_at prior priors) (upto priors)).
Proof.
  pose proof (f_prior F) as L. unfold prior_boxes. rewrite (traverse_ok _ (prior_at prior)).
  - cbn [bind2]. rewrite (traverse_ok _ (variance_at prior priors)); [reflexivity|]. intros k Hk. apply In_upto in Hk. apply four_at; lia.
  - intros k Hk. apply In_upto in Hk. apply four_at; lia.
Qed.
Definition shown c := negb (label_of p c =? background p).
Lemma decode_all_ok i : 0 <= i < num ->
  decode_all expq p (map (prior_at prior) (upto priors)) (map (variance_at prior priors) (upto priors))
    (map (fun c => (label_of p c, map (prediction p loc priors i c) (upto priors))) (upto (loc_classes p))) =
  SOk (map (fun c => (label_of p c, map (box i c) (upto priors))) (filter shown (upto (loc_classes p)))).
Proof.
  intros I. unfold decode_all. apply traverse_ok. intros c Hc. apply filter_In in Hc. destruct Hc as (Hc & _).
  assert (LK : lookup (map (fun d => (label_of p d, map (prediction p loc priors i d) (upto priors))) (upto (loc_classes p))) (label_of p c) =
               Some (map (prediction p loc priors i c) (upto priors))).
  { apply (lookup_map (label_of p) (fun d => map (prediction p loc priors i d) (upto priors))); [exact Hc|].
    intros d Hd E. apply In_upto in Hc, Hd. assert (d = c) as ->; [|reflexivity].
    revert Hc Hd E. unfold label_of, loc_classes. destruct (share p); lia. }
  rewrite LK.
  unfold decode_boxes. rewrite !map_length, Nat.eqb_refl. cbn [negb orb]. rewrite !combine_map.
  rewrite (traverse_ok _ (fun t => match decode expq p (fst (fst t)) (snd (fst t)) (snd t) with SOk r => r | _ => no_box end)).
  - cbn [bind2]. rewrite map_map. reflexivity.
  - intros t Ht. apply in_map_iff in Ht. destruct Ht as (k & <- & Hk). apply In_upto in Hk. cbn [fst snd].
    destruct (box_decoded i c k Hk) as (E & _). now rewrite E.
Qed.

(** *** One image *)
Definition confs i := map (fun c => (c, map (S i c) (upto priors))) (upto (classes p)).
Definition decs i := map (fun c => (label_of p c, map (box i c) (upto priors))) (filter shown (upto (loc_classes p))).
Lemma box_slot i c : box i (slot p c) = box i c.
Proof.
  unfold box, prediction. replace (slot p (slot p c)) with (slot p c); [reflexivity|]. unfold slot. now destruct (share p).
Qed.
Lemma confs_lookup i c : 0 <= c < classes p -> lookup (confs i) c = Some (map (S i c) (upto priors)).
Proof.
  intros H. unfold confs. apply (lookup_map (fun d => d) (fun d => map (S i d) (upto priors))); [now apply In_upto|]. intros d _ ->. reflexivity.
Qed.
Lemma decs_lookup i c : 0 <= c < classes p -> c <> background p -> lookup (decs i) (label_of p c) = Some (map (box i c) (upto priors)).
Proof.
  intros H N. unfold decs. rewrite <- (label_slot c).
  rewrite (lookup_map (label_of p) (fun d => map (box i d) (upto priors)) _ (slot p c)).
  - f_equal. apply map_ext. intros k. now rewrite box_slot.
  - apply filter_In. split; [apply In_upto, slot_range, H|]. unfold shown. rewrite label_slot.
    pose proof (f_background F) as B. unfold label_of. destruct (share p); destruct (Z.eqb_spec (-1) (background p)), (Z.eqb_spec c (background p)); try reflexivity; try congruence.
    exfalso. apply B; [reflexivity|congruence].
  - intros d Hd E. apply filter_In in Hd. destruct Hd as (Hd & _). apply In_upto in Hd.
    pose proof (slot_range c H) as SR. assert (d = slot p c) as ->; [|reflexivity].
    revert E Hd SR. unfold label_of, loc_classes, slot. destruct (share p); lia.
Qed.
Definition visible c := negb (c =? background p).
Definition kept (i c : Z) : list Z :=
  if (0 <=? c) && (c <? classes p) && visible c
  then match nms_fast p (map (box i c) (upto priors)) (map (S i c) (upto priors)) with SOk l => l | _ => [] end else [].
Lemma kept_ok i c : 0 <= c < classes p -> c <> background p ->
  nms_fast p (map (box i c) (upto priors)) (map (S i c) (upto priors)) = SOk (kept i c) /\
  survivors p priors (S i c) (box i c) (kept i c) /\ NoDup (kept i c) /\ forall k, In k (kept i c) -> 0 <= k < priors.
Proof.
  intros H N. pose proof (f_priors F) as P. unfold kept, visible.
  destruct (Z.leb_spec 0 c); [|lia]. destruct (Z.ltb_spec c (classes p)); [|lia]. destruct (Z.eqb_spec c (background p)); [congruence|]. cbn [negb andb].
  destruct (nms_fast_ok p (map (box i c) (upto priors)) (map (S i c) (upto priors)) priors) as (l & E & SV & ND & IN).
  - rewrite map_length, length_upto. lia.
  - now rewrite !map_length.
  - rewrite E. split; [reflexivity|]. split; [|split; assumption].
    eapply survivors_ext; [| |exact SV]; intros k Hk; [unfold score|unfold box_of]; now rewrite nth_map_upto.
Qed.
Lemma kept_none i c : ~ (0 <= c < classes p /\ c <> background p) -> kept i c = [].
Proof.
  intros H. unfold kept, visible. destruct (Z.leb_spec 0 c); [|reflexivity]. destruct (Z.ltb_spec c (classes p)); [|reflexivity].
  destruct (Z.eqb_spec c (background p)); [reflexivity|]. exfalso. apply H. auto.
Qed.
Definition all i := flat_map (fun c => map (fun k => (c, k)) (kept i c)) (upto (classes p)).
Lemma in_all i x : In x (all i) <-> In (snd x) (kept i (fst x)).
Proof.
  unfold all. rewrite in_flat_map. split.
  - intros (c & _ & H). apply in_map_iff in H. destruct H as (k & <- & H). exact H.
  - intros H. destruct x as [c k]. cbn in H. exists c. split; [|apply in_map_iff; now exists k]. apply In_upto.
    destruct (Z_le_dec 0 c); [destruct (Z_lt_dec c (classes p)); [lia|]|]; rewrite kept_none in H by tauto; destruct H.
Qed.
Lemma all_range i x : In x (all i) -> 0 <= fst x < classes p /\ fst x <> background p /\ 0 <= snd x < priors.
Proof.
  intros H. apply in_all in H. destruct (Z_le_dec 0 (fst x)), (Z_lt_dec (fst x) (classes p)), (Z.eq_dec (fst x) (background p));
    try (rewrite kept_none in H by tauto; destruct H). destruct (kept_ok i (fst x)) as (_ & _ & _ & IN); [lia|assumption|]. split; [lia|]. split; [assumption|now apply IN].
Qed.
Lemma all_nodup i : NoDup (all i).
Proof.
  unfold all. assert (G : forall l, NoDup l -> NoDup (flat_map (fun c => map (fun k => (c, k)) (kept i c)) l)).
  { induction 1 as [|c l N H IH]; [constructor|]. cbn [flat_map].
    assert (A : NoDup (map (fun k => (c, k)) (kept i c))).
    { apply FinFun.Injective_map_NoDup; [intros a b E; congruence|].
      destruct (Z_le_dec 0 c), (Z_lt_dec c (classes p)), (Z.eq_dec c (background p)); try (rewrite kept_none by tauto; constructor). apply kept_ok; lia. }
    revert A. generalize (kept i c). intros m A. induction m as [|k m IHm]; [exact IH|]. cbn in *. inversion A; subst. constructor; [|now apply IHm].
    rewrite in_app_iff. intros [C|C]; [contradiction|]. apply in_flat_map in C. destruct C as (d & Hd & C). apply in_map_iff in C. destruct C as (j & E & _). congruence. }
  apply G, NoDup_upto.
Qed.

Definition pairs_of (ix : list (Z * list Z)) := flat_map (fun e => map (fun k => (fst e, k)) (snd e)) ix.
Lemma select_ok i : exists ix cnt, select sort p (confs i) (decs i) = SOk (ix, cnt) /\
  reported p priors (S i) (box i) (pairs_of ix) /\ Z.of_nat (length (pairs_of ix)) = cnt.
Proof.
  unfold select.
  rewrite (traverse_ok _ (fun c => (c, kept i c))).
  2: { intros c Hc. apply filter_In in Hc. destruct Hc as (Hc & V). apply In_upto in Hc. destruct (Z.eqb_spec c (background p)) as [|N]; [discriminate|].
       rewrite confs_lookup, decs_lookup by assumption. destruct (kept_ok i c Hc N) as (E & _). now rewrite E. }
  cbn [bind2]. set (indices := map (fun c => (c, kept i c)) (filter (fun c => negb (c =? background p)) (upto (classes p)))).
  assert (PA : pairs_of indices = all i).
  { unfold pairs_of, indices, all. rewrite flat_map_map'. cbn [fst snd]. apply flat_map_filter. intros c _ E.
    destruct (Z.eqb_spec c (background p)) as [B|]; [|discriminate]. rewrite kept_none by tauto. reflexivity. }
  assert (LEN : length (flat_map snd indices) = length (all i)).
  { rewrite <- PA. unfold pairs_of. clear. induction indices as [|e l IH]; [reflexivity|]. cbn. now rewrite !app_length, map_length, IH. }
  rewrite LEN. change (flat_map (fun e => map (fun k => (fst e, k)) (snd e)) indices) with (pairs_of indices). rewrite PA.
  assert (SA : StronglySorted (fun x y => fst x <= fst y) (all i)).
  { unfold all. apply flat_sorted; [apply upto_sorted|]. intros c x H. apply in_map_iff in H. now destruct H as (k & <- & _). }
  destruct (Z.ltb_spec (-1) (keep_top p)) as [K|K]; cbn [andb]; [destruct (Z.ltb_spec (keep_top p) (Z.of_nat (length (all i)))) as [KL|KL]|].
  - rewrite (traverse_ok _ (fun ci => (S i (fst ci) (snd ci), ci))).
    2: { intros ci H. apply all_range in H. destruct H as (A & B & C). rewrite confs_lookup by exact A. rewrite map_length, length_upto.
         destruct (Z.leb_spec (Z.of_nat (Z.to_nat priors)) (snd ci)); [lia|]. unfold score. now rewrite nth_map_upto. }
    cbn [bind2]. set (ps := map (fun ci => (S i (fst ci) (snd ci), ci)) (all i)). destruct (Hsort ps) as (HP & HS).
    set (best := firstn (Z.to_nat (keep_top p)) (sort ps)).
    eexists. eexists. split; [reflexivity|].
    assert (LB : length best = Z.to_nat (keep_top p)).
    { unfold best. apply firstn_length_le. rewrite (Permutation_length HP). unfold ps. rewrite map_length. lia. }
    assert (BI : forall x, In x best -> In (snd x) (all i) /\ x = (S i (fst (snd x)) (snd (snd x)), snd x)).
    { intros x H. apply firstn_In in H. apply (Permutation_in _ HP) in H. unfold ps in H. apply in_map_iff in H. destruct H as (ci & <- & H). auto. }
    set (sel := pairs_of _).
    assert (ES : sel = map snd (flat_map (fun c => filter (fun x => fst (snd x) =? c) best) (upto (classes p)))).
    { unfold sel, pairs_of. rewrite flat_map_map'. cbn [fst snd]. clear. induction (upto (classes p)) as [|c l IH]; [reflexivity|]. cbn [flat_map]. rewrite map_app, <- IH. f_equal.
      rewrite map_map. clear. induction best as [|x b IH]; [reflexivity|]. cbn. destruct (Z.eqb_spec (fst (snd x)) c); cbn; [|exact IH]. all: rewrite IH; f_equal; subst c; now destruct (snd x). }
    assert (PB : Permutation sel (map snd best)).
    { rewrite ES. apply Permutation_map. apply (group_perm (fun x => fst (snd x))). intros x H. apply BI in H. destruct H as (H & _). apply all_range in H. tauto. }
    assert (NS : NoDup (map snd best)).
    { assert (X : map snd (sort ps) = map snd (sort ps)) by reflexivity.
      assert (N : NoDup (map snd (sort ps))).
      { eapply Permutation_NoDup; [apply Permutation_map, Permutation_sym, HP|]. unfold ps. rewrite map_map. cbn [snd]. rewrite map_id. apply all_nodup. }
      unfold best. rewrite <- firstn_map. now apply firstn_NoDup. }
    assert (LS : Z.of_nat (length sel) = keep_top p).
    { rewrite (Permutation_length PB), map_length, LB. lia. }
    split; [|exact LS]. exists (kept i).
    split; [intros c Hc Nb; now apply kept_ok|]. split; [intros c Hc; now apply kept_none|].
    split; [apply all_nodup|]. split; [eapply Permutation_NoDup; [apply Permutation_sym, PB|exact NS]|].
    split.
    { unfold sel, pairs_of. rewrite flat_map_map'. apply flat_sorted; [apply upto_sorted|]. cbn [fst snd]. intros c x H. apply in_map_iff in H. now destruct H as (k & <- & _). }
    split.
    { intros x H. apply (Permutation_in _ PB) in H. apply in_map_iff in H. destruct H as (y & <- & H). now apply BI. }
    split; [fold (all i); lia|]. intros _. split; [exact LS|].
    intros x y Hx Hy Ny. apply (Permutation_in _ PB) in Hx. apply in_map_iff in Hx. destruct Hx as (x' & <- & Hx).
    destruct (BI x' Hx) as (_ & EX).
    assert (Hy' : In (S i (fst y) (snd y), y) (sort ps)).
    { apply (Permutation_in _ (Permutation_sym HP)). unfold ps. apply in_map_iff. exists y. split; [reflexivity|exact Hy]. }
    assert (Ny' : ~ In (S i (fst y) (snd y), y) best).
    { intros C. apply Ny. apply (Permutation_in _ (Permutation_sym PB)). apply in_map_iff. exists (S i (fst y) (snd y), y). auto. }
    pose proof (sorted_split _ _ _ x' _ HS Hx Hy' Ny') as R. cbn in R. rewrite EX in R. exact R.
  - eexists. eexists. split; [reflexivity|]. rewrite PA. split; [|reflexivity]. exists (kept i).
    split; [intros c Hc Nb; now apply kept_ok|]. split; [intros c Hc; now apply kept_none|]. fold (all i).
    split; [apply all_nodup|]. split; [apply all_nodup|]. split; [exact SA|]. split; [apply incl_refl|]. split; [reflexivity|lia].
  - eexists. eexists. split; [reflexivity|]. rewrite PA. split; [|reflexivity]. exists (kept i).
    split; [intros c Hc Nb; now apply kept_ok|]. split; [intros c Hc; now apply kept_none|]. fold (all i).
    split; [apply all_nodup|]. split; [apply all_nodup|]. split; [exact SA|]. split; [apply incl_refl|]. split; [reflexivity|lia].
Qed.
Definition row (boxes : Z -> Z -> Z -> corners) (i : Z) (x : Z * Z) : list Q :=
  let b := boxes i (fst x) (snd x) in
  [inject_Z i; inject_Z (fst x); S i (fst x) (snd x); xmin b; ymin b; xmax b; ymax b].
Lemma reported_range i sel x : reported p priors (S i) (box i) sel -> In x sel -> 0 <= fst x < classes p /\ fst x <> background p /\ 0 <= snd x < priors.
Proof.
  intros (kp & A & B & _ & _ & _ & I & _) H. apply I in H. apply in_flat_map in H. destruct H as (c & Hc & H). apply in_map_iff in H. destruct H as (k & <- & H). cbn.
  apply In_upto in Hc. destruct (Z.eq_dec c (background p)) as [E|N]; [rewrite B in H by tauto; destruct H|]. split; [exact Hc|]. split; [exact N|].
  destruct (A c Hc N) as (cand & R & G). destruct (ranked_ext _ _ _ _ _ _ (fun _ _ => eq_refl) R) as (_ & IN). apply IN.
  assert (X : forall kept' l r, greedy p (box i c) kept' l r -> forall j, In j r -> In j kept' \/ In j l).
  { induction 1 as [|kept' j' l r t _ _ _ IH|kept' j' l r t _ _ _ IH]; intros j Hj; [now left| |].
    - destruct (IH j Hj) as [C|C]; [|right; now right]. apply in_app_iff in C. destruct C as [C|[<-|[]]]; [now left|right; now left].
    - destruct (IH j Hj) as [C|C]; [now left|right; now right]. }
  destruct (X _ _ _ G k H) as [[]|C]. exact C.
Qed.
Lemma rows_ok i ix : reported p priors (S i) (box i) (pairs_of ix) ->
  rows_of p i (confs i) (decs i) ix = SOk (map (row box i) (pairs_of ix)).
Proof.
  intros R. unfold rows_of.
  assert (G : forall e, In e ix -> (let '(c, l) := e in
      if (length l =? 0)%nat then SOk [] else match lookup (confs i) c with None => SErr | Some s => match lookup (decs i) (label_of p c) with None => SErr
        | Some bs => SOk (map (fun k => let b := box_of bs k in [inject_Z i; inject_Z c; score s k; xmin b; ymin b; xmax b; ymax b]) l) end end)
     = SOk (map (fun k => row box i (fst e, k)) (snd e))).
  { intros [c l] H. cbn [fst snd].
    assert (IN : forall k, In k l -> In (c, k) (pairs_of ix)).
    { intros k Hk. apply in_flat_map. exists (c, l). split; [exact H|]. cbn. apply in_map_iff. now exists k. }
    destruct l as [|k0 l]; [reflexivity|]. cbn [length Nat.eqb].
    destruct (reported_range i _ _ R (IN k0 (or_introl eq_refl))) as (A & B & _). cbn [fst] in A, B.
    rewrite confs_lookup, decs_lookup by assumption. f_equal. apply map_ext_in. intros k Hk.
    destruct (reported_range i _ _ R (IN k Hk)) as (_ & _ & C). cbn [snd] in C. unfold row, score, box_of. cbn [fst snd]. now rewrite !nth_map_upto by exact C. }
  match goal with |- bind2 (traverse ?f ix) _ = _ => rewrite (traverse_ok f (fun e => map (fun k => row box i (fst e, k)) (snd e)) ix G) end.
  cbn [bind2]. f_equal. unfold pairs_of. clear. induction ix as [|e l IH]; [reflexivity|]. cbn [map concat flat_map]. rewrite IH, map_app, map_map. reflexivity.
Qed.

Definition chosen i := match select sort p (confs i) (decs i) with SOk r => r | _ => ([], 0) end.
Theorem C158_detections_partial columns : Z.quot columns 4 = priors ->
  exists (sel : Z -> list (Z * Z)) (boxes : Z -> Z -> Z -> corners) rows,
    run expq sort p num num (priors * loc_classes p * 4) (priors * classes p) columns loc conf prior = SOk ([1; 1; Z.of_nat (length rows); 7], rows) /\
    (forall i, 0 <= i < num -> reported p priors (S i) (boxes i) (sel i)) /\
    (forall i c k, 0 <= k < priors -> decoded expq p (prior_at prior k) (variance_at prior priors k) (prediction p loc priors i c k) (boxes i c k)) /\
    let found := flat_map (fun i => map (row boxes i) (sel i)) (upto num) in
    (found <> [] -> rows = found) /\
    (found = [] -> rows = map (fun i => [inject_Z i; - 1; - 1; - 1; - 1; - 1; - 1]%Q) (upto num)).
Proof.
  intros COL. exists (fun i => pairs_of (fst (chosen i))), box.
  assert (CH : forall i, select sort p (confs i) (decs i) = SOk (chosen i) /\ reported p priors (S i) (box i) (pairs_of (fst (chosen i))) /\
                 Z.of_nat (length (pairs_of (fst (chosen i)))) = snd (chosen i)).
  { intros i. unfold chosen. destruct (select_ok i) as (ix & cnt & E & R & L). rewrite E. auto. }
  set (found := flat_map _ (upto num)).
  exists (if (length found =? 0)%nat then map (fun i => [inject_Z i; - 1; - 1; - 1; - 1; - 1; - 1]%Q) (upto num) else found).
  assert (FC : found = concat (map (fun i => map (row box i) (pairs_of (fst (chosen i)))) (upto num))) by (unfold found; now rewrite flat_map_concat_map).
  split; [|split; [|split; [|split]]].
  - unfold run. rewrite COL, !Z.eqb_refl. cbn [negb orb].
    rewrite (traverse_ok _ (fun i => map (fun c => (label_of p c, map (prediction p loc priors i c) (upto priors))) (upto (loc_classes p))))
      by (intros i Hi; apply locations_ok; now apply In_upto in Hi). cbn [bind2].
    rewrite (traverse_ok _ confs) by (intros i Hi; apply confidences_ok; now apply In_upto in Hi). cbn [bind2].
    rewrite prior_boxes_ok. cbn [bind2 fst snd].
    assert (DA : traverse (decode_all expq p (map (prior_at prior) (upto priors)) (map (variance_at prior priors) (upto priors)))
       (map (fun i => map (fun c => (label_of p c, map (prediction p loc priors i c) (upto priors))) (upto (loc_classes p))) (upto num)) = SOk (map decs (upto num))).
    { assert (G : forall l, (forall i, In i l -> 0 <= i < num) -> traverse (decode_all expq p (map (prior_at prior) (upto priors)) (map (variance_at prior priors) (upto priors)))
         (map (fun i => map (fun c => (label_of p c, map (prediction p loc priors i c) (upto priors))) (upto (loc_classes p))) l) = SOk (map decs l)).
      { induction l as [|i l IH]; intros H; [reflexivity|]. cbn [map traverse]. rewrite decode_all_ok by (apply H; now left). cbn [bind2].
        rewrite IH by (intros j Hj; apply H; now right). reflexivity. }
      apply G. intros i Hi. now apply In_upto in Hi. }
    rewrite DA. cbn [bind2]. rewrite combine_map.
    assert (SE : traverse (fun cb => select sort p (fst cb) (snd cb)) (map (fun i => (confs i, decs i)) (upto num)) = SOk (map chosen (upto num))).
    { generalize (upto num). intros m. induction m as [|i l IH]; [reflexivity|]. cbn [map traverse fst snd]. destruct (CH i) as (E & _). rewrite E. cbn [bind2]. now rewrite IH. }
    rewrite SE. cbn [bind2].
    assert (RO : traverse (fun t => rows_of p (fst t) (fst (fst (snd t))) (snd (fst (snd t))) (fst (snd (snd t))))
        (combine (upto num) (combine (map (fun i => (confs i, decs i)) (upto num)) (map chosen (upto num)))) =
        SOk (map (fun i => map (row box i) (pairs_of (fst (chosen i)))) (upto num))).
    { rewrite combine_map. replace (combine (upto num) (map (fun i => (confs i, decs i, chosen i)) (upto num))) with (map (fun i => (i, (confs i, decs i, chosen i))) (upto num))
        by (clear; induction (upto num) as [|j m IHm]; [reflexivity|]; cbn [map combine]; now rewrite IHm).
      generalize (upto num). intros m. induction m as [|i l IH]; [reflexivity|]. cbn [map traverse fst snd]. destruct (CH i) as (_ & R & _). rewrite (rows_ok i _ R). cbn [bind2]. now rewrite IH. }
    rewrite RO. cbn [bind2]. rewrite <- FC.
    assert (NK : Z.of_nat (length found) = fold_right Z.add 0 (map snd (map chosen (upto num)))).
    { rewrite FC, map_map. apply sum_lengths. intros i _. rewrite map_length. apply CH. }
    rewrite <- NK, Z.eqb_refl. cbn [negb]. destruct (Z.eqb_spec (Z.of_nat (length found)) 0) as [E|E].
    + assert (X : (length found =? 0)%nat = true) by (apply Nat.eqb_eq; lia). rewrite X, map_length, length_upto. pose proof (f_num F). rewrite Z2Nat.id by lia. reflexivity.
    + assert (X : (length found =? 0)%nat = false) by (apply Nat.eqb_neq; lia). rewrite X. reflexivity.
  - intros i _. apply CH.
  - intros i c k Hk. now apply box_decoded.
  - intros N. destruct found; [congruence|reflexivity].
  - intros N. change (found = []) in N. rewrite N. reflexivity.
Qed.
End Theorems.
Print Assumptions C158_detections_partial.


(** *** A sort that satisfies [sorting] *)
Fixpoint put_in (x : Q * (Z * Z)) (l : list (Q * (Z * Z))) : list (Q * (Z * Z)) :=
  match l with [] => [x] | y :: r => if Qle_bool (fst y) (fst x) then x :: l else y :: put_in x r end.
Definition descending (l : list (Q * (Z * Z))) := fold_right put_in [] l.
Lemma put_in_perm x l : Permutation (put_in x l) (x :: l).
Proof.
  induction l as [|y r IH]; [reflexivity|]. cbn. destruct (Qle_bool _ _); [reflexivity|].
  transitivity (y :: x :: r); [now constructor|constructor].
Qed.
Lemma put_in_sorted x l : StronglySorted (fun a b => (fst b <= fst a)%Q) l -> StronglySorted (fun a b => (fst b <= fst a)%Q) (put_in x l).
Proof.
  induction 1 as [|y r H IH FA]; [repeat constructor|]. cbn. destruct (Qle_bool (fst y) (fst x)) eqn:E.
  - apply Qle_bool_iff in E. constructor; [now constructor|]. constructor; [exact E|]. rewrite Forall_forall in FA |- *. intros z Hz. specialize (FA z Hz). lra.
  - assert (L : (fst x <= fst y)%Q).
    { destruct (Qlt_le_dec (fst x) (fst y)) as [A|A]; [lra|]. apply Qle_bool_iff in A. congruence. }
    constructor; [exact IH|]. rewrite Forall_forall in FA |- *. intros z Hz. apply (Permutation_in _ (put_in_perm x r)) in Hz. destruct Hz as [<-|Hz]; [exact L|now apply FA].
Qed.
Lemma descending_sorts : sorting descending.
Proof.
  intros l. induction l as [|x l (P & H)]; [split; constructor|]. cbn. split; [|now apply put_in_sorted].
  rewrite put_in_perm. now constructor.
Qed.

(** *** An example: two images, three priors, two classes besides the background.
    The second prior's box lies on the first and goes; keep_top 2 then drops the
    weakest of the three that are left *)
Definition ex_params := Params 3 true 0 1 true 2 (1 # 10) (1 # 2) 1 (-1).
Definition zeros n : list Q := repeat 0%Q n.
Definition ex_loc : list Q := zeros 24.
Definition ex_conf : list Q :=
  [1 # 10; 8 # 10; 0;  1 # 10; 7 # 10; 0;  0; 0; 3 # 10;
   0; 0; 0;  1; 0; 6 # 10;  1; 0; 0]%Q.
Definition ex_prior : list Q := [0; 0; 4; 4;  0; 0; 4; 5;  6; 6; 8; 8]%Q ++ zeros 12.
Example C158_example : fits ex_params 2 3 ex_loc ex_conf ex_prior /\
  run (fun x => x) descending ex_params 2 2 12 9 12 ex_loc ex_conf ex_prior =
    SOk ([1; 1; 3; 7], [[0; 1; 8 # 10; 0; 0; 4; 4]; [0; 2; 3 # 10; 6; 6; 8; 8]; [1; 2; 6 # 10; 0; 0; 4; 5]]%Q).
Proof.
  split; [|vm_compute; reflexivity]. constructor; try (vm_compute; congruence); try (vm_compute; lia); try (now left); intros _; vm_compute; congruence.
Qed.
(** nothing above the threshold: one empty row for each image *)
Example C158_example_none :
  run (fun x => x) descending ex_params 2 2 12 9 12 ex_loc (zeros 18) ex_prior =
    SOk ([1; 1; 2; 7], [[0; -1; -1; -1; -1; -1; -1]; [1; -1; -1; -1; -1; -1; -1]]%Q).
Proof. vm_compute. reflexivity. Qed.

(** *** Refuted: with shared locations and no background ([background_label_id] = -1)
    every run fails, whatever the numbers *)
Theorem C158_background_refuted : forall expq sort p num priors loc conf prior columns,
  share p = true -> background p = -1 -> 1 <= classes p -> 1 <= num -> 0 < priors -> Z.quot columns 4 = priors ->
  Z.of_nat (length loc) = num * priors * 4 -> Z.of_nat (length conf) = num * priors * classes p -> 8 * priors <= Z.of_nat (length prior) ->
  run expq sort p num num (priors * 4) (priors * classes p) columns loc conf prior = SErr.
Proof.
  intros expq sort p num priors loc conf prior columns SH BG C N P COL LL LC LP.
  unfold run. rewrite COL. assert (LCL : loc_classes p = 1) by (unfold loc_classes; now rewrite SH).
  rewrite LCL, Z.mul_1_r, !Z.eqb_refl. cbn [negb orb].
  assert (A : forall i, 0 <= i < num -> locations p loc priors i = SOk [(-1, map (prediction p loc priors i 0) (upto priors))]).
  { intros i I. unfold locations. destruct (Z.leb_spec priors 0); [lia|]. rewrite LCL. change (upto 1) with [0]. cbn [traverse].
    rewrite (traverse_ok _ (prediction p loc priors i 0)); [cbn [bind2]; unfold label_of; now rewrite SH|].
    intros k Hk. apply In_upto in Hk. unfold prediction, slot. rewrite SH, LCL.
    replace (i * (priors * 1 * 4) + k * 1 * 4 + 0 * 4) with (((i * priors + k) * 1 + 0) * 4) by ring. apply four_at; nia. }
  assert (B : forall i, 0 <= i < num -> confidences p conf priors i = SOk (map (fun c => (c, map (confidence_at p conf priors i c) (upto priors))) (upto (classes p)))).
  { intros i I. unfold confidences. destruct (Z.leb_spec priors 0); [lia|].
    apply traverse_ok. intros c Hc. apply In_upto in Hc. rewrite (traverse_ok _ (confidence_at p conf priors i c)); [reflexivity|].
    intros k Hk. apply In_upto in Hk. unfold confidence_at.
    replace (i * (priors * classes p) + k * classes p + c) with ((i * priors + k) * classes p + c) by ring.
    set (n := classes p) in *. assert (X : 0 <= i * priors + k <= num * priors - 1) by nia.
    assert (Y : 0 <= (i * priors + k) * n + c) by nia. assert (W : (i * priors + k) * n + c <= num * priors * n - 1) by nia. apply load_at. lia. }
  rewrite (traverse_ok _ (fun i => [(-1, map (prediction p loc priors i 0) (upto priors))])) by (intros i Hi; apply A; now apply In_upto in Hi).
  cbn [bind2]. rewrite (traverse_ok _ (fun i => map (fun c => (c, map (confidence_at p conf priors i c) (upto priors))) (upto (classes p))))
    by (intros i Hi; apply B; now apply In_upto in Hi).
  cbn [bind2]. unfold prior_boxes.
  rewrite (traverse_ok _ (prior_at prior)) by (intros k Hk; apply In_upto in Hk; apply four_at; lia). cbn [bind2].
  rewrite (traverse_ok _ (variance_at prior priors)) by (intros k Hk; apply In_upto in Hk; apply four_at; lia). cbn [bind2 fst snd].
  assert (D : forall bs vs l, traverse (decode_all expq p bs vs) (map (fun i : Z => [(-1, map (prediction p loc priors i 0) (upto priors))]) l) = SOk (map (fun _ => []) l)).
  { intros bs vs l. induction l as [|i l IH]; [reflexivity|]. cbn [map traverse]. rewrite IH. unfold decode_all. rewrite LCL. change (upto 1) with [0].
    cbn [filter]. unfold label_of. rewrite SH, BG, Z.eqb_refl. reflexivity. }
  rewrite D. cbn [bind2]. rewrite combine_map.
  assert (U : exists m, upto num = 0 :: m).
  { unfold upto. destruct (Z.to_nat num) as [|k] eqn:E; [lia|]. cbn. eauto. }
  destruct U as (m & ->). cbn [map traverse fst snd].
  assert (SEL : select sort p (map (fun c => (c, map (confidence_at p conf priors 0 c) (upto priors))) (upto (classes p))) [] = SErr).
  { unfold select. assert (V : exists m', upto (classes p) = 0 :: m') by (unfold upto; destruct (Z.to_nat (classes p)) as [|k] eqn:E; [lia|]; cbn; eauto).
    destruct V as (m' & ->). cbn [filter]. rewrite BG. cbn [Z.eqb negb traverse map lookup]. reflexivity. }
  rewrite SEL. reflexivity.
Qed.
Example C158_background_example : exists r,
  run (fun x => x) descending (Params 3 true (-1) 1 true 2 (1 # 10) (1 # 2) 1 (-1)) 2 2 12 9 12 ex_loc ex_conf ex_prior = SErr /\
  run (fun x => x) descending (Params 3 true (-2) 1 true 2 (1 # 10) (1 # 2) 1 (-1)) 2 2 12 9 12 ex_loc ex_conf ex_prior = SOk r.
Proof. eexists. split; vm_compute; reflexivity. Qed.

(** *** Refuted: the shape announced is the shape computed *)
Theorem C158_infer_refuted : exists p columns loc conf prior rows s,
  fits p 2 3 loc conf prior /\ run (fun x => x) descending p 2 2 12 9 columns loc conf prior = SOk (s, rows) /\ s <> infer_shape.
Proof.
  exists ex_params, 12, ex_loc, ex_conf, ex_prior. destruct C158_example as (F & E). eexists. eexists. split; [exact F|]. split; [exact E|]. discriminate.
Qed.

(** *** Refuted: priors too short are noticed.  Only their last dimension is looked
    at, so a tensor without the variances is read past its end *)
Theorem C158_priors_refuted : exists p loc conf prior, share p = true /\ code p = 1 /\ Z.of_nat (length prior) = 12 /\
  run (fun x => x) descending p 2 2 12 9 12 loc conf prior = SUndef.
Proof. exists ex_params, ex_loc, ex_conf, (firstn 12 ex_prior). vm_compute. auto. Qed.
Print Assumptions C158_background_refuted.
Print Assumptions C158_infer_refuted.
Print Assumptions C158_priors_refuted.
