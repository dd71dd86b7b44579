(** Proofs about non-maximum suppression. *)
From Coq Require Import List ZArith QArith Qminmax Permutation Lia Bool Lqa Setoid Morphisms.
From Verif Require Import ShapeModel KernelBase KernelProofs NmsModel NmsSpec.
Import ListNotations.
Local Open Scope Z_scope.

Lemma qlt_iff a b : qlt a b = true <-> (a < b)%Q.
Proof.
  unfold qlt. rewrite negb_true_iff. split; intros H.
  - apply Qnot_le_lt. intros L. apply Qle_bool_iff in L. congruence.
  - destruct (Qle_bool b a) eqn:E; [|reflexivity]. apply Qle_bool_iff in E. exfalso. lra.
Qed.

Lemma qlt_false a b : qlt a b = false <-> (b <= a)%Q.
Proof. unfold qlt. rewrite negb_false_iff. apply Qle_bool_iff. Qed.

Lemma std_min_ok a b : (std_min a b == Qmin a b)%Q.
Proof.
  unfold std_min. destruct (qlt b a) eqn:E.
  - apply qlt_iff in E. rewrite Q.min_r; [reflexivity|lra].
  - apply qlt_false in E. rewrite Q.min_l; [reflexivity|lra].
Qed.
Lemma std_max_ok a b : (std_max a b == Qmax a b)%Q.
Proof.
  unfold std_max. destruct (qlt a b) eqn:E.
  - apply qlt_iff in E. rewrite Q.max_r; [reflexivity|lra].
  - apply qlt_false in E. rewrite Q.max_l; [reflexivity|lra].
Qed.

Definition rect_eq (c : Q * Q * Q * Q) (r : rect) : Prop :=
  let '(a, b, c, d) := c in (a == y0 r /\ b == x0 r /\ c == y1 r /\ d == x1 r)%Q.

Lemma corners_ok m b : rect_eq (corners m b) (rect_of m b).
Proof.
  destruct b as [[[b0 b1] b2] b3]. unfold corners, rect_of, rect_eq. destruct m; cbn [y0 x0 y1 x1];
  repeat split; auto using std_min_ok, std_max_ok.
Qed.

Lemma suppress_iff t c r d s : rect_eq c r -> rect_eq d s -> boxes_suppress t c d = true <-> overlap t r s.
Proof.
  destruct c as [[[a0 b0] a1] b1], d as [[[c0 d0] c1] d1]. intros (R1 & R2 & R3 & R4) (S1 & S2 & S3 & S4).
  unfold boxes_suppress, overlap.
  set (ar := ((a1 - a0) * (b1 - b0))%Q). set (as_ := ((c1 - c0) * (d1 - d0))%Q).
  assert (Er : (ar == area r)%Q) by (unfold ar, area; rewrite R1, R2, R3, R4; reflexivity).
  assert (Es : (as_ == area s)%Q) by (unfold as_, area; rewrite S1, S2, S3, S4; reflexivity).
  set (it := (std_max _ 0 * std_max _ 0)%Q).
  assert (Ei : (it == intersection r s)%Q).
  { unfold it, intersection, shared. rewrite !std_max_ok, !std_min_ok, R1, R2, R3, R4, S1, S2, S3, S4. reflexivity. }
  destruct (Qle_bool ar 0 || Qle_bool as_ 0) eqn:E.
  - split; [discriminate|]. intros (H1 & H2 & _). apply orb_true_iff in E. rewrite <- Er in H1. rewrite <- Es in H2.
    destruct E as [E|E]; apply Qle_bool_iff in E; exfalso; lra.
  - apply orb_false_iff in E as [E1 E2].
    assert (P1 : (0 < ar)%Q). { apply Qnot_le_lt. intros L. apply Qle_bool_iff in L. congruence. }
    assert (P2 : (0 < as_)%Q). { apply Qnot_le_lt. intros L. apply Qle_bool_iff in L. congruence. }
    assert (Eq : (it / (ar + as_ - it) == iou r s)%Q) by (unfold iou; rewrite Ei, Er, Es; reflexivity).
    rewrite qlt_iff, Eq. rewrite Er in P1. rewrite Es in P2. tauto.
Qed.

Lemma intersection_sym r s : (intersection r s == intersection s r)%Q.
Proof.
  unfold intersection, shared. rewrite (Q.min_comm (y1 s)), (Q.max_comm (y0 s)), (Q.min_comm (x1 s)), (Q.max_comm (x0 s)). reflexivity.
Qed.

Lemma iou_sym r s : (iou r s == iou s r)%Q.
Proof. unfold iou. rewrite intersection_sym. rewrite (Qplus_comm (area r)). reflexivity. Qed.

Lemma overlap_sym t r s : overlap t r s -> overlap t s r.
Proof. intros (H1 & H2 & H3). repeat split; auto. now rewrite iou_sym. Qed.

(** the shared part is inside both *)
Lemma shared_le a0 a1 b0 b1 : (a0 <= a1)%Q -> (0 <= shared a0 a1 b0 b1 <= a1 - a0)%Q.
Proof.
  intros H. unfold shared. split; [apply Q.le_max_r|]. apply Q.max_lub; [|lra].
  pose proof (Q.le_min_l a1 b1). pose proof (Q.le_max_l a0 b0). lra.
Qed.

Definition proper (r : rect) : Prop := (y0 r <= y1 r /\ x0 r <= x1 r)%Q.
Lemma rect_proper m b : proper (rect_of m b).
Proof.
  destruct b as [[[b0 b1] b2] b3]. unfold rect_of, proper. destruct m; cbn [y0 x0 y1 x1]; split;
    (eapply Qle_trans; [apply Q.le_min_l|apply Q.le_max_l]).
Qed.

Lemma Qmult_le a b c d : (0 <= a <= c -> 0 <= b <= d -> 0 <= a * b <= c * d)%Q.
Proof.
  intros [A1 A2] [B1 B2]. split; [now apply Qmult_le_0_compat|].
  apply (Qle_trans _ (c * b)); [now apply Qmult_le_compat_r|]. rewrite (Qmult_comm c b), (Qmult_comm c d). apply Qmult_le_compat_r; [exact B2|lra].
Qed.

Lemma intersection_bound r s : proper r -> proper s -> (0 <= intersection r s /\ intersection r s <= area r /\ intersection r s <= area s)%Q.
Proof.
  intros [R1 R2] [S1 S2].
  assert (G : forall r s, proper r -> (0 <= intersection r s <= area r)%Q).
  { clear. intros r s [R1 R2]. unfold intersection, area. apply Qmult_le; now apply shared_le. }
  pose proof (G r s (conj R1 R2)). pose proof (G s r (conj S1 S2)) as H2. rewrite intersection_sym in H2. tauto.
Qed.

Section Loop.
Variable top : list candidate -> option (candidate * list candidate).
Hypothesis Htop : priority_queue top.
Variables (boxes scores : list Q) (xywh : bool) (t : Q) (score_t : Q) (max_output : Z).
Hypothesis Hboxes : length boxes = (4 * length scores)%nat.
Hypothesis Hmax : 0 < max_output.

Definition in_range (i : Z) : Prop := 0 <= i < Z.of_nat (length scores).
Notation Overlap i j := (overlap t (box_at xywh boxes i) (box_at xywh boxes j)).
Notation score := (score_at scores).

Lemma load_nth i : 0 <= i < Z.of_nat (length boxes) -> load boxes i = SOk (nth (Z.to_nat i) boxes 0%Q).
Proof using.
  clear. intros H. destruct (load_ok boxes i H) as (a & -> & E). now rewrite (nth_error_nth _ _ _ E).
Qed.

Lemma check_ok i j : in_range i -> in_range j ->
  exists b, check_suppress boxes xywh t i j = SOk b /\ (b = true <-> Overlap i j).
Proof using Hboxes.
  unfold in_range. intros Hi Hj. unfold check_suppress, load4.
  rewrite !load_nth by lia.
  eexists. split; [reflexivity|]. apply suppress_iff; apply corners_ok.
Qed.

Lemma any_ok i sel : in_range i -> Forall in_range sel ->
  exists b, any_suppress boxes xywh t i sel = SOk b /\ (b = true <-> exists j, In j sel /\ Overlap i j).
Proof using Hboxes.
  intros Hi. induction 1 as [|j sel Hj H IH].
  - exists false. split; [reflexivity|]. split; [discriminate|]. intros (j & [] & _).
  - cbn [any_suppress]. destruct (check_ok i j Hi Hj) as (b & -> & Hb). destruct b.
    + exists true. split; [reflexivity|]. split; [intros _; exists j; split; [now left|now apply Hb]|reflexivity].
    + destruct IH as (b & -> & IH). exists b. split; [reflexivity|]. rewrite IH. split.
      * intros (k & Hk & Ho). exists k. split; [now right|exact Ho].
      * intros (k & [<-|Hk] & Ho); [exfalso; apply Hb in Ho; discriminate|exists k; auto].
Qed.

Definition cands := candidates scores score_t.

Lemma In_combine_upto c : In c (combine (upto (Z.of_nat (length scores))) scores) <-> in_range (fst c) /\ snd c = score (fst c).
Proof using.
  clear. unfold in_range, score_at, upto. rewrite Nat2Z.id.
  assert (G : forall (l : list Q) n, In c (combine (map Z.of_nat (seq n (length l))) l) <->
     Z.of_nat n <= fst c < Z.of_nat (n + length l) /\ snd c = nth (Z.to_nat (fst c) - n) l 0%Q).
  { induction l as [|x l IH]; intros n.
    - cbn. split; [tauto|]. intros [H _]. lia.
    - cbn [length seq map combine In]. rewrite IH. split.
      + intros [<-|[H1 H2]]; cbn [fst snd].
        * split; [lia|]. rewrite Nat2Z.id, Nat.sub_diag. reflexivity.
        * split; [lia|]. rewrite H2. replace (Z.to_nat (fst c) - n)%nat with (S (Z.to_nat (fst c) - S n)) by lia. reflexivity.
      + intros [H1 H2]. destruct (Z.eq_dec (fst c) (Z.of_nat n)) as [E|E].
        * left. destruct c as [i s]. cbn [fst snd] in *. subst i. rewrite Nat2Z.id, Nat.sub_diag in H2. cbn in H2. now subst s.
        * right. split; [lia|]. rewrite H2. replace (Z.to_nat (fst c) - n)%nat with (S (Z.to_nat (fst c) - S n)) by lia. reflexivity. }
  rewrite (G scores 0%nat). rewrite Nat.sub_0_r. cbn [Nat.add Z.of_nat]. tauto.
Qed.

Lemma In_cands c : In c cands <-> in_range (fst c) /\ snd c = score (fst c) /\ (score_t < score (fst c))%Q.
Proof using.
  clear. unfold cands, candidates. rewrite filter_In, In_combine_upto, qlt_iff. split.
  - intros [[H1 H2] H3]. rewrite H2 in H3. auto.
  - intros (H1 & H2 & H3). rewrite H2. auto.
Qed.

Lemma NoDup_cands : NoDup (map fst cands).
Proof using.
  clear. unfold cands, candidates.
  assert (G : forall (a : list Z) (l : list Q) (f : candidate -> bool), NoDup a -> NoDup (map fst (filter f (combine a l)))).
  { induction a as [|x a IH]; intros [|y l] f N; cbn [combine filter map]; try constructor. inversion N as [|? ? N1 N2]; subst.
    assert (Hx : ~ In x (map fst (filter f (combine a l)))).
    { intros H. apply in_map_iff in H. destruct H as ([i s] & E & H). cbn in E. subst i. apply filter_In in H as [H _]. apply in_combine_l in H. contradiction. }
    destruct (f (x, y)); [constructor; auto|auto]. }
  apply G. apply NoDup_upto.
Qed.

(** [done]: the candidates popped so far *)
Record inv (queue done : list candidate) (sel : list Z) : Prop := {
  i_perm : Permutation cands (queue ++ done);
  i_few : Z.of_nat (length sel) <= max_output;
  i_in : forall i, In i sel -> In (i, score i) done;
  i_distinct : NoDup sel;
  i_better : forall c d, In c done -> In d queue -> (snd d <= snd c)%Q;
  i_sorted : forall a i b j c, sel = a ++ i :: b ++ j :: c -> (score i <= score j)%Q;
  i_apart : forall i j, In i sel -> In j sel -> i <> j -> ~ Overlap i j;
  i_done : forall c, In c done -> In (fst c) sel \/ exists j, In j sel /\ Overlap (fst c) j /\ (score (fst c) <= score j)%Q
}.

Lemma loop_ok fuel : forall queue done sel, (length queue <= fuel)%nat -> inv queue done sel ->
  exists sel' queue' done', nms_loop top boxes xywh t max_output fuel queue sel = SOk sel' /\ inv queue' done' sel' /\
    (queue' = [] \/ Z.of_nat (length sel') = max_output).
Proof using Htop Hboxes Hmax.
  destruct Htop as [Tn Tc].
  induction fuel as [|fuel IH]; intros queue done sel Hf I.
  - exists sel, queue, done. split; [reflexivity|]. split; [exact I|]. left. destruct queue; [reflexivity|cbn in Hf; lia].
  - cbn [nms_loop]. destruct (Z.ltb_spec (Z.of_nat (length sel)) max_output) as [Hl|Hl].
    2:{ exists sel, queue, done. split; [reflexivity|]. split; [exact I|]. right. pose proof (i_few _ _ _ I). lia. }
    destruct queue as [|c0 q0].
    { rewrite Tn. exists sel, [], done. split; [reflexivity|]. split; [exact I|]. now left. }
    destruct (Tc (c0 :: q0) ltac:(discriminate)) as (c & q' & -> & Hp & Hle).
    assert (Hlen : length (c0 :: q0) = S (length q')) by (apply Permutation_length in Hp; exact Hp).
    destruct I as [P F In_ D B So Ap Dn].
    assert (P' : Permutation cands (q' ++ c :: done)).
    { rewrite P, Hp. cbn [app]. apply Permutation_middle. }
    assert (Call : forall d, In d (q' ++ c :: done) -> in_range (fst d) /\ snd d = score (fst d) /\ (score_t < score (fst d))%Q).
    { intros d Hd. apply In_cands. eapply Permutation_in; [symmetry; exact P'|exact Hd]. }
    destruct (Call c) as (Rc & Sc & Tc'); [apply in_or_app; right; now left|].
    assert (Rsel : Forall in_range sel).
    { apply Forall_forall. intros i Hi. apply In_ in Hi. apply (Call (i, score i)). apply in_or_app. right. now right. }
    assert (Nc : ~ In (fst c) sel).
    { intros Hi. apply In_ in Hi. pose proof NoDup_cands as N.
      apply (Permutation_NoDup (Permutation_map fst P')) in N. rewrite map_app in N. cbn [map] in N.
      apply NoDup_remove_2 in N. apply N. apply in_or_app. right. apply in_map_iff. exists (fst c, score (fst c)). auto. }
    assert (Better : forall d, In d done -> (snd c <= snd d)%Q).
    { intros d Hd. apply (B d c Hd). eapply Permutation_in; [symmetry; exact Hp|now left]. }
    assert (B' : forall d e, In d (c :: done) -> In e q' -> (snd e <= snd d)%Q).
    { intros d e [<-|Hd] He.
      - rewrite Forall_forall in Hle. now apply Hle.
      - apply (B d e Hd). eapply Permutation_in; [symmetry; exact Hp|now right]. }
    assert (Bsel : forall j, In j sel -> (score (fst c) <= score j)%Q).
    { intros j Hj. apply In_ in Hj. pose proof (Better _ Hj) as X. cbn [snd] in X. rewrite Sc in X. exact X. }
    destruct (any_ok (fst c) sel Rc Rsel) as (b & -> & Hb).
    apply (IH q' (c :: done)); [cbn in Hf, Hlen; lia|].
    destruct b.
    + constructor; auto.
      * intros i Hi. right. now apply In_.
      * intros d [<-|Hd]; [|now apply Dn]. right. destruct (proj1 Hb eq_refl) as (j & Hj & Ho). exists j. auto.
    + assert (No : forall j, In j sel -> ~ Overlap (fst c) j).
      { intros j Hj Ho. assert (false = true) by (apply Hb; eauto). discriminate. }
      constructor; auto.
      * cbn [length]. lia.
      * intros i [<-|Hi]; [left; rewrite <- Sc; now destruct c|right; now apply In_].
      * constructor; auto.
      * intros a i b j k E. destruct a as [|x a].
        -- cbn [app] in E. injection E as <- E. apply Bsel. rewrite E. apply in_or_app. right. now left.
        -- cbn [app] in E. injection E as _ E. eapply So; exact E.
      * intros i j [<-|Hi] [<-|Hj] Hne; [congruence|now apply No| |now apply Ap].
        intros Ho. apply overlap_sym in Ho. now apply (No i).
      * intros d [<-|Hd]; [left; now left|]. destruct (Dn d Hd) as [H|(j & Hj & H)]; [left; now right|right; exists j; split; [now right|exact H]].
Qed.

Theorem nms_ok : exists sel,
  nms_run top boxes xywh t max_output scores score_t = SOk (Tn 5 [max_output] (sel ++ repeat (-1) (Z.to_nat max_output - length sel))) /\
  greedy xywh boxes scores t score_t max_output sel.
Proof using Htop Hboxes Hmax.
  unfold nms_run. destruct (Z.leb_spec max_output 0); [lia|]. fold cands.
  assert (I0 : inv cands [] []).
  { constructor.
    - now rewrite app_nil_r.
    - cbn. lia.
    - intros i [].
    - constructor.
    - intros c d [].
    - intros a i b j c E. destruct a; discriminate.
    - intros i j [].
    - intros c []. }
  destruct (loop_ok (length cands) cands [] [] (le_n _) I0) as (sel & q & done & -> & I & Hend).
  exists (rev sel). split; [reflexivity|].
  destruct I as [P F In_ D B So Ap Dn].
  assert (Call : forall d, In d (q ++ done) -> in_range (fst d) /\ snd d = score (fst d) /\ (score_t < score (fst d))%Q).
  { intros d Hd. apply In_cands. eapply Permutation_in; [symmetry; exact P|exact Hd]. }
  constructor.
  - rewrite rev_length. exact F.
  - now apply NoDup_rev.
  - intros i Hi. apply in_rev in Hi. destruct (Call (i, score i)) as (H1 & _ & H2); [apply in_or_app; right; now apply In_|]. auto.
  - intros a i b j c E. apply (f_equal (@rev Z)) in E. rewrite rev_involutive, rev_app_distr in E. cbn [rev] in E.
    rewrite rev_app_distr in E. cbn [rev] in E. rewrite <- !app_assoc in E. cbn [app] in E. eapply So; exact E.
  - intros i j Hi Hj. apply in_rev in Hi, Hj. now apply Ap.
  - intros i Hi Hs Hn. rewrite <- in_rev in Hn.
    assert (Hc : In (i, score i) (q ++ done)) by (eapply Permutation_in; [exact P|]; apply In_cands; auto).
    apply in_app_or in Hc. destruct Hc as [Hc|Hc].
    + right. destruct Hend as [->|Hend]; [destruct Hc|]. rewrite rev_length. split; [exact Hend|].
      intros j Hj. apply in_rev in Hj. exact (B _ _ (In_ j Hj) Hc).
    + left. destruct (Dn _ Hc) as [H1|(j & Hj & Ho & Hsc)]; [contradiction|]. exists j. rewrite <- in_rev. auto.
Qed.
End Loop.

(** A queue as wanted exists. *)
Lemma list_top_ok : priority_queue list_top.
Proof.
  split; [reflexivity|]. intros q. induction q as [|c q IH]; intros H; [congruence|]. cbn [list_top].
  destruct q as [|d q'].
  - exists c, []. repeat split; auto.
  - destruct (IH ltac:(discriminate)) as (m & rest & -> & Hp & Hle).
    destruct (qlt (snd c) (snd m)) eqn:E.
    + apply qlt_iff in E. exists m, (c :: rest). split; [reflexivity|]. split.
      * rewrite Hp. apply perm_swap.
      * constructor; [lra|exact Hle].
    + apply qlt_false in E. exists c, (d :: q'). split; [reflexivity|]. split; [reflexivity|].
      apply Forall_forall. intros x Hx. apply (Permutation_in _ Hp) in Hx. destruct Hx as [<-|Hx]; [exact E|].
      rewrite Forall_forall in Hle. specialize (Hle x Hx). lra.
Qed.
