(** Lemmas about the parts of the proposal operator. *)
From Coq Require Import List ZArith Bool QArith Qminmax Qround Permutation Lia Lqa.
From Verif Require Import ShapeModel KernelBase KernelProofs ResizeModel ResizeProofs NmsModel NmsProofs DetectModel DetectSpec DetectProofs PosterProofs PropsPriorBox ProposalModel ProposalSpec ProposalSortProofs.
Import ListNotations.
Local Open Scope Z_scope.

Definition straight (b : corners) : Prop := (xmin b <= xmax b /\ ymin b <= ymax b)%Q.

Lemma Qmul_mono (a b c d : Q) : (0 <= a -> a <= b -> 0 <= c -> c <= d -> a * c <= b * d)%Q.
Proof.
  intros A B C D. assert (X := Qmult_le_compat_r a b c B C). assert (Y := Qmult_le_compat_r c d b D ltac:(lra)).
  rewrite (Qmult_comm c b), (Qmult_comm d b) in Y. lra.
Qed.
Lemma iou_shares a b : straight a -> straight b -> shares a b (iou a b).
Proof.
  intros (A1 & A2) (B1 & B2). unfold shares, iou.
  destruct (qlt (xmax b) (xmin a) || qlt (ymax b) (ymin a) || qlt (xmax a) (xmin b) || qlt (ymax a) (ymin b)) eqn:D.
  - left. split; [|reflexivity]. unfold apart. rewrite !orb_true_iff in D. destruct D as [[[D|D]|D]|D]; apply qlt_iff in D; tauto.
  - right. rewrite !orb_false_iff in D. destruct D as (((D1 & D2) & D3) & D4). apply qlt_false in D1, D2, D3, D4.
    split; [unfold apart; intros [H|[H|[H|H]]]; lra|].
    assert (MW := conj (Q.le_min_l (xmax a) (xmax b)) (Q.le_min_r (xmax a) (xmax b))).
    assert (MX := conj (Q.le_max_l (xmin a) (xmin b)) (Q.le_max_r (xmin a) (xmin b))).
    assert (MH := conj (Q.le_min_l (ymax a) (ymax b)) (Q.le_min_r (ymax a) (ymax b))).
    assert (MY := conj (Q.le_max_l (ymin a) (ymin b)) (Q.le_max_r (ymin a) (ymin b))).
    assert (PW : (Qmax (xmin a) (xmin b) <= Qmin (xmax a) (xmax b))%Q) by (apply Q.max_lub; apply Q.min_glb; lra).
    assert (PH : (Qmax (ymin a) (ymin b) <= Qmin (ymax a) (ymax b))%Q) by (apply Q.max_lub; apply Q.min_glb; lra).
    set (w := (Qmin (xmax a) (xmax b) - Qmax (xmin a) (xmin b) + 1)%Q). set (h := (Qmin (ymax a) (ymax b) - Qmax (ymin a) (ymin b) + 1)%Q).
    exists (w * h)%Q. split; [reflexivity|].
    assert (P : (0 < pixels a + pixels b - w * h)%Q).
    { unfold pixels. assert (X : (w * h <= (xmax a - xmin a + 1) * (ymax a - ymin a + 1))%Q) by (apply Qmul_mono; unfold w, h; lra).
      assert (Y : (1 * 1 <= (xmax b - xmin b + 1) * (ymax b - ymin b + 1))%Q) by (apply Qmul_mono; lra). lra. }
    split; [exact P|].
    assert (E : (std_max 0 (std_min (xmax a) (xmax b) - std_max (xmin a) (xmin b) + 1) * std_max 0 (std_min (ymax a) (ymax b) - std_max (ymin a) (ymin b) + 1) == w * h)%Q).
    { rewrite !std_max_ok, !std_min_ok. fold w h. rewrite (Q.max_r 0 w), (Q.max_r 0 h) by (unfold w, h; lra). reflexivity. }
    rewrite E. unfold pixels in *. field. lra.
Qed.

Lemma apply_nms_ok thresh keeps : 1 <= keeps -> forall l kept, Forall straight kept -> Forall straight l -> Z.of_nat (length kept) < keeps ->
  exists r, apply_nms keeps thresh (Z.of_nat (length kept)) l (map (fun b => existsb (fun k => qlt thresh (iou k b)) kept) l) = SOk r /\
    picked thresh keeps kept l (kept ++ r).
Proof.
  intros HK. induction l as [|b l IH]; intros kept SK SL LK; cbn [map apply_nms].
  - exists []. split; [reflexivity|]. rewrite app_nil_r. constructor.
  - inversion SL as [|? ? SB SL']; subst. destruct (existsb (fun k => qlt thresh (iou k b)) kept) eqn:E.
    + destruct (IH kept SK SL' LK) as (r & R & P). exists r. split; [exact R|]. apply picked_drop; [exact LK| |exact P].
      apply existsb_exists in E. destruct E as (k & Hk & Q). apply qlt_iff in Q. exists k, (iou k b). split; [exact Hk|]. split; [|exact Q].
      apply iou_shares; [|exact SB]. rewrite Forall_forall in SK. now apply SK.
    + assert (OK : forall k, In k kept -> exists o, shares k b o /\ (o <= thresh)%Q).
      { intros k Hk. exists (iou k b). split; [apply iou_shares; [rewrite Forall_forall in SK; now apply SK|exact SB]|].
        apply qlt_false. destruct (qlt thresh (iou k b)) eqn:Q; [|reflexivity].
        assert (T : existsb (fun k => qlt thresh (iou k b)) kept = true) by (apply existsb_exists; eauto). congruence. }
      destruct (Z.leb_spec keeps (Z.of_nat (length kept))) as [C|C]; [lia|].
      destruct (Z.eqb_spec (Z.of_nat (length kept) + 1) keeps) as [F|F].
      * exists [b]. split; [reflexivity|]. apply picked_keep; [exact LK|exact OK|]. apply picked_full. rewrite app_length. cbn [length]. lia.
      * destruct (IH (kept ++ [b])) as (r & R & P); [apply Forall_app; auto|exact SL'|rewrite app_length; cbn [length]; lia|].
        exists (b :: r). split; [|apply picked_keep; [exact LK|exact OK|]; rewrite <- app_assoc in P; exact P].
        replace (map (fun t => snd t || qlt thresh (iou b (fst t))) (combine l (map (fun b0 => existsb (fun k => qlt thresh (iou k b0)) kept) l)))
          with (map (fun b0 => existsb (fun k => qlt thresh (iou k b0)) (kept ++ [b])) l).
        -- rewrite app_length in R. cbn [length] in R. rewrite Nat2Z.inj_add in R. change (Z.of_nat 1) with 1 in R. rewrite R. reflexivity.
        -- clear. induction l as [|x l IH]; [reflexivity|]. cbn [map combine fst snd]. rewrite IH. f_equal. rewrite existsb_app. cbn. now rewrite orb_false_r.
Qed.

Lemma choose_ok p n l : 1 <= post_nms p -> 0 <= pre_nms p -> l <> [] -> Forall straight (map fst l) ->
  exists kept, choose p n l = SOk (map (fun b => (inject_Z n, b)) kept) /\ ProposalSpec.survivors (pre_nms p) (post_nms p) (thresh p) l kept.
Proof.
  intros HP HR NE SL. assert (LN : (1 <= length l)%nat) by (destruct l; [congruence|cbn; lia]). unfold choose.
  destruct (sort_ok snd (pre_nms p) (S (length l)) l 0 (Z.of_nat (length l) - 1)) as (s & E & M & B); [lia|lia|lia|].
  rewrite E. cbn [bind2]. destruct M as (L & P & _). set (top := Z.min (Z.of_nat (length l)) (pre_nms p)).
  destruct (Z.ltb_spec top 0) as [C|C]; [unfold top in C; lia|].
  assert (FN : firstn (Z.to_nat top) s = firstn (Z.to_nat (pre_nms p)) s).
  { unfold top. destruct (Z.min_spec (Z.of_nat (length l)) (pre_nms p)) as [(Q & ->)|(Q & ->)]; [|reflexivity]. rewrite !firstn_all2 by lia. reflexivity. }
  rewrite FN. set (bs := map fst (firstn (Z.to_nat (pre_nms p)) s)).
  assert (SB : Forall straight bs).
  { rewrite Forall_forall in SL |- *. intros b H. apply SL. unfold bs in H. apply in_map_iff in H. destruct H as (x & <- & H). apply in_map.
    apply firstn_In in H. apply (Permutation_in _ (Permutation_sym P) H). }
  destruct (apply_nms_ok (thresh p) (post_nms p) HP bs []) as (r & R & PK); [constructor|exact SB|cbn; lia|].
  exists r. split.
  - replace (repeat false (Z.to_nat top)) with (map (fun b : corners => existsb (fun k => qlt (thresh p) (iou k b)) []) bs).
    + change 0 with (Z.of_nat (length (@nil corners))). rewrite R. reflexivity.
    + cbn [existsb]. assert (LB : length bs = Z.to_nat top) by (unfold bs; rewrite map_length, firstn_length; lia).
      rewrite <- LB. clear. induction bs as [|b l IH]; [reflexivity|]. cbn. now rewrite IH.
  - exists s. split; [exact P|]. split; [|exact PK].
    intros i j x y Hij Ht X Y. assert (J : (j < length s)%nat) by (apply nth_error_Some; congruence).
    destruct (B (Z.of_nat i) (Z.of_nat j)) as (x' & y' & X' & Y' & Q); [lia|lia|exact Ht|]. unfold at_row in X', Y'. rewrite Nat2Z.id in X', Y'. congruence.
Qed.

(** what the choice amounts to *)
Lemma picked_facts thresh keeps kept l r : picked thresh keeps kept l r -> Z.of_nat (length kept) <= keeps ->
  Z.of_nat (length r) <= keeps /\ (forall b, In b r -> In b kept \/ In b l) /\
  (forall i j x y, (i < j)%nat -> (length kept <= j)%nat -> nth_error r i = Some x -> nth_error r j = Some y -> exists o, shares x y o /\ (o <= thresh)%Q) /\
  (exists t, r = kept ++ t).
Proof.
  induction 1 as [kept|kept l F|kept b l r LK OK P IH|kept b l r LK DR P IH]; intros HL.
  - split; [exact HL|]. split; [auto|]. split; [|exists []; now rewrite app_nil_r].
    intros i j x y Hij Hj X Y. assert (j < length kept)%nat by (apply nth_error_Some; congruence). lia.
  - split; [lia|]. split; [auto|]. split; [|exists []; now rewrite app_nil_r].
    intros i j x y Hij Hj X Y. assert (j < length kept)%nat by (apply nth_error_Some; congruence). lia.
  - destruct IH as (A & B & C & (t & T)); [rewrite app_length; cbn [length]; lia|]. split; [exact A|]. split.
    + intros b' H. destruct (B b' H) as [D|D]; [|right; now right]. apply in_app_iff in D. destruct D as [D|[<-|[]]]; [now left|right; now left].
    + split; [|exists (b :: t); rewrite T, <- app_assoc; reflexivity].
      intros i j x y Hij Hj X Y. destruct (Nat.eq_dec j (length kept)) as [->|N].
      * assert (y = b) as ->.
        { rewrite T, <- app_assoc, nth_error_app2 in Y by lia. rewrite Nat.sub_diag in Y. cbn in Y. congruence. }
        apply OK. rewrite T, <- app_assoc, nth_error_app1 in X by lia. apply nth_error_In in X. exact X.
      * apply (C i j); auto. rewrite app_length. cbn [length]. lia.
  - destruct (IH HL) as (A & B & C & D). split; [exact A|]. split; [|auto]. intros b' H. destruct (B b' H); [now left|right; now right].
Qed.

(** *** Anchors *)
Section Anchors.
Variables expq sqrtq : Q -> Q.
Hypothesis Hsqrt : forall v, (0 <= sqrtq v)%Q.
Hypothesis Hexp : forall v, (0 <= expq v)%Q.

Lemma ROUND_ok v : (0 <= v)%Q -> exists n, ROUND v = inject_Z n /\ rounded v n /\ 0 <= n.
Proof.
  intros H. unfold ROUND. exists (truncate (v + (1 # 2))). split; [reflexivity|]. unfold truncate.
  assert (G : Qgeb (v + (1 # 2)) 0 = true) by (unfold Qgeb; apply Qle_bool_iff; lra).
  rewrite G. destruct (floor_bounds (v + (1 # 2))) as (A & B). set (n := Qfloor (v + (1 # 2))) in *. clearbody n. split; [unfold rounded; lra|].
  assert (X : (inject_Z 0 < inject_Z (n + 1))%Q) by (rewrite inject_Z_plus; change (inject_Z 1) with 1%Q; change (inject_Z 0) with 0%Q; lra). rewrite <- Zlt_Qlt in X. lia.
Qed.
Definition an (base : Z) (rs ss : list Q) (i j : Z) : corners :=
  let r := at_ rs i in let s := at_ ss j in
  let center := ((1 # 2) * (inject_Z base - 1))%Q in
  let rw := ROUND (sqrtq (inject_Z (base * base) / r)) in
  let rh := ROUND (rw * r) in
  let sw := ((1 # 2) * (rw * s - 1))%Q in
  let sh := ((1 # 2) * (rh * s - 1))%Q in
  Corners (center - sw) (center - sh) (center + sw) (center + sh).
Lemma an_ok base rs ss i j : (0 <= at_ rs i)%Q -> (0 <= at_ ss j)%Q ->
  anchor sqrtq base (at_ rs i) (at_ ss j) (an base rs ss i j) /\
  (0 <= xmax (an base rs ss i j) - xmin (an base rs ss i j) + 1)%Q /\ (0 <= ymax (an base rs ss i j) - ymin (an base rs ss i j) + 1)%Q.
Proof.
  intros Hr Hs. unfold an. set (r := at_ rs i) in *. set (s := at_ ss j) in *.
  destruct (ROUND_ok (sqrtq (inject_Z (base * base) / r)) (Hsqrt _)) as (w & -> & RW & W0).
  destruct (ROUND_ok (inject_Z w * r)) as (h & -> & RH & H0); [apply Qmult_le_0_compat; [|exact Hr]; change 0%Q with (inject_Z 0); now rewrite <- Zle_Qle|].
  cbn [xmin xmax ymin ymax]. assert (WS : (0 <= inject_Z w * s)%Q) by (apply Qmult_le_0_compat; [|exact Hs]; change 0%Q with (inject_Z 0); now rewrite <- Zle_Qle).
  assert (HS : (0 <= inject_Z h * s)%Q) by (apply Qmult_le_0_compat; [|exact Hs]; change 0%Q with (inject_Z 0); now rewrite <- Zle_Qle).
  split; [|split; lra]. exists w, h. split; [exact RW|]. split; [exact RH|]. cbn [xmin xmax ymin ymax]. repeat split; ring.
Qed.
Lemma map_nth_upto {X Y} (f : X -> Y) l d : map f l = map (fun j => f (nth (Z.to_nat j) l d)) (upto (Z.of_nat (length l))).
Proof.
  induction l as [|a l IH]; [reflexivity|]. cbn [length map]. rewrite Nat2Z.inj_succ, upto_S by lia. cbn [map]. f_equal. rewrite IH, map_map.
  apply map_ext_in. intros p Hp. apply In_upto in Hp. rewrite Z2Nat.inj_succ by lia. reflexivity.
Qed.
Lemma anchors_grid base rs ss :
  anchors sqrtq base rs ss = flat_map (fun i => map (an base rs ss i) (upto (Z.of_nat (length ss)))) (upto (Z.of_nat (length rs))).
Proof.
  unfold anchors. rewrite (flat_map_nth _ rs 0%Q). apply flat_map_ext. intros i. rewrite (map_nth_upto _ ss 0%Q). reflexivity.
Qed.
Lemma anchors_at base rs ss i j : 0 <= i < Z.of_nat (length rs) -> 0 <= j < Z.of_nat (length ss) ->
  load (anchors sqrtq base rs ss) (i * Z.of_nat (length ss) + j) = SOk (an base rs ss i j).
Proof.
  intros I J. set (n := Z.of_nat (length ss)) in *. set (m := Z.of_nat (length rs)) in *.
  assert (E : anchors sqrtq base rs ss = map (fun a => an base rs ss (a / n) (a mod n)) (upto (m * n))).
  { rewrite anchors_grid. fold n m. replace (m * n) with (n * m) by ring. rewrite upto_grid by lia. rewrite !flat_map_concat_map, concat_map, map_map. f_equal. apply map_ext. intros i'.
    rewrite map_map. apply map_ext_in. intros j' Hj. apply In_upto in Hj. f_equal.
    - symmetry. rewrite Z.add_comm, Z.div_add by lia. rewrite Z.div_small by lia. reflexivity.
    - symmetry. rewrite Z.add_comm, Z.mod_add by lia. apply Z.mod_small; lia. }
  rewrite E. apply load_inv. assert (B : 0 <= i * n + j < m * n) by nia. split; [lia|]. rewrite nth_error_map, nth_error_upto by exact B. cbn.
  do 2 f_equal; [rewrite Z.add_comm, Z.div_add by lia; rewrite Z.div_small by lia; reflexivity|rewrite Z.add_comm, Z.mod_add by lia; apply Z.mod_small; lia].
Qed.
Lemma anchors_length base rs ss : Z.of_nat (length (anchors sqrtq base rs ss)) = Z.of_nat (length rs) * Z.of_nat (length ss).
Proof.
  unfold anchors. induction rs as [|r rs IH]; [reflexivity|]. cbn [flat_map length]. rewrite app_length, map_length. lia.
Qed.

(** *** Transforming *)
Lemma clip_ok e v : (clip e v == Qmax 0 (Qmin v (e - 1)))%Q.
Proof. unfold clip. now rewrite std_max_ok, std_min_ok. Qed.
Lemma transform_ok dx dy dlw dlh im_w im_h stride h w b mb s :
  let t := transform expq dx dy dlw dlh im_w im_h mb mb (shifted stride h w b) in
  proposed expq b (inject_Z (w * stride)) (inject_Z (h * stride)) dx dy dlw dlh im_w im_h (fst (scored t s)) /\
  weighted mb (fst (scored t s)) s (snd (scored t s)).
Proof.
  intros t. split.
  - unfold t, transform, scored, shifted. cbn [fst snd xmin xmax ymin ymax].
    set (X := inject_Z (w * stride)). set (Y := inject_Z (h * stride)).
    set (W := (X + xmax b - (X + xmin b) + 1)%Q). set (H := (Y + ymax b - (Y + ymin b) + 1)%Q).
    exists (Corners (dx * W + (X + xmin b + (1 # 2) * W) - (1 # 2) * (expq dlw * W)) (dy * H + (Y + ymin b + (1 # 2) * H) - (1 # 2) * (expq dlh * H))
                    (dx * W + (X + xmin b + (1 # 2) * W) + (1 # 2) * (expq dlw * W)) (dy * H + (Y + ymin b + (1 # 2) * H) + (1 # 2) * (expq dlh * H))).
    cbn [xmin xmax ymin ymax]. rewrite <- !clip_ok.
    split; [unfold W; field|]. split; [unfold H; field|]. split; [unfold W; ring|]. split; [unfold H; ring|].
    split; [reflexivity|]. split; [reflexivity|]. split; reflexivity.
  - unfold scored. destruct t as [c ok] eqn:E. cbn [fst snd]. unfold weighted.
    assert (O : ok = Qle_bool mb (xmax c - xmin c + 1) && Qle_bool mb (ymax c - ymin c + 1)).
    { unfold t, transform in E. apply pair_equal_spec in E. destruct E as (<- & <-). reflexivity. }
    rewrite O. destruct (Qle_bool mb (xmax c - xmin c + 1)) eqn:A; [destruct (Qle_bool mb (ymax c - ymin c + 1)) eqn:B|]; cbn [andb].
    + left. apply Qle_bool_iff in A, B. split; [exact A|]. split; [exact B|ring].
    + right. split; [right|ring]. apply Qnot_le_lt. intros Q. apply Qle_bool_iff in Q. congruence.
    + right. split; [left|ring]. apply Qnot_le_lt. intros Q. apply Qle_bool_iff in Q. congruence.
Qed.
(** a proposal lies in the image, the right way round *)
Lemma proposed_inside b x y dx dy dlw dlh im_w im_h r : (0 <= xmax b - xmin b + 1)%Q -> (0 <= ymax b - ymin b + 1)%Q -> (1 <= im_w)%Q -> (1 <= im_h)%Q ->
  proposed expq b x y dx dy dlw dlh im_w im_h r ->
  (0 <= xmin r /\ xmin r <= xmax r /\ xmax r <= im_w - 1 /\ 0 <= ymin r /\ ymin r <= ymax r /\ ymax r <= im_h - 1)%Q.
Proof.
  intros Hw Hh Iw Ih (u & _ & _ & W & H & A & B & C & D).
  assert (EW := Qmult_le_0_compat _ _ (Hexp dlw) Hw). assert (EH := Qmult_le_0_compat _ _ (Hexp dlh) Hh).
  rewrite A, B, C, D. repeat split; try apply Q.le_max_l.
  - apply Q.max_le_compat_l, Q.min_le_compat_r. lra.
  - apply Q.max_lub; [lra|apply Q.le_min_r].
  - apply Q.max_le_compat_l, Q.min_le_compat_r. lra.
  - apply Q.max_lub; [lra|apply Q.le_min_r].
Qed.
End Anchors.
