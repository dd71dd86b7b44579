(** The yolo operator. *)
From Coq Require Import List ZArith Bool Lia.
From Verif Require Import ShapeModel ShapeSpec ShapeProofs KernelBase KernelSpec KernelProofs ResizeModel TileModel
  WinogradProofs GemmPlainProofs YoloModel YoloSpec.
Import ListNotations.
Local Open Scope Z_scope.

Section Proofs.
Context {V A : Type}.
Variable logistic : V -> V.
Variable opp : V -> V.

Lemma activate_at_app dt ps qs m : activate_at logistic opp dt (ps ++ qs) m = bind2 (activate_at logistic opp dt ps m) (activate_at logistic opp dt qs).
Proof.
  revert m. induction ps as [|p ps IH]; intros m; [reflexivity|]. cbn [activate_at app].
  destruct (load m p) as [v| |]; cbn [bind2]; [apply IH|reflexivity|reflexivity].
Qed.

Lemma activate_at_spec dt ps : NoDup ps -> forall m, (forall p, In p ps -> 0 <= p < Z.of_nat (length m)) ->
  exists m', activate_at logistic opp dt ps m = SOk m' /\ length m' = length m /\
    forall k v, nth_error m k = Some v ->
      (In (Z.of_nat k) ps -> nth_error m' k = Some (activate logistic opp dt v)) /\ (~ In (Z.of_nat k) ps -> nth_error m' k = Some v).
Proof.
  induction 1 as [|p ps Hp ND IH]; intros m Hin.
  - exists m. split; [reflexivity|]. split; [reflexivity|]. intros k v Hk. split; [intros []|auto].
  - pose proof (Hin p (or_introl eq_refl)) as Bp.
    destruct (nth_error m (Z.to_nat p)) as [vp|] eqn:Ep.
    2: { apply nth_error_None in Ep. lia. }
    destruct (IH (set_nth (Z.to_nat p) (activate logistic opp dt vp) m)) as (m' & R & L & G).
    { intros q Hq. rewrite set_nth_length. apply Hin. now right. }
    exists m'. cbn [activate_at].
    assert (Ld : load m p = SOk vp) by (unfold load; destruct (Z.ltb_spec p 0); [lia|]; now rewrite Ep).
    rewrite Ld. cbn [bind2]. split; [exact R|]. split; [rewrite L; apply set_nth_length|].
    intros k v Hk. destruct (Z.eq_dec p (Z.of_nat k)) as [->|N].
    + rewrite Nat2Z.id in *. rewrite Hk in Ep. injection Ep as <-.
      split; [|intro X; exfalso; apply X; now left]. intros _. apply (G k); [|exact Hp]. apply set_nth_same. apply nth_error_Some. congruence.
    + assert (Hk' : nth_error (set_nth (Z.to_nat p) (activate logistic opp dt vp) m) k = Some v)
        by (rewrite set_nth_other; [exact Hk|]; intro; lia).
      destruct (G k v Hk') as [G1 G2]. split; intro X.
      * apply G1. destruct X as [X|X]; [congruence|exact X].
      * apply G2. intro Y. apply X. now right.
Qed.

(** the elements one anchor of one image is activated at *)
Definition anchor_ps (w h outputs classes : Z) (bn : Z * Z) : list Z :=
  let base := fst bn * outputs + snd bn * (w * h) * (5 + classes) in
  map (fun i => base + i) (upto (2 * (w * h))) ++ map (fun i => base + 4 * (w * h) + i) (upto ((1 + classes) * (w * h))).

Lemma entry_ok w h outputs classes b n e : w * h <> 0 ->
  entry_index w h outputs classes b (n * w * h) e = SOk (b * outputs + n * (w * h) * (5 + classes) + e * (w * h)).
Proof.
  intros H. unfold entry_index. rewrite (proj2 (Z.eqb_neq _ _) H).
  replace (n * w * h) with (n * (w * h)) by ring. rewrite Z.quot_mul, Z.rem_mul by exact H. f_equal. ring.
Qed.

Lemma anchor_activate dt w h outputs classes bn m : w * h <> 0 ->
  activate_anchor logistic opp dt w h outputs classes bn m = activate_at logistic opp dt (anchor_ps w h outputs classes bn) m.
Proof.
  intros H. destruct bn as [b n]. unfold activate_anchor, anchor_ps. cbn [fst snd]. rewrite !entry_ok by exact H. cbn [bind2].
  rewrite activate_at_app. unfold activate_array.
  replace (2 * w * h) with (2 * (w * h)) by ring. replace ((1 + classes) * w * h) with ((1 + classes) * (w * h)) by ring.
  replace (b * outputs + n * (w * h) * (5 + classes) + 0 * (w * h)) with (b * outputs + n * (w * h) * (5 + classes)) by ring.
  reflexivity.
Qed.

Lemma anchors_activate dt w h outputs classes l : w * h <> 0 -> forall m,
  activate_anchors logistic opp dt w h outputs classes l m = activate_at logistic opp dt (flat_map (anchor_ps w h outputs classes) l) m.
Proof.
  intros H. induction l as [|bn l IH]; intros m; [reflexivity|]. cbn [activate_anchors flat_map].
  rewrite anchor_activate, activate_at_app by exact H. destruct (activate_at _ _ _ _ m) as [m'| |]; cbn [bind2]; [apply IH|reflexivity|reflexivity].
Qed.

(** which elements these are *)
Lemma In_anchor_ps w h outputs classes b n p : 0 < w * h -> 0 <= classes ->
  In p (anchor_ps w h outputs classes (b, n)) <->
  exists e i, p = b * outputs + (n * (5 + classes) + e) * (w * h) + i /\ 0 <= e < 5 + classes /\ e <> 2 /\ e <> 3 /\ 0 <= i < w * h.
Proof.
  intros H Hc. unfold anchor_ps. cbn [fst snd]. rewrite in_app_iff, !in_map_iff. set (U := w * h) in *. clearbody U. split.
  - intros [(i & <- & Hi)|(i & <- & Hi)]; apply In_upto in Hi.
    + exists (i / U), (i mod U). pose proof (Z.div_mod i U ltac:(lia)) as D. pose proof (Z.mod_pos_bound i U H) as M.
      assert (0 <= i / U < 2) by (split; [apply Z.div_pos; lia|apply Z.div_lt_upper_bound; lia]).
      split; [|lia]. rewrite D at 1. ring.
    + exists (4 + i / U), (i mod U). pose proof (Z.div_mod i U ltac:(lia)) as D. pose proof (Z.mod_pos_bound i U H) as M.
      assert (0 <= i / U < 1 + classes) by (split; [apply Z.div_pos; lia|apply Z.div_lt_upper_bound; lia]).
      split; [|lia]. rewrite D at 1. ring.
  - intros (e & i & -> & He & N2 & N3 & Hi). destruct (Z_lt_le_dec e 2) as [L|L].
    + left. exists (e * U + i). split; [ring|]. apply In_upto. nia.
    + right. exists ((e - 4) * U + i). split; [ring|]. apply In_upto. nia.
Qed.

Lemma In_all w h batch N classes p : 0 < w * h -> 0 <= classes ->
  In p (flat_map (anchor_ps w h (N * (classes + 4 + 1) * h * w) classes) (list_prod (upto batch) (upto N))) <->
  exists b n e i, p = ((b * N + n) * (5 + classes) + e) * (w * h) + i /\
    0 <= b < batch /\ 0 <= n < N /\ 0 <= e < 5 + classes /\ e <> 2 /\ e <> 3 /\ 0 <= i < w * h.
Proof.
  intros H Hc. rewrite in_flat_map. split.
  - intros ([b n] & Hbn & Hp). apply in_prod_iff in Hbn. destruct Hbn as [Hb Hn]. apply In_upto in Hb, Hn.
    apply In_anchor_ps in Hp; [|exact H|exact Hc]. destruct Hp as (e & i & -> & He & N2 & N3 & Hi).
    exists b, n, e, i. split; [ring|auto 10].
  - intros (b & n & e & i & -> & Hb & Hn & He & N2 & N3 & Hi). exists (b, n). split; [apply in_prod_iff; split; now apply In_upto|].
    apply In_anchor_ps; [exact H|exact Hc|]. exists e, i. split; [ring|auto 10].
Qed.

Lemma two_digits U q i q' i' : 0 <= i < U -> 0 <= i' < U -> q * U + i = q' * U + i' -> q = q' /\ i = i'.
Proof.
  intros Hi Hi' E. assert (q = q').
  { assert (Q : (q * U + i) / U = q) by (rewrite Z.div_add_l by lia; rewrite Z.div_small by exact Hi; lia).
    assert (Q' : (q' * U + i') / U = q') by (rewrite Z.div_add_l by lia; rewrite Z.div_small by exact Hi'; lia). congruence. }
  subst. lia.
Qed.

Lemma NoDup_app2 {B} (l1 l2 : list B) : NoDup l1 -> NoDup l2 -> (forall x, In x l1 -> ~ In x l2) -> NoDup (l1 ++ l2).
Proof.
  induction 1 as [|x l Hx ND IH]; intros H2 D; [exact H2|]. cbn [app]. constructor.
  - rewrite in_app_iff. intros [X|X]; [contradiction|]. apply (D x); [now left|exact X].
  - apply IH; [exact H2|]. intros y Hy. apply D. now right.
Qed.

Lemma NoDup_prod (l1 l2 : list Z) : NoDup l1 -> NoDup l2 -> NoDup (list_prod l1 l2).
Proof.
  intros H1 H2. induction H1 as [|x l Hx ND IH]; [constructor|]. cbn [list_prod]. apply NoDup_app2.
  - apply NoDup_map_on; [exact H2|]. intros a b _ _ E. now injection E.
  - exact IH.
  - intros [a b] Ha Hb. apply in_map_iff in Ha. destruct Ha as (y & E & _). injection E as -> ->. apply in_prod_iff in Hb. tauto.
Qed.

Lemma NoDup_all w h batch N classes : 0 < w * h -> 0 <= classes ->
  NoDup (flat_map (anchor_ps w h (N * (classes + 4 + 1) * h * w) classes) (list_prod (upto batch) (upto N))).
Proof.
  intros H Hc. apply NoDup_flat_map_on.
  - apply NoDup_prod; apply NoDup_upto.
  - intros [b n] _. unfold anchor_ps. cbn [fst snd]. apply NoDup_app2.
    + apply NoDup_map_on; [apply NoDup_upto|]. intros; lia.
    + apply NoDup_map_on; [apply NoDup_upto|]. intros; lia.
    + intros x Hx Hy. apply in_map_iff in Hx, Hy. destruct Hx as (i & <- & Hi), Hy as (j & E & Hj). apply In_upto in Hi, Hj. lia.
  - intros [b n] [b' n'] p Hbn Hbn' Hp Hp'. apply in_prod_iff in Hbn, Hbn'. destruct Hbn as [Hb Hn], Hbn' as [Hb' Hn'].
    apply In_upto in Hb, Hn, Hb', Hn'. apply In_anchor_ps in Hp; [|exact H|exact Hc]. apply In_anchor_ps in Hp'; [|exact H|exact Hc].
    destruct Hp as (e & i & -> & He & _ & _ & Hi), Hp' as (e' & i' & E & He' & _ & _ & Hi').
    assert (E2 : ((b * N + n) * (5 + classes) + e) * (w * h) + i = ((b' * N + n') * (5 + classes) + e') * (w * h) + i').
    { transitivity (b * (N * (classes + 4 + 1) * h * w) + (n * (5 + classes) + e) * (w * h) + i); [ring|]. rewrite E. ring. }
    apply two_digits in E2; [|exact Hi|exact Hi']. destruct E2 as [E2 _].
    apply two_digits in E2; [|exact He|exact He']. destruct E2 as [E2 _].
    apply two_digits in E2; [|exact Hn|exact Hn']. destruct E2 as [-> ->]. reflexivity.
Qed.

(** C151.  Every channel but the width and the height of every anchor is
    squashed once, everything else is as it was, and the parameters follow. *)
Theorem C151_yolo_partial classes (mask : list Z) (anchors : list A) x batch c h w :
  let N := Z.of_nat (length mask) in
  0 <= classes -> wf x -> t_shape x = [batch; c; h; w] -> c = N * (5 + classes) -> tile_supports (t_dtype x) = true ->
  (batch * N = 0 \/ 0 < w * h) -> ~ unsigned (t_dtype x) ->
  exists y, yolo logistic opp classes mask anchors x = SOk (Packed y classes mask anchors) /\
    squashed (fun v => logistic (opp v)) classes N x y.
Proof.
  intros N Hc Wf Hs Ec Hd Hne Hu. destruct Wf as [Wp Wl]. rewrite Hs in Wp, Wl.
  assert (Hb0 : 0 <= batch) by exact (Forall_inv Wp).
  assert (Hh0 : 0 <= h) by exact (Forall_inv (Forall_inv_tail (Forall_inv_tail Wp))).
  assert (Hw0 : 0 <= w) by exact (Forall_inv (Forall_inv_tail (Forall_inv_tail (Forall_inv_tail Wp)))).
  assert (HN : 0 <= N) by (unfold N; lia).
  assert (Act : forall v, activate logistic opp (t_dtype x) v = logistic (opp v)).
  { intro v. unfold activate, neg. unfold unsigned in Hu.
    destruct (Z.eqb_spec (t_dtype x) 2) as [e|_]; [exfalso; apply Hu; rewrite e; cbn; auto|].
    destruct (Z.eqb_spec (t_dtype x) 4) as [e|_]; [exfalso; apply Hu; rewrite e; cbn; auto|].
    destruct (Z.eqb_spec (t_dtype x) 6) as [e|_]; [exfalso; apply Hu; rewrite e; cbn; auto|].
    destruct (Z.eqb_spec (t_dtype x) 8) as [e|_]; [exfalso; apply Hu; rewrite e; cbn; auto 6|]. reflexivity. }
  assert (G : exists m, activate_anchors logistic opp (t_dtype x) w h (c * h * w) classes (list_prod (upto batch) (upto N)) (t_data x) = SOk m /\
    squashed (fun v => logistic (opp v)) classes N x (Tn (t_dtype x) (t_shape x) m)).
  { destruct (Z.eq_dec (w * h) 0) as [W0|W0].
    - assert (P0 : list_prod (upto batch) (upto N) = []).
      { assert (batch = 0 \/ N = 0) as [->| ->] by (apply Z.mul_eq_0; destruct Hne; [assumption|lia]); [reflexivity|].
        induction (upto batch) as [|a l IH]; [reflexivity|]. exact IH. }
      rewrite P0. exists (t_data x). split; [reflexivity|]. split; [reflexivity|]. split; [reflexivity|]. split; [split; cbn; rewrite Hs; assumption|].
      intros batch' c' h' w' Es. rewrite Hs in Es. injection Es as <- <- <- <-. intros. exfalso. assert (0 < w * h) by (apply Z.mul_pos_pos; lia). lia.
    - assert (Hwh : 0 < w * h) by (assert (0 <= w * h) by (apply Z.mul_nonneg_nonneg; assumption); lia). clear Hne W0.
      assert (Len : Z.of_nat (length (t_data x)) = batch * N * (5 + classes) * (w * h)).
      { rewrite Wl. cbn [elements]. rewrite Ec. ring. }
      rewrite anchors_activate by lia. replace (c * h * w) with (N * (classes + 4 + 1) * h * w) by (rewrite Ec; ring).
      destruct (activate_at_spec (t_dtype x) _ (NoDup_all w h batch N classes Hwh Hc) (t_data x)) as (m & R & L & P).
      { intros p Hp. apply In_all in Hp; [|exact Hwh|exact Hc]. destruct Hp as (b & n & e & i & -> & Hb & Hn & He & _ & _ & Hi). rewrite Len.
        set (U := w * h) in *. clearbody U. clear -Hb Hn He Hi Hc Hwh.
        assert (0 <= b * N + n < batch * N) by nia. set (q := b * N + n) in *. set (Q := batch * N) in *. clearbody q Q.
        assert (0 <= q * (5 + classes) + e < Q * (5 + classes)) by nia. set (r := q * (5 + classes) + e) in *. set (R := Q * (5 + classes)) in *. clearbody r R.
        nia. }
      exists m. split; [exact R|]. split; [reflexivity|]. split; [reflexivity|].
      split; [split; cbn [t_shape t_data]; rewrite Hs; [exact Wp|]; rewrite L; exact Wl|].
      intros batch' c' h' w' Es. rewrite Hs in Es. injection Es as <- <- <- <-. intros b n e r cc Hb Hn He Hr Hcc at_.
      set (pos := ((b * N + n) * (5 + classes) + e) * (w * h) + (r * w + cc)).
      assert (Ep : position [batch; c; h; w] at_ = pos).
      { unfold at_, pos. cbn [position elements]. rewrite Ec. ring. }
      assert (Hi : 0 <= r * w + cc < w * h) by nia.
      assert (Bp : 0 <= pos < Z.of_nat (length (t_data x))).
      { rewrite Len. unfold pos. set (U := w * h) in *. set (i := r * w + cc) in *. clearbody U i. clear -Hb Hn He Hi Hc Hwh.
        assert (0 <= b * N + n < batch * N) by nia. set (q := b * N + n) in *. set (Q := batch * N) in *. clearbody q Q.
        assert (0 <= q * (5 + classes) + e < Q * (5 + classes)) by nia. set (s := q * (5 + classes) + e) in *. set (S' := Q * (5 + classes)) in *. clearbody s S'.
        nia. }
      destruct (nth_error (t_data x) (Z.to_nat pos)) as [v|] eqn:Ev.
      2: { apply nth_error_None in Ev. lia. }
      exists v. unfold elt. cbn [t_shape t_data]. rewrite Hs, Ep. split; [exact Ev|].
      destruct (P _ _ Ev) as [P1 P2]. rewrite Z2Nat.id in P1, P2 by lia.
      destruct ((e =? 2) || (e =? 3)) eqn:E23.
      + apply P2. intro Hp. apply In_all in Hp; [|exact Hwh|exact Hc]. destruct Hp as (b' & n' & e' & i' & E & Hb' & Hn' & He' & N2 & N3 & Hi').
        unfold pos in E. apply two_digits in E; [|exact Hi|exact Hi']. destruct E as [E _]. apply two_digits in E; [|exact He|exact He'].
        destruct E as [_ ->]. apply orb_prop in E23. destruct E23 as [E23|E23]; apply Z.eqb_eq in E23; contradiction.
      + rewrite <- (Act v). apply P1. apply In_all; [exact Hwh|exact Hc|]. exists b, n, e, (r * w + cc). apply orb_false_elim in E23.
        destruct E23 as [N2 N3]. apply Z.eqb_neq in N2, N3. split; [reflexivity|]. auto 8. }
  destruct G as (m & R & S'). exists (Tn (t_dtype x) (t_shape x) m). split; [|exact S'].
  unfold yolo. rewrite Hs. cbv zeta. fold N.
  assert (E : (c =? N * (classes + 4 + 1)) = true) by (apply Z.eqb_eq; rewrite Ec; ring). rewrite E, Hd. cbn [negb]. rewrite R. reflexivity.
Qed.

(** Anything else is refused: another rank, another number of channels,
    another type. *)
Theorem C151_refused classes (mask : list Z) (anchors : list A) x :
  (length (t_shape x) <> 4%nat \/ nth 1 (t_shape x) 0 <> Z.of_nat (length mask) * (5 + classes) \/ tile_supports (t_dtype x) = false) ->
  yolo logistic opp classes mask anchors x = SErr.
Proof.
  intros H. unfold yolo. destruct (t_shape x) as [|b [|c [|h [|w [|]]]]] eqn:Es; try reflexivity.
  cbv zeta. destruct (Z.eqb_spec c (Z.of_nat (length mask) * (classes + 4 + 1))) as [E|E]; [|reflexivity]. cbn [negb].
  destruct (tile_supports (t_dtype x)) eqn:Ed; [|reflexivity]. exfalso. change (nth 1 [b; c; h; w] 0) with c in H. destruct H as [H|[H|H]]; [now apply H| |discriminate].
  apply H. rewrite E. ring.
Qed.

(** Images without pixels: the index of the first element divides by zero. *)
Theorem C151_empty_images_refuted classes (mask : list Z) (anchors : list A) dt batch h w (data : list V) :
  tile_supports dt = true -> 0 < batch -> mask <> [] -> w * h = 0 ->
  yolo logistic opp classes mask anchors (Tn dt [batch; Z.of_nat (length mask) * (5 + classes); h; w] data) = SUndef.
Proof.
  intros Hd Hb Hm H0. unfold yolo. cbn [t_shape t_dtype t_data]. cbv zeta.
  assert (E : (Z.of_nat (length mask) * (5 + classes) =? Z.of_nat (length mask) * (classes + 4 + 1)) = true) by (apply Z.eqb_eq; ring).
  rewrite E, Hd. cbn [negb].
  assert (HN : 0 < Z.of_nat (length mask)) by (destruct mask; [congruence|cbn [length]; lia]).
  assert (U : forall k, 0 < k -> exists l, upto k = 0 :: l).
  { intros k Hk. unfold upto. destruct (Z.to_nat k) as [|k'] eqn:Ek; [lia|]. cbn. eauto. }
  destruct (U batch Hb) as (lb & ->). destruct (U _ HN) as (ln & ->).
  cbn [list_prod map app activate_anchors]. unfold activate_anchor, entry_index. rewrite (proj2 (Z.eqb_eq _ _) H0). reflexivity.
Qed.
End Proofs.
Print Assumptions C151_yolo_partial.
Print Assumptions C151_refused.
Print Assumptions C151_empty_images_refuted.

(** Integer elements: T(1. / (1. + exp(y))) for an integer T is 1 when
    exp(y) vanishes beside 1 in double precision (y <= -37) and 0 otherwise. *)
Definition int_logistic (y : Z) : Z := if y <=? -37 then 1 else 0.

(** For unsigned types the number is not negated: 100 is squashed to 0, as
    if it were -100, where int8 has 1. *)
Theorem C151_unsigned_refuted :
  exists x y, yolo int_logistic Z.opp 0 [0] (@nil Z) x = SOk (Packed y 0 [0] []) /\ wf x /\ unsigned (t_dtype x) /\
    elt x [0; 4; 0; 0] = Some 100 /\ elt y [0; 4; 0; 0] = Some 0 /\ int_logistic (- 100) = 1.
Proof.
  exists (Tn 2 [1; 5; 1; 1] [100; 100; 100; 100; 100]), (Tn 2 [1; 5; 1; 1] [0; 0; 100; 100; 0]).
  split; [vm_compute; reflexivity|]. split; [split; [repeat constructor; lia|reflexivity]|]. split; [left; reflexivity|]. vm_compute. auto.
Qed.
Print Assumptions C151_unsigned_refuted.

(** two anchors, one class, two pixels *)
Example C151_example :
  yolo (fun y => 1000 + y) Z.opp 1 [3; 4] [10; 13] (Tn 10 [1; 12; 1; 2] (map Z.of_nat (seq 0 24))) =
  SOk (Packed (Tn 10 [1; 12; 1; 2] [1000; 999; 998; 997; 4; 5; 6; 7; 992; 991; 990; 989; 988; 987; 986; 985; 16; 17; 18; 19; 980; 979; 978; 977])
    1 [3; 4] [10; 13]).
Proof. vm_compute. reflexivity. Qed.
