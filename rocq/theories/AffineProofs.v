From Coq Require Import List ZArith QArith Qabs Qround Bool Lia Lqa.
From Verif Require Import ShapeModel ShapeSpec ShapeProofs KernelBase KernelSpec KernelProofs LoopModel LoopProofs ConvProofs WinogradProofs TileModel ResizeModel ResizeSpec ResizeProofs PropsResize AffineModel AffineSpec.
Import ListNotations.
Local Open Scope Q_scope.

Lemma hold_ok n p : (2 <= n)%Z -> let q := hold n p in let s := truncate q in
  (0 <= s)%Z /\ (s + 1 < n)%Z /\ 0 <= q - inject_Z s < 1 /\ linear_sample n p q.
Proof.
  intros Hn. cbv zeta. unfold hold.
  assert (N1 : 1 <= inject_Z (n - 1)) by (change 1 with (inject_Z 1); apply inj_le; lia).
  set (p0 := if Qgeb p 0 then p else 0). assert (P0 : 0 <= p0 /\ (0 <= p -> p0 == p) /\ (p < 0 -> p0 == 0)).
  { unfold p0. pose proof (Qgeb_spec p 0) as G. destruct (Qgeb p 0); repeat split; try lra; intros; lra. }
  destruct P0 as (P1 & P2 & P3). clearbody p0.
  set (q := if Qltb p0 _ then _ else _).
  assert (Q0 : 0 <= q /\ q < inject_Z (n - 1) /\ (p0 < inject_Z (n - 1) -> q == p0) /\ (inject_Z (n - 1) <= p0 -> q == inject_Z (n - 1) - (1 # 100000))).
  { unfold q. pose proof (Qltb_spec p0 (inject_Z (n - 1))) as G. destruct (Qltb p0 _); repeat split; intros; lra. }
  destruct Q0 as (Q1 & Q2 & Q3 & Q4). clearbody q.
  assert (T : truncate q = Qfloor q) by (unfold truncate; pose proof (Qgeb_spec q 0) as G; destruct (Qgeb q 0); [reflexivity|lra]).
  rewrite T. destruct (floor_bounds q) as [F1 F2]. split; [|split; [|split; [lra|]]].
  - assert (0 < Qfloor q + 1)%Z; [|lia]. apply inj_lt. rewrite inject_Z_plus. change (inject_Z 0) with 0. change (inject_Z 1) with 1. lra.
  - assert (Qfloor q < n - 1)%Z; [|lia]. apply inj_lt. lra.
  - split; [|split]; intros; [rewrite Q3; lra|rewrite Q3; lra|apply Q4; rewrite P2; lra].
Qed.
Lemma inner_q_spec n p : inner_q n p = true <-> 0 <= p < inject_Z (n - 1).
Proof. unfold inner_q. rewrite andb_true_iff. pose proof (Qgeb_spec p 0). pose proof (Qltb_spec p (inject_Z (n - 1))). destruct (Qgeb p 0), (Qltb p (inject_Z (n - 1))); split; intros; try split; try reflexivity; try lra; try (destruct H1; discriminate). Qed.
Lemma inner_z_spec n k : inner_z n k = true <-> (0 <= k < n - 1)%Z.
Proof. unfold inner_z. rewrite andb_true_iff, Z.geb_leb, Z.leb_le, Z.ltb_lt. lia. Qed.
Lemma outside_cubic_spec n s : outside_cubic n s = false <-> (1 <= s < n - 3)%Z.
Proof. unfold outside_cubic. rewrite orb_false_iff, Z.geb_leb, Z.leb_gt, Z.ltb_ge. lia. Qed.
Lemma hold_cubic_ok n p : (4 <= n)%Z -> let '(s, f) := hold_cubic n (Qfloor p) (p - inject_Z (Qfloor p)) in
  (1 <= s)%Z /\ (s + 2 < n)%Z /\ 0 <= f < 1 /\ cubic_sample n p (inject_Z s + f).
Proof.
  intros Hn. unfold hold_cubic. destruct (floor_bounds p) as [F1 F2]. set (s := Qfloor p) in *. clearbody s.
  assert (N1 : 1 <= inject_Z (n - 3)) by (change 1 with (inject_Z 1); apply inj_le; lia).
  assert (I0 : inject_Z 0 == 0) by reflexivity. assert (I1 : inject_Z 1 == 1) by reflexivity.
  destruct (Z.ltb_spec s 1) as [Hs|Hs].
  - assert (P : p < 1). { assert (inject_Z s <= inject_Z 0) by (apply inj_le; lia). lra. }
    rewrite Z.geb_leb. destruct (Z.leb_spec (n - 3) 1) as [H3|H3].
    + assert (E3 : inject_Z (n - 3) == 1) by (replace (n - 3)%Z with 1%Z by lia; reflexivity). split; [lia|]. split; [lia|]. split; [lra|]. split; [|split]; intros; lra.
    + split; [lia|]. split; [lia|]. split; [lra|]. split; [|split]; intros; lra.
  - assert (P : 1 <= p). { assert (inject_Z 1 <= inject_Z s) by (apply inj_le; lia). lra. }
    rewrite Z.geb_leb. destruct (Z.leb_spec (n - 3) s) as [H3|H3].
    + assert (inject_Z (n - 3) <= inject_Z s) by now apply inj_le. split; [lia|]. split; [lia|]. split; [lra|]. split; [|split]; intros; lra.
    + assert (inject_Z s + 1 <= inject_Z (n - 3)) by (rewrite <- I1, <- inject_Z_plus; apply inj_le; lia). split; [lia|]. split; [lia|]. split; [lra|]. split; [|split]; intros; lra.
Qed.

Section Pixels.
Context {A : Type}.
Variable to_q : A -> Q.
Variable cast : Q -> A.
Hypothesis cast_ok : forall p q, p == q -> cast p = cast q.
Variable at_ : Z -> Z -> sres A.
Variable v : Z -> Z -> A.
Variables h w : Z.
Hypothesis At : forall y x, (0 <= y < h)%Z -> (0 <= x < w)%Z -> at_ y x = SOk (v y x).
Lemma affine_linear_ok outer ly lx : (2 <= h)%Z -> (2 <= w)%Z ->
  (outer = None \/ (0 <= ly < inject_Z (h - 1) /\ 0 <= lx < inject_Z (w - 1))) ->
  exists py px, linear_sample h ly py /\ linear_sample w lx px /\ 0 <= py < inject_Z (h - 1) /\ 0 <= px < inject_Z (w - 1) /\
    affine_linear to_q cast outer h w at_ ly lx = SOk (cast (interpolate tent h w (fun sy sx => to_q (v sy sx)) py px)).
Proof using cast_ok At.
  intros Hh Hw Ho. destruct (hold_ok h ly Hh) as (A1 & A2 & A3 & A4). destruct (hold_ok w lx Hw) as (B1 & B2 & B3 & B4).
  exists (hold h ly), (hold w lx). split; [exact A4|]. split; [exact B4|].
  assert (Bd : forall n q, (0 <= truncate q)%Z -> (truncate q + 1 < n)%Z -> 0 <= q - inject_Z (truncate q) < 1 -> 0 <= q < inject_Z (n - 1)).
  { clear. intros n q H1 H2 H3. assert (inject_Z (truncate q) + 1 <= inject_Z (n - 1)) by (change 1 with (inject_Z 1); rewrite <- inject_Z_plus; apply inj_le; lia).
    assert (0 <= inject_Z (truncate q)) by (change 0 with (inject_Z 0); now apply inj_le). lra. }
  split; [now apply Bd|]. split; [now apply Bd|]. unfold affine_linear.
  assert (Go : forall b, (b = true \/ outer = None) -> forall r, match b, outer with false, Some o => SOk o | _, _ => r end = r) by (intros [|] [H|H] r; rewrite ?H; try discriminate; try reflexivity; destruct outer; reflexivity).
  rewrite Go. 2:{ destruct Ho as [Ho|[Ho1 Ho2]]; [now right|left]. rewrite (proj2 (inner_q_spec w lx) Ho2), (proj2 (inner_q_spec h ly) Ho1). reflexivity. }
  set (py := hold h ly) in *. set (px := hold w lx) in *. set (ny := truncate py) in *. set (nx := truncate px) in *. clearbody py px ny nx.
  rewrite !At by lia. cbn [bind2]. f_equal. apply cast_ok. rewrite interpolate_nested.
  rewrite (tent_row h py (fun sy => qsum w (fun sx => tent (inject_Z sx - px) * to_q (v sy sx))) ny) by assumption.
  rewrite !(tent_row w px _ nx) by assumption. ring.
Qed.
Lemma affine_linear_outer o ly lx : ~ (0 <= ly < inject_Z (h - 1) /\ 0 <= lx < inject_Z (w - 1)) -> affine_linear to_q cast (Some o) h w at_ ly lx = SOk o.
Proof.
  intros H. unfold affine_linear. destruct (inner_q w lx && inner_q h ly) eqn:E; [|reflexivity]. exfalso. apply H. apply andb_true_iff in E. destruct E as [E1 E2]. apply inner_q_spec in E1, E2. auto.
Qed.
Lemma affine_point_ok to_int outer ly lx : (0 < h)%Z -> (0 < w)%Z -> (outer = None \/ ((0 <= to_int ly < h - 1)%Z /\ (0 <= to_int lx < w - 1)%Z)) ->
  affine_point to_int outer h w at_ ly lx = SOk (v (clamp h (to_int ly)) (clamp w (to_int lx))).
Proof using At.
  intros Hh Hw Ho. unfold affine_point. pose proof (clamp_bounds h (to_int ly) Hh). pose proof (clamp_bounds w (to_int lx) Hw). rewrite At by assumption.
  destruct Ho as [->|[H1 H2]]; [destruct (_ && _); reflexivity|]. rewrite (proj2 (inner_z_spec _ _) H1), (proj2 (inner_z_spec _ _) H2). reflexivity.
Qed.
Lemma affine_point_outer to_int o ly lx : ~ ((0 <= to_int ly < h - 1)%Z /\ (0 <= to_int lx < w - 1)%Z) -> affine_point to_int (Some o) h w at_ ly lx = SOk o.
Proof.
  intros H. unfold affine_point. destruct (inner_z w (to_int lx) && inner_z h (to_int ly)) eqn:E; [|reflexivity]. exfalso. apply H. apply andb_true_iff in E. destruct E as [E1 E2]. apply inner_z_spec in E1, E2. auto.
Qed.
Lemma affine_cubic_ok outer ly lx : (4 <= h)%Z -> (4 <= w)%Z -> (outer = None \/ ((1 <= Qfloor ly < h - 3)%Z /\ (1 <= Qfloor lx < w - 3)%Z)) ->
  exists py px, cubic_sample h ly py /\ cubic_sample w lx px /\
    affine_cubic to_q cast outer h w at_ ly lx = SOk (cast (interpolate keys h w (fun sy sx => to_q (v sy sx)) py px)).
Proof using cast_ok At.
  intros Hh Hw Ho. pose proof (hold_cubic_ok h ly Hh) as PY. pose proof (hold_cubic_ok w lx Hw) as PX. unfold affine_cubic. cbv zeta.
  assert (Go : forall b, (b = false \/ outer = None) -> forall r, match b, outer with true, Some o => SOk o | _, _ => r end = r) by (intros [|] [H|H] r; rewrite ?H; try discriminate; try reflexivity; destruct outer; reflexivity).
  rewrite Go. 2:{ destruct Ho as [Ho|[Ho1 Ho2]]; [now right|left]. rewrite (proj2 (outside_cubic_spec _ _) Ho1), (proj2 (outside_cubic_spec _ _) Ho2). reflexivity. }
  destruct (hold_cubic h (Qfloor ly) _) as [sy fy]. destruct (hold_cubic w (Qfloor lx) _) as [sx fx]. destruct PY as (Y1 & Y2 & Y3 & Y4). destruct PX as (X1 & X2 & X3 & X4).
  exists (inject_Z sy + fy), (inject_Z sx + fx). split; [exact Y4|]. split; [exact X4|].
  pose proof (fun g => keys_row h sy fy g Y1 Y2 Y3) as RY. pose proof (fun g => keys_row w sx fx g X1 X2 X3) as RX.
  destruct (cubic_coeffs fy) as [[[c0 c1] c2] c3]. destruct (cubic_coeffs fx) as [[[x0 x1] x2] x3].
  unfold cubic_column. rewrite !At by lia. cbn [bind2]. f_equal. apply cast_ok. rewrite interpolate_nested.
  rewrite (RY (fun y0 => qsum w (fun x4 => keys (inject_Z x4 - (inject_Z sx + fx)) * to_q (v y0 x4)))).
  rewrite !RX. ring.
Qed.
Lemma affine_cubic_outer o ly lx : ~ ((1 <= Qfloor ly < h - 3)%Z /\ (1 <= Qfloor lx < w - 3)%Z) -> affine_cubic to_q cast (Some o) h w at_ ly lx = SOk o.
Proof.
  intros H. unfold affine_cubic. cbv zeta. destruct (outside_cubic h (Qfloor ly) || outside_cubic w (Qfloor lx)) eqn:E; [reflexivity|]. exfalso. apply H. apply orb_false_iff in E. destruct E as [E1 E2]. apply outside_cubic_spec in E1, E2. auto.
Qed.
End Pixels.

Local Open Scope Z_scope.
(** ** All images: any way of computing a pixel from those of its image and channel *)
Section Elements.
Context {A : Type}.
Variable d0 : A.
Lemma sampled (P : (Z -> Z -> sres A) -> Z -> Z -> sres A) (data : list A) lead h w tail h' w' tr :
  Forall (fun d => 0 <= d) (lead ++ h :: w :: tail) -> Z.of_nat (length data) = elements (lead ++ h :: w :: tail) -> 0 <= h' -> 0 <= w' ->
  tr = map (fun i => match i with
    | [k; y; x; c] => (k * (elements tail * h' * w') + ((y * w' + x) * elements tail + c), P (fun sy sx => load data (k * (elements tail * h * w) + ((sy * w + sx) * elements tail + c))) y x)
    | _ => (0, SUndef) end) (loops [elements lead; h'; w'; elements tail]) ->
  (forall at_ v y x0, (forall sy sx, 0 <= sy < h -> 0 <= sx < w -> at_ sy sx = SOk (v sy sx)) -> 0 <= y < h' -> 0 <= x0 < w' -> exists a : A, P at_ y x0 = SOk a) ->
  exists o, exec (fresh (elements (lead ++ h' :: w' :: tail))) tr = SOk (map Some o) /\ Z.of_nat (length o) = elements (lead ++ h' :: w' :: tail) /\
    forall r y x0 t, inside lead r -> 0 <= y < h' -> 0 <= x0 < w' -> inside tail t ->
      exists at_, (forall sy sx a, 0 <= sy < h -> 0 <= sx < w -> at_ sy sx = SOk a <-> nth_error data (Z.to_nat (position (lead ++ h :: w :: tail) (r ++ sy :: sx :: t))) = Some a) /\
        (forall sy sx, 0 <= sy < h -> 0 <= sx < w -> exists a, at_ sy sx = SOk a) /\
        forall a, P at_ y x0 = SOk a -> nth_error o (Z.to_nat (position (lead ++ h' :: w' :: tail) (r ++ y :: x0 :: t))) = Some a.
Proof using d0.
  intros Nx Lx Hh Hw -> Px. apply Forall_app in Nx. destruct Nx as [Nl Nt]. inversion Nt as [|? ? H0 Nt1]; subst. inversion Nt1 as [|? ? H1 Nt2]; subst. clear Nt Nt1.
  set (ch := elements tail) in *. set (num := elements lead).
  assert (Hc : 0 <= ch) by now apply elements_nonneg. assert (Hn : 0 <= num) by now apply elements_nonneg.
  assert (El : elements (lead ++ h :: w :: tail) = elements [num; h; w; ch]) by (rewrite elements_app; cbn [elements]; fold ch num; ring).
  assert (Rd : forall k sy sx c, 0 <= k < num -> 0 <= sy < h -> 0 <= sx < w -> 0 <= c < ch ->
            0 <= k * (ch * h * w) + ((sy * w + sx) * ch + c) < Z.of_nat (length data)).
  { intros k sy sx c Hk Hsy Hsx Hcc. rewrite Lx, El. pose proof (position_bound _ _ (in_4 num h w ch k sy sx c Hk Hsy Hsx Hcc)) as B. cbn [position elements] in B |- *.
    replace (k * (ch * h * w) + ((sy * w + sx) * ch + c)) with (k * (h * (w * (ch * 1))) + (sy * (w * (ch * 1)) + (sx * (ch * 1) + (c * 1 + 0)))) by ring. exact B. }
  set (rd k c := fun sy sx => load data (k * (ch * h * w) + ((sy * w + sx) * ch + c))).
  assert (Dx : forall k y x0 c, 0 <= k < num -> 0 <= y < h' -> 0 <= x0 < w' -> 0 <= c < ch -> exists a, P (rd k c) y x0 = SOk a).
  { intros k y x0 c Hk Hy Hx Hcc. apply (Px (rd k c) (fun sy sx => match rd k c sy sx with SOk a => a | _ => d0 end)); auto.
    intros sy sx Hsy Hsx. unfold rd. destruct (load_ok data _ (Rd k sy sx c Hk Hsy Hsx Hcc)) as (a & -> & _). reflexivity. }
  set (PP i := match i with [k; y; x0; c] => P (rd k c) y x0 | _ => SUndef end).
  set (g i := match PP i with SOk a => a | _ => d0 end).
  assert (Eo : elements (lead ++ h' :: w' :: tail) = elements [num; h'; w'; ch]) by (rewrite elements_app; cbn [elements]; fold ch num; ring).
  set (tr := map _ _).
  destruct (grid (elements (lead ++ h' :: w' :: tail)) [num; h'; w'; ch] g tr) as (o & Ex & Lo & Go).
  - repeat (constructor; [lia|]). constructor.
  - exact Eo.
  - intros d v Hd. unfold tr in Hd. apply in_map_iff in Hd. destruct Hd as (i & E & Hi). apply In_loops in Hi. pose proof Hi as Hi'. apply inside_4 in Hi'. destruct Hi' as (k & y & x0 & c & -> & Hk & Hy & Hx & Hcc).
    apply pair_equal_spec in E. destruct E as [<- <-]. exists [k; y; x0; c]. split; [exact Hi|]. split; [cbn [position elements]; ring|]. unfold g, PP.
    destruct (Dx k y x0 c Hk Hy Hx Hcc) as [a Ea]. rewrite Ea. unfold rd in Ea. exact Ea.
  - intros i Hi. pose proof Hi as Hi'. apply inside_4 in Hi'. destruct Hi' as (k & y & x0 & c & -> & Hk & Hy & Hx & Hcc). eexists. unfold tr. apply in_map_iff. exists [k; y; x0; c]. split; [|now apply In_loops].
    apply pair_equal_spec. split; [cbn [position elements]; ring|reflexivity].
  - exists o. split; [exact Ex|]. split; [rewrite Lo; now symmetry|].
    intros r y x0 t Hr Hy Hx Ht. pose proof (inside_length _ _ Hr) as Lr. pose proof (inside_length _ _ Ht) as Ltt. pose proof (position_bound _ _ Hr) as Br. pose proof (position_bound _ _ Ht) as Bt. fold num in Br. fold ch in Bt.
    exists (rd (position lead r) (position tail t)). split; [|split].
    * intros sy sx a Hsy Hsx. unfold rd. rewrite pixel_place by auto. fold ch. destruct (load_ok data _ (Rd _ _ _ _ Br Hsy Hsx Bt)) as (b & -> & ->). split; congruence.
    * intros sy sx Hsy Hsx. unfold rd. destruct (load_ok data _ (Rd _ _ _ _ Br Hsy Hsx Bt)) as (b & -> & _). eauto.
    * intros a Ea. destruct (Go [position lead r; y; x0; position tail t] (in_4 _ _ _ _ _ _ _ _ Br Hy Hx Bt)) as [G _]. rewrite pixel_place by auto. fold ch.
      cbn [position elements] in G. unfold g, PP in G. rewrite Ea in G. rewrite <- G. f_equal. f_equal. ring.
Qed.
End Elements.

Section Operator.
Context {A : Type}.
Variable to_q : A -> Q.
Variable cast : Q -> A.
(** the axes: from the front, or counted from the end *)
Lemma affine_elements type dim outer (a b c d e f g0 h0 i0 : Q) adt (x : tensor A) lead h w tail h' w' : 0 <= type <= 3 ->
  wf x -> t_shape x = lead ++ h :: w :: tail -> (dim = Z.of_nat (length lead) \/ dim = - Z.of_nat (length tail) - 2) -> 0 <= h' -> 0 <= w' -> tile_supports (t_dtype x) = true ->
  (forall at_ v y x0, (forall sy sx, 0 <= sy < h -> 0 <= sx < w -> at_ sy sx = SOk (v sy sx)) -> 0 <= y < h' -> 0 <= x0 < w' ->
     exists z : A, affine_pixel to_q cast type outer h w at_ (transform d e f y x0) (transform a b c y x0) = SOk z) ->
  exists out, affine_sample2d to_q cast type dim outer [h'; w'] (Tn adt [3; 3] [a; b; c; d; e; f; g0; h0; i0]) x = SOk (filled out) /\ wf out /\ t_dtype out = t_dtype x /\ t_shape out = lead ++ h' :: w' :: tail /\
    forall r y x0 t, inside lead r -> 0 <= y < h' -> 0 <= x0 < w' -> inside tail t ->
      exists at_, (forall sy sx z, 0 <= sy < h -> 0 <= sx < w -> at_ sy sx = SOk z <-> elt x (r ++ sy :: sx :: t) = Some z) /\
        (forall sy sx, 0 <= sy < h -> 0 <= sx < w -> exists z, at_ sy sx = SOk z) /\
        forall z, affine_pixel to_q cast type outer h w at_ (transform d e f y x0) (transform a b c y x0) = SOk z -> elt out (r ++ y :: x0 :: t) = Some z.
Proof.
  intros Ht [Nx Lx] Es Hd Hh Hw Sup Px. rewrite Es in Nx, Lx.
  destruct (sampled (cast 0%Q) (fun at_ y x0 => affine_pixel to_q cast type outer h w at_ (transform d e f y x0) (transform a b c y x0)) (t_data x) lead h w tail h' w' _ Nx Lx Hh Hw eq_refl Px) as (o & Ex & Lo & Go).
  exists (Tn (t_dtype x) (lead ++ h' :: w' :: tail) o). split; [|split; [|split; [reflexivity|split; [reflexivity|]]]].
  - unfold affine_sample2d. rewrite (proj2 (Z.leb_le 0 type)), (proj2 (Z.leb_le type 3)) by lia. cbn [andb negb]. rewrite Es, app_length. cbn [length].
    rewrite (proj2 (Z.ltb_ge _ 2)) by lia.
    assert (Ed : (if dim <? 0 then Z.of_nat (length lead + S (S (length tail))) + dim else dim) = Z.of_nat (length lead)).
    { destruct Hd as [->| ->]; [rewrite (proj2 (Z.ltb_ge _ 0)) by lia; reflexivity|]. rewrite (proj2 (Z.ltb_lt _ 0)) by lia. lia. }
    rewrite Ed, (proj2 (Z.leb_le 0 _)), (proj2 (Z.ltb_lt _ (Z.of_nat (length lead + S (S (length tail)))))) by lia. cbn [andb negb].
    rewrite (proj2 (Z.ltb_ge _ 0) Hh), (proj2 (Z.ltb_ge _ 0) Hw). cbn [orb]. cbv zeta. rewrite Nat2Z.id, set_two. cbn [t_shape]. rewrite Sup. cbn [negb t_data].
    rewrite !prod_elements, first_lead, skip_two, !nth_mid, !nth_mid2. unfold affine_events. cbv zeta. cbn [nth]. rewrite Ex. reflexivity.
  - split; cbn [t_shape t_data]; [|exact Lo]. apply Forall_app in Nx. destruct Nx as [Nl Nt]. apply Forall_app. split; [exact Nl|]. inversion Nt as [|? ? _ Nt1]; subst. inversion Nt1; subst. constructor; [exact Hh|]. constructor; assumption.
  - intros r y x0 t Hr Hy Hx Htt. destruct (Go r y x0 t Hr Hy Hx Htt) as (at_ & Q1 & Q2 & Q3). exists at_. unfold elt. cbn [t_shape t_data]. rewrite Es. auto.
Qed.
End Operator.
