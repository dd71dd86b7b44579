(** C126-C128: affine sampling and letterboxing. *)
From Coq Require Import List ZArith QArith Qabs Qround Bool Lia Lqa.
From Verif Require Import ShapeModel ShapeSpec ShapeProofs KernelBase KernelSpec KernelProofs TileModel ResizeModel ResizeSpec ResizeProofs PropsResize AffineModel AffineSpec AffineProofs.
Import ListNotations.
Local Open Scope Z_scope.

(** the two axes sampled, named from the front or from the end *)
Definition names_dim (lead tail : list Z) (dim : Z) : Prop := dim = Z.of_nat (length lead) \/ dim = - Z.of_nat (length tail) - 2.

Lemma transform_image a b c y x : (transform a b c y x == image_of a b c y x)%Q.
Proof. unfold transform, image_of. change (inject_Z 1) with 1%Q. ring. Qed.
Lemma interpolate_proper kernel h w v p p' q q' : (forall a b, a == b -> kernel a == kernel b)%Q -> (p == p')%Q -> (q == q')%Q -> (interpolate kernel h w v p q == interpolate kernel h w v p' q')%Q.
Proof.
  intros K Ep Eq. unfold interpolate. apply qsum_ext. intros y _. apply qsum_ext. intros x _.
  rewrite (K (inject_Z y - p)%Q (inject_Z y - p')%Q), (K (inject_Z x - q)%Q (inject_Z x - q')%Q); [reflexivity| |]; [rewrite Eq|rewrite Ep]; reflexivity.
Qed.
Lemma cut_ok n p : 0 < n -> cut_to n p (clamp n (truncate p)).
Proof.
  intros Hn. unfold cut_to, clamp, truncate. rewrite Z.geb_leb. pose proof (Qgeb_spec p 0) as G. assert (I0 : (inject_Z 0 == 0)%Q) by reflexivity. assert (I1 : (inject_Z 1 == 1)%Q) by reflexivity. destruct (Qgeb p 0).
  - destruct (floor_bounds p) as [F1 F2]. set (s := Qfloor p) in *. clearbody s.
    assert (S0 : 0 <= s). { assert (0 < s + 1); [|lia]. apply inj_lt. rewrite inject_Z_plus. lra. }
    rewrite (proj2 (Z.leb_le 0 s) S0). split; [|split].
    + intros H. assert (s < 1) by (apply inj_lt; lra). destruct (Z.ltb_spec s (n - 1)); lia.
    + intros H. assert (n - 1 < s + 1) by (apply inj_lt; rewrite inject_Z_plus; lra). destruct (Z.ltb_spec s (n - 1)); lia.
    + intros H. assert (s < n) by (apply inj_lt; lra). replace (if s <? n - 1 then s else n - 1) with s by (destruct (Z.ltb_spec s (n - 1)); lia). lra.
  - assert (T : Qceiling p <= 0). { unfold Qceiling. destruct (floor_bounds (- p)%Q) as [F1 F2]. assert (0 < Qfloor (- p) + 1); [|lia]. apply inj_lt. rewrite inject_Z_plus. lra. }
    assert (N : (0 <= inject_Z (n - 1))%Q) by (rewrite <- I0; apply inj_le; lia).
    assert (E : (let n0 := if 0 <=? Qceiling p then Qceiling p else 0 in if n0 <? n - 1 then n0 else n - 1) = 0) by (cbv zeta; destruct (Z.leb_spec 0 (Qceiling p)); [replace (Qceiling p) with 0 by lia|]; destruct (Z.ltb_spec 0 (n - 1)); lia).
    cbv zeta in E. rewrite E. split; [|split]; intros; [reflexivity|lra|lra].
Qed.

(** ** C126: without an outer value every location is answered from the image. *)
Section NoOuter.
Context {A : Type}.
Variable to_q : A -> Q.
Variable cast : Q -> A.
Theorem C126_nearest (a b c d e f g0 h0 i0 : Q) adt dim (x : tensor A) lead h w tail h' w' :
  wf x -> t_shape x = lead ++ h :: w :: tail -> 0 < h -> 0 < w -> names_dim lead tail dim -> 0 <= h' -> 0 <= w' -> tile_supports (t_dtype x) = true ->
  exists out, affine_sample2d to_q cast 2 dim None [h'; w'] (Tn adt [3; 3] [a; b; c; d; e; f; g0; h0; i0]) x = SOk (filled out) /\ wf out /\ t_dtype out = t_dtype x /\ t_shape out = lead ++ h' :: w' :: tail /\
    forall r y x0 t, inside lead r -> 0 <= y < h' -> 0 <= x0 < w' -> inside tail t ->
      exists sy sx, nearest_to h (image_of d e f y x0) sy /\ nearest_to w (image_of a b c y x0) sx /\ elt out (r ++ y :: x0 :: t) = elt x (r ++ sy :: sx :: t).
Proof.
  intros W Es Hh Hw Hd Hh' Hw' Sup.
  destruct (affine_elements to_q cast 2 dim None a b c d e f g0 h0 i0 adt x lead h w tail h' w' ltac:(lia) W Es Hd Hh' Hw' Sup) as (out & E & Wo & Do & So & P).
  { intros at_ v y x0 H _ _. exists (v (clamp h (round (transform d e f y x0))) (clamp w (round (transform a b c y x0)))). apply (affine_point_ok at_ v h w H round); auto. }
  exists out. split; [exact E|]. split; [exact Wo|]. split; [exact Do|]. split; [exact So|]. intros r y x0 t Hr Hy Hx Ht.
  destruct (P r y x0 t Hr Hy Hx Ht) as (at_ & Q1 & Q2 & Q3). set (v sy sx := match at_ sy sx with SOk z => z | _ => cast 0%Q end).
  assert (Hv : forall sy sx, 0 <= sy < h -> 0 <= sx < w -> at_ sy sx = SOk (v sy sx)) by (intros sy sx H1 H2; unfold v; destruct (Q2 sy sx H1 H2) as [z ->]; reflexivity).
  exists (clamp h (round (transform d e f y x0))), (clamp w (round (transform a b c y x0))).
  split; [eapply nearest_to_compat; [apply transform_image|now apply clamp_near]|]. split; [eapply nearest_to_compat; [apply transform_image|now apply clamp_near]|].
  rewrite (Q3 _ (affine_point_ok at_ v h w Hv round None _ _ Hh Hw (or_introl eq_refl))). symmetry. apply Q1; [now apply clamp_bounds|now apply clamp_bounds|]. apply Hv; now apply clamp_bounds.
Qed.
Theorem C126_hard (a b c d e f g0 h0 i0 : Q) adt dim (x : tensor A) lead h w tail h' w' :
  wf x -> t_shape x = lead ++ h :: w :: tail -> 0 < h -> 0 < w -> names_dim lead tail dim -> 0 <= h' -> 0 <= w' -> tile_supports (t_dtype x) = true ->
  exists out, affine_sample2d to_q cast 3 dim None [h'; w'] (Tn adt [3; 3] [a; b; c; d; e; f; g0; h0; i0]) x = SOk (filled out) /\ wf out /\ t_dtype out = t_dtype x /\ t_shape out = lead ++ h' :: w' :: tail /\
    forall r y x0 t, inside lead r -> 0 <= y < h' -> 0 <= x0 < w' -> inside tail t ->
      exists sy sx, cut_to h (image_of d e f y x0) sy /\ cut_to w (image_of a b c y x0) sx /\ elt out (r ++ y :: x0 :: t) = elt x (r ++ sy :: sx :: t).
Proof.
  intros W Es Hh Hw Hd Hh' Hw' Sup.
  destruct (affine_elements to_q cast 3 dim None a b c d e f g0 h0 i0 adt x lead h w tail h' w' ltac:(lia) W Es Hd Hh' Hw' Sup) as (out & E & Wo & Do & So & P).
  { intros at_ v y x0 H _ _. exists (v (clamp h (truncate (transform d e f y x0))) (clamp w (truncate (transform a b c y x0)))). apply (affine_point_ok at_ v h w H truncate); auto. }
  exists out. split; [exact E|]. split; [exact Wo|]. split; [exact Do|]. split; [exact So|]. intros r y x0 t Hr Hy Hx Ht.
  destruct (P r y x0 t Hr Hy Hx Ht) as (at_ & Q1 & Q2 & Q3). set (v sy sx := match at_ sy sx with SOk z => z | _ => cast 0%Q end).
  assert (Hv : forall sy sx, 0 <= sy < h -> 0 <= sx < w -> at_ sy sx = SOk (v sy sx)) by (intros sy sx H1 H2; unfold v; destruct (Q2 sy sx H1 H2) as [z ->]; reflexivity).
  assert (Cc : forall n p q s, (p == q)%Q -> cut_to n p s -> cut_to n q s) by (intros n p q s Epq (K1 & K2 & K3); unfold cut_to; rewrite <- Epq; auto).
  exists (clamp h (truncate (transform d e f y x0))), (clamp w (truncate (transform a b c y x0))).
  split; [eapply Cc; [apply transform_image|now apply cut_ok]|]. split; [eapply Cc; [apply transform_image|now apply cut_ok]|].
  rewrite (Q3 _ (affine_point_ok at_ v h w Hv truncate None _ _ Hh Hw (or_introl eq_refl))). symmetry. apply Q1; [now apply clamp_bounds|now apply clamp_bounds|]. apply Hv; now apply clamp_bounds.
Qed.
Hypothesis Cp : forall p q, (p == q)%Q -> cast p = cast q.
(** Exact arithmetic; images of at least two pixels each way. *)
Theorem C126_linear_partial (a b c d e f g0 h0 i0 : Q) adt dim (x : tensor A) lead h w tail h' w' :
  wf x -> t_shape x = lead ++ h :: w :: tail -> 2 <= h -> 2 <= w -> names_dim lead tail dim -> 0 <= h' -> 0 <= w' -> tile_supports (t_dtype x) = true ->
  exists out, affine_sample2d to_q cast 0 dim None [h'; w'] (Tn adt [3; 3] [a; b; c; d; e; f; g0; h0; i0]) x = SOk (filled out) /\ wf out /\ t_dtype out = t_dtype x /\ t_shape out = lead ++ h' :: w' :: tail /\
    forall r y x0 t, inside lead r -> 0 <= y < h' -> 0 <= x0 < w' -> inside tail t ->
      exists v py px, (forall sy sx, 0 <= sy < h -> 0 <= sx < w -> elt x (r ++ sy :: sx :: t) = Some (v sy sx)) /\
        linear_sample h (image_of d e f y x0) py /\ linear_sample w (image_of a b c y x0) px /\
        (0 <= py < inject_Z (h - 1))%Q /\ (0 <= px < inject_Z (w - 1))%Q /\
        elt out (r ++ y :: x0 :: t) = Some (cast (interpolate tent h w (fun sy sx => to_q (v sy sx)) py px)).
Proof using Cp.
  intros W Es Hh Hw Hd Hh' Hw' Sup.
  destruct (affine_elements to_q cast 0 dim None a b c d e f g0 h0 i0 adt x lead h w tail h' w' ltac:(lia) W Es Hd Hh' Hw' Sup) as (out & E & Wo & Do & So & P).
  { intros at_ v y x0 H _ _. destruct (affine_linear_ok to_q cast Cp at_ v h w H None (transform d e f y x0) (transform a b c y x0) Hh Hw (or_introl eq_refl)) as (py & px & _ & _ & _ & _ & Q). exists (cast (interpolate tent h w (fun sy sx => to_q (v sy sx)) py px)). exact Q. }
  exists out. split; [exact E|]. split; [exact Wo|]. split; [exact Do|]. split; [exact So|]. intros r y x0 t Hr Hy Hx Ht.
  destruct (P r y x0 t Hr Hy Hx Ht) as (at_ & Q1 & Q2 & Q3). set (v sy sx := match at_ sy sx with SOk z => z | _ => cast 0%Q end).
  assert (Hv : forall sy sx, 0 <= sy < h -> 0 <= sx < w -> at_ sy sx = SOk (v sy sx)) by (intros sy sx H1 H2; unfold v; destruct (Q2 sy sx H1 H2) as [z ->]; reflexivity).
  destruct (affine_linear_ok to_q cast Cp at_ v h w Hv None (transform d e f y x0) (transform a b c y x0) Hh Hw (or_introl eq_refl)) as (py & px & S1 & S2 & B1 & B2 & Q).
  assert (Cc : forall n p q s, (p == q)%Q -> linear_sample n p s -> linear_sample n q s) by (intros n p q s Epq (K1 & K2 & K3); unfold linear_sample; rewrite <- Epq; auto).
  exists v, py, px. split; [intros sy sx H1 H2; apply Q1; auto|]. split; [eapply Cc; [apply transform_image|exact S1]|]. split; [eapply Cc; [apply transform_image|exact S2]|]. split; [exact B1|]. split; [exact B2|]. apply Q3. exact Q.
Qed.
Theorem C126_cubic_partial (a b c d e f g0 h0 i0 : Q) adt dim (x : tensor A) lead h w tail h' w' :
  wf x -> t_shape x = lead ++ h :: w :: tail -> 4 <= h -> 4 <= w -> names_dim lead tail dim -> 0 <= h' -> 0 <= w' -> tile_supports (t_dtype x) = true ->
  exists out, affine_sample2d to_q cast 1 dim None [h'; w'] (Tn adt [3; 3] [a; b; c; d; e; f; g0; h0; i0]) x = SOk (filled out) /\ wf out /\ t_dtype out = t_dtype x /\ t_shape out = lead ++ h' :: w' :: tail /\
    forall r y x0 t, inside lead r -> 0 <= y < h' -> 0 <= x0 < w' -> inside tail t ->
      exists v py px, (forall sy sx, 0 <= sy < h -> 0 <= sx < w -> elt x (r ++ sy :: sx :: t) = Some (v sy sx)) /\
        cubic_sample h (image_of d e f y x0) py /\ cubic_sample w (image_of a b c y x0) px /\
        elt out (r ++ y :: x0 :: t) = Some (cast (interpolate keys h w (fun sy sx => to_q (v sy sx)) py px)).
Proof using Cp.
  intros W Es Hh Hw Hd Hh' Hw' Sup.
  destruct (affine_elements to_q cast 1 dim None a b c d e f g0 h0 i0 adt x lead h w tail h' w' ltac:(lia) W Es Hd Hh' Hw' Sup) as (out & E & Wo & Do & So & P).
  { intros at_ v y x0 H _ _. destruct (affine_cubic_ok to_q cast Cp at_ v h w H None (transform d e f y x0) (transform a b c y x0) Hh Hw (or_introl eq_refl)) as (py & px & _ & _ & Q). exists (cast (interpolate keys h w (fun sy sx => to_q (v sy sx)) py px)). exact Q. }
  exists out. split; [exact E|]. split; [exact Wo|]. split; [exact Do|]. split; [exact So|]. intros r y x0 t Hr Hy Hx Ht.
  destruct (P r y x0 t Hr Hy Hx Ht) as (at_ & Q1 & Q2 & Q3). set (v sy sx := match at_ sy sx with SOk z => z | _ => cast 0%Q end).
  assert (Hv : forall sy sx, 0 <= sy < h -> 0 <= sx < w -> at_ sy sx = SOk (v sy sx)) by (intros sy sx H1 H2; unfold v; destruct (Q2 sy sx H1 H2) as [z ->]; reflexivity).
  destruct (affine_cubic_ok to_q cast Cp at_ v h w Hv None (transform d e f y x0) (transform a b c y x0) Hh Hw (or_introl eq_refl)) as (py & px & S1 & S2 & Q).
  assert (Cc : forall n p q s, (p == q)%Q -> cubic_sample n p s -> cubic_sample n q s) by (intros n p q s Epq (K1 & K2 & K3); unfold cubic_sample; rewrite <- Epq; auto).
  exists v, py, px. split; [intros sy sx H1 H2; apply Q1; auto|]. split; [eapply Cc; [apply transform_image|exact S1]|]. split; [eapply Cc; [apply transform_image|exact S2]|]. apply Q3. exact Q.
Qed.
End NoOuter.
(** Another kernel number, axes that do not exist, another number of sizes or another matrix than 3 by 3 are refused. *)
Theorem C126_refused {A} (to_q : A -> Q) cast type dim outer size affine (x : tensor A) :
  (type < 0 \/ 3 < type \/ dim + 1 >= Z.of_nat (length (t_shape x)) \/ dim < - Z.of_nat (length (t_shape x)) \/ dim = -1 \/ length size <> 2%nat \/
   (t_shape affine <> [3; 3] /\ Forall (fun s => 0 <= s) size)) ->
  affine_sample2d to_q cast type dim outer size affine x = SErr.
Proof.
  intros H. unfold affine_sample2d. destruct (Z.leb_spec 0 type); cbn [andb negb]; [|reflexivity]. destruct (Z.leb_spec type 3); cbn [negb]; [|reflexivity].
  set (n := Z.of_nat (length (t_shape x))) in *. destruct (Z.ltb_spec n 2); [reflexivity|]. cbv zeta.
  destruct (Z.leb_spec 0 (if dim <? 0 then n + dim else dim)) as [H3|]; cbn [andb negb]; [|reflexivity]. destruct (Z.ltb_spec ((if dim <? 0 then n + dim else dim) + 1) n) as [H4|]; cbn [negb]; [|reflexivity].
  destruct size as [|sh [|sw [|? ?]]]; try reflexivity.
  destruct H as [H|[H|[H|[H|[H|[H|[H Hs]]]]]]]; try lia; try (destruct (Z.ltb_spec dim 0); lia); try (cbn in H; congruence).
  inversion Hs as [|? ? P1 Hs1]; subst. inversion Hs1 as [|? ? P2 _]; subst. rewrite (proj2 (Z.ltb_ge _ 0) P1), (proj2 (Z.ltb_ge _ 0) P2). cbn [orb].
  destruct (t_shape affine) as [|a [|b [|c l]]]; try reflexivity; try (repeat (destruct a as [|a|a]; try reflexivity); repeat (destruct b as [|b|b]; try reflexivity)).
  exfalso. now apply H.
Qed.
Print Assumptions C126_nearest.
Print Assumptions C126_hard.
Print Assumptions C126_linear_partial.
Print Assumptions C126_cubic_partial.
Print Assumptions C126_refused.
(** turning a picture by a right angle; doubling it *)
Example C126_example : affine_sample2d zq qz_ 2 0 None [3; 2] (Tn 10 [3; 3] [0; 1; 0; -1; 0; 1; 0; 0; 1]%Q) (Tn 2 [2; 3] [1; 2; 3; 4; 5; 6]) = SOk (filled (Tn 2 [3; 2] [4; 1; 5; 2; 6; 3])) /\
  affine_sample2d zq qz_ 0 (-2) None [2; 4] (Tn 10 [3; 3] [1 # 2; 0; 0; 0; 1; 0; 0; 0; 1]%Q) (Tn 2 [2; 2] [10; 20; 30; 40]) = SOk (filled (Tn 2 [2; 4] [10; 15; 19; 19; 29; 34; 39; 39])) /\
  names_dim [] [] 0 /\ names_dim [] [] (-2).
Proof. split; [reflexivity|]. split; [reflexivity|]. split; [left|right]; reflexivity. Qed.

(** ** C127: with an outer value, locations outside of the image get it. *)
Section Outer.
Context {A : Type}.
Variable to_q : A -> Q.
Variable cast : Q -> A.
(** Linear: inside, last row and column excluded, the interpolated value; elsewhere the outer value. *)
Theorem C127_linear_partial (Cp : forall p q, (p == q)%Q -> cast p = cast q) (a b c d e f g0 h0 i0 : Q) adt dim (o : A) (x : tensor A) lead h w tail h' w' :
  wf x -> t_shape x = lead ++ h :: w :: tail -> names_dim lead tail dim -> 0 <= h' -> 0 <= w' -> tile_supports (t_dtype x) = true ->
  exists out, affine_sample2d to_q cast 0 dim (Some o) [h'; w'] (Tn adt [3; 3] [a; b; c; d; e; f; g0; h0; i0]) x = SOk (filled out) /\ wf out /\ t_dtype out = t_dtype x /\ t_shape out = lead ++ h' :: w' :: tail /\
    forall r y x0 t, inside lead r -> 0 <= y < h' -> 0 <= x0 < w' -> inside tail t ->
      (well_inside h w (image_of d e f y x0) (image_of a b c y x0) -> exists v, (forall sy sx, 0 <= sy < h -> 0 <= sx < w -> elt x (r ++ sy :: sx :: t) = Some (v sy sx)) /\
         elt out (r ++ y :: x0 :: t) = Some (cast (interpolate tent h w (fun sy sx => to_q (v sy sx)) (image_of d e f y x0) (image_of a b c y x0)))) /\
      (~ well_inside h w (image_of d e f y x0) (image_of a b c y x0) -> elt out (r ++ y :: x0 :: t) = Some o).
Proof.
  intros W Es Hd Hh' Hw' Sup.
  assert (Two : forall n p, (0 <= p < inject_Z (n - 1))%Q -> 2 <= n). { intros n p Hp. assert (0 < n - 1); [|lia]. apply inj_lt. change (inject_Z 0) with 0%Q. lra. }
  assert (Pix : forall at_ v y x0, (forall sy sx, 0 <= sy < h -> 0 <= sx < w -> at_ sy sx = SOk (v sy sx)) ->
     (well_inside h w (image_of d e f y x0) (image_of a b c y x0) -> affine_linear to_q cast (Some o) h w at_ (transform d e f y x0) (transform a b c y x0) = SOk (cast (interpolate tent h w (fun sy sx => to_q (v sy sx)) (image_of d e f y x0) (image_of a b c y x0)))) /\
     (~ well_inside h w (image_of d e f y x0) (image_of a b c y x0) -> affine_linear to_q cast (Some o) h w at_ (transform d e f y x0) (transform a b c y x0) = SOk o)).
  { intros at_ v y x0 H. assert (Ew : well_inside h w (image_of d e f y x0) (image_of a b c y x0) <-> ((0 <= transform d e f y x0 < inject_Z (h - 1))%Q /\ (0 <= transform a b c y x0 < inject_Z (w - 1))%Q)).
    { unfold well_inside. pose proof (transform_image d e f y x0) as E1. pose proof (transform_image a b c y x0) as E2. rewrite E1, E2. reflexivity. }
    split; intros Hi.
    - rewrite Ew in Hi. destruct Hi as [I1 I2]. destruct (affine_linear_ok to_q cast Cp at_ v h w H (Some o) _ _ (Two _ _ I1) (Two _ _ I2) (or_intror (conj I1 I2))) as (py & px & (_ & S1 & _) & (_ & S2 & _) & _ & _ & ->).
      f_equal. apply Cp. apply interpolate_proper; [intros p q Epq; now rewrite Epq| |]; [rewrite S1 by exact I1|rewrite S2 by exact I2]; apply transform_image.
    - rewrite Ew in Hi. now apply affine_linear_outer. }
  assert (Dec : forall y x0, well_inside h w (image_of d e f y x0) (image_of a b c y x0) \/ ~ well_inside h w (image_of d e f y x0) (image_of a b c y x0)).
  { intros y x0. unfold well_inside. destruct (Qlt_le_dec (image_of d e f y x0) 0); [right; lra|]. destruct (Qlt_le_dec (image_of d e f y x0) (inject_Z (h - 1))); [|right; lra].
    destruct (Qlt_le_dec (image_of a b c y x0) 0); [right; lra|]. destruct (Qlt_le_dec (image_of a b c y x0) (inject_Z (w - 1))); [left|right]; lra. }
  destruct (affine_elements to_q cast 0 dim (Some o) a b c d e f g0 h0 i0 adt x lead h w tail h' w' ltac:(lia) W Es Hd Hh' Hw' Sup) as (out & E & Wo & Do & So & P).
  { intros at_ v y x0 H _ _. change (affine_pixel to_q cast 0) with (@affine_linear A to_q cast). destruct (Pix at_ v y x0 H) as [P1 P2]. destruct (Dec y x0) as [D|D]; [rewrite (P1 D)|rewrite (P2 D)]; eauto. }
  exists out. split; [exact E|]. split; [exact Wo|]. split; [exact Do|]. split; [exact So|]. intros r y x0 t Hr Hy Hx Ht.
  destruct (P r y x0 t Hr Hy Hx Ht) as (at_ & Q1 & Q2 & Q3). set (v sy sx := match at_ sy sx with SOk z => z | _ => cast 0%Q end).
  assert (Hv : forall sy sx, 0 <= sy < h -> 0 <= sx < w -> at_ sy sx = SOk (v sy sx)) by (intros sy sx H1 H2; unfold v; destruct (Q2 sy sx H1 H2) as [z ->]; reflexivity).
  destruct (Pix at_ v y x0 Hv) as [P1 P2]. split; intros D; [exists v; split; [intros sy sx H1 H2; apply Q1; auto|]|]; apply Q3; [exact (P1 D)|exact (P2 D)].
Qed.
(** Nearest (2) and hard (3): the pixel the location is rounded or cut to, if it is in neither the last row nor the last column; otherwise the outer value. *)
Theorem C127_point type to_int (a b c d e f g0 h0 i0 : Q) adt dim (o : A) (x : tensor A) lead h w tail h' w' :
  (type = 2 /\ to_int = round) \/ (type = 3 /\ to_int = truncate) ->
  wf x -> t_shape x = lead ++ h :: w :: tail -> names_dim lead tail dim -> 0 <= h' -> 0 <= w' -> tile_supports (t_dtype x) = true ->
  exists out, affine_sample2d to_q cast type dim (Some o) [h'; w'] (Tn adt [3; 3] [a; b; c; d; e; f; g0; h0; i0]) x = SOk (filled out) /\ wf out /\ t_dtype out = t_dtype x /\ t_shape out = lead ++ h' :: w' :: tail /\
    forall r y x0 t sy sx, inside lead r -> 0 <= y < h' -> 0 <= x0 < w' -> inside tail t ->
      sy = to_int (transform d e f y x0) -> sx = to_int (transform a b c y x0) ->
      (0 <= sy < h - 1 -> 0 <= sx < w - 1 -> elt out (r ++ y :: x0 :: t) = elt x (r ++ sy :: sx :: t)) /\
      (~ (0 <= sy < h - 1 /\ 0 <= sx < w - 1) -> elt out (r ++ y :: x0 :: t) = Some o).
Proof.
  intros Ht W Es Hd Hh' Hw' Sup.
  assert (Et : affine_pixel to_q cast type = affine_point to_int) by (destruct Ht as [[-> ->]|[-> ->]]; reflexivity).
  assert (Tr : 0 <= type <= 3) by (destruct Ht as [[-> _]|[-> _]]; lia). clear Ht.
  assert (Cl : forall n s, 0 <= s < n - 1 -> clamp n s = s). { intros n s Hs. unfold clamp. rewrite Z.geb_leb, (proj2 (Z.leb_le 0 s)), (proj2 (Z.ltb_lt s (n - 1))) by lia. reflexivity. }
  assert (Pix : forall at_ v ly lx, (forall sy sx, 0 <= sy < h -> 0 <= sx < w -> at_ sy sx = SOk (v sy sx)) ->
     (0 <= to_int ly < h - 1 /\ 0 <= to_int lx < w - 1 -> affine_point to_int (Some o) h w at_ ly lx = SOk (v (to_int ly) (to_int lx)))).
  { intros at_ v ly lx H Hi. rewrite (affine_point_ok at_ v h w H to_int (Some o) ly lx) by (try lia; now right). now rewrite !Cl by tauto. }
  destruct (affine_elements to_q cast type dim (Some o) a b c d e f g0 h0 i0 adt x lead h w tail h' w' Tr W Es Hd Hh' Hw' Sup) as (out & E & Wo & Do & So & P).
  { intros at_ v y x0 H _ _. rewrite Et. set (ly := transform d e f y x0). set (lx := transform a b c y x0).
    assert (D : (0 <= to_int ly < h - 1 /\ 0 <= to_int lx < w - 1) \/ ~ (0 <= to_int ly < h - 1 /\ 0 <= to_int lx < w - 1)) by lia.
    destruct D as [D|D]; [rewrite (Pix at_ v ly lx H D)|rewrite affine_point_outer by exact D]; eauto. }
  exists out. split; [exact E|]. split; [exact Wo|]. split; [exact Do|]. split; [exact So|]. intros r y x0 t sy sx Hr Hy Hx Ht -> ->.
  destruct (P r y x0 t Hr Hy Hx Ht) as (at_ & Q1 & Q2 & Q3). rewrite Et in Q3. set (v sy sx := match at_ sy sx with SOk z => z | _ => cast 0%Q end).
  assert (Hv : forall sy sx, 0 <= sy < h -> 0 <= sx < w -> at_ sy sx = SOk (v sy sx)) by (intros sy sx H1 H2; unfold v; destruct (Q2 sy sx H1 H2) as [z ->]; reflexivity).
  split.
  - intros D1 D2. rewrite (Q3 _ (Pix at_ v _ _ Hv (conj D1 D2))). symmetry. apply Q1; [lia|lia|]. apply Hv; lia.
  - intros D. apply Q3. now apply affine_point_outer.
Qed.
(** Cubic: between the second row and column and the fourth from the end, the interpolated value; elsewhere the outer value. *)
Theorem C127_cubic_partial (Cp : forall p q, (p == q)%Q -> cast p = cast q) (a b c d e f g0 h0 i0 : Q) adt dim (o : A) (x : tensor A) lead h w tail h' w' :
  wf x -> t_shape x = lead ++ h :: w :: tail -> names_dim lead tail dim -> 0 <= h' -> 0 <= w' -> tile_supports (t_dtype x) = true ->
  exists out, affine_sample2d to_q cast 1 dim (Some o) [h'; w'] (Tn adt [3; 3] [a; b; c; d; e; f; g0; h0; i0]) x = SOk (filled out) /\ wf out /\ t_dtype out = t_dtype x /\ t_shape out = lead ++ h' :: w' :: tail /\
    forall r y x0 t, inside lead r -> 0 <= y < h' -> 0 <= x0 < w' -> inside tail t ->
      (cubic_inside h w (image_of d e f y x0) (image_of a b c y x0) -> exists v, (forall sy sx, 0 <= sy < h -> 0 <= sx < w -> elt x (r ++ sy :: sx :: t) = Some (v sy sx)) /\
         elt out (r ++ y :: x0 :: t) = Some (cast (interpolate keys h w (fun sy sx => to_q (v sy sx)) (image_of d e f y x0) (image_of a b c y x0)))) /\
      (~ cubic_inside h w (image_of d e f y x0) (image_of a b c y x0) -> elt out (r ++ y :: x0 :: t) = Some o).
Proof.
  intros W Es Hd Hh' Hw' Sup.
  assert (Fl : forall n p q, (p == q)%Q -> (1 <= Qfloor p < n - 3 <-> (1 <= q < inject_Z (n - 3))%Q)).
  { intros n p q Epq. destruct (floor_bounds p) as [F1 F2]. set (s := Qfloor p) in *. clearbody s. assert (I1 : (inject_Z 1 == 1)%Q) by reflexivity. split; intros [H1 H2].
    - apply inj_le in H1. assert (H3 : s + 1 <= n - 3) by lia. apply inj_le in H3. rewrite inject_Z_plus in H3. lra.
    - split; [|apply inj_lt; lra]. assert (0 < s); [|lia]. apply inj_lt. change (inject_Z 0) with 0%Q. destruct (Qlt_le_dec 0 (inject_Z s)); lra. }
  assert (Four : forall n p, (1 <= p < inject_Z (n - 3))%Q -> 4 <= n). { intros n p Hp. assert (1 < n - 3); [|lia]. apply inj_lt. change (inject_Z 1) with 1%Q. lra. }
  assert (Pix : forall at_ v y x0, (forall sy sx, 0 <= sy < h -> 0 <= sx < w -> at_ sy sx = SOk (v sy sx)) ->
     (cubic_inside h w (image_of d e f y x0) (image_of a b c y x0) -> affine_cubic to_q cast (Some o) h w at_ (transform d e f y x0) (transform a b c y x0) = SOk (cast (interpolate keys h w (fun sy sx => to_q (v sy sx)) (image_of d e f y x0) (image_of a b c y x0)))) /\
     (~ cubic_inside h w (image_of d e f y x0) (image_of a b c y x0) -> affine_cubic to_q cast (Some o) h w at_ (transform d e f y x0) (transform a b c y x0) = SOk o)).
  { intros at_ v y x0 H. pose proof (Fl h _ _ (transform_image d e f y x0)) as F1. pose proof (Fl w _ _ (transform_image a b c y x0)) as F2. unfold cubic_inside. split; intros Hi.
    - destruct Hi as [I1 I2]. destruct (affine_cubic_ok to_q cast Cp at_ v h w H (Some o) (transform d e f y x0) (transform a b c y x0) (Four _ _ I1) (Four _ _ I2) (or_intror (conj (proj2 F1 I1) (proj2 F2 I2)))) as (py & px & (S1 & _) & (S2 & _) & ->).
      f_equal. apply Cp. pose proof (transform_image d e f y x0) as E1. pose proof (transform_image a b c y x0) as E2. apply interpolate_proper; [intros p q Epq; now rewrite Epq| |]; [rewrite S1, E1|rewrite S2, E2]; try reflexivity; rewrite ?E1, ?E2; assumption.
    - apply affine_cubic_outer. intros [J1 J2]. apply Hi. split; [now apply F1|now apply F2]. }
  assert (Dec : forall y x0, cubic_inside h w (image_of d e f y x0) (image_of a b c y x0) \/ ~ cubic_inside h w (image_of d e f y x0) (image_of a b c y x0)).
  { intros y x0. unfold cubic_inside. destruct (Qlt_le_dec (image_of d e f y x0) 1); [right; lra|]. destruct (Qlt_le_dec (image_of d e f y x0) (inject_Z (h - 3))); [|right; lra].
    destruct (Qlt_le_dec (image_of a b c y x0) 1); [right; lra|]. destruct (Qlt_le_dec (image_of a b c y x0) (inject_Z (w - 3))); [left|right]; lra. }
  destruct (affine_elements to_q cast 1 dim (Some o) a b c d e f g0 h0 i0 adt x lead h w tail h' w' ltac:(lia) W Es Hd Hh' Hw' Sup) as (out & E & Wo & Do & So & P).
  { intros at_ v y x0 H _ _. change (affine_pixel to_q cast 1) with (@affine_cubic A to_q cast). destruct (Pix at_ v y x0 H) as [P1 P2]. destruct (Dec y x0) as [D|D]; [rewrite (P1 D)|rewrite (P2 D)]; eauto. }
  exists out. split; [exact E|]. split; [exact Wo|]. split; [exact Do|]. split; [exact So|]. intros r y x0 t Hr Hy Hx Ht.
  destruct (P r y x0 t Hr Hy Hx Ht) as (at_ & Q1 & Q2 & Q3). set (v sy sx := match at_ sy sx with SOk z => z | _ => cast 0%Q end).
  assert (Hv : forall sy sx, 0 <= sy < h -> 0 <= sx < w -> at_ sy sx = SOk (v sy sx)) by (intros sy sx H1 H2; unfold v; destruct (Q2 sy sx H1 H2) as [z ->]; reflexivity).
  destruct (Pix at_ v y x0 Hv) as [P1 P2]. split; intros D; [exists v; split; [intros sy sx H1 H2; apply Q1; auto|]|]; apply Q3; [exact (P1 D)|exact (P2 D)].
Qed.
End Outer.
Print Assumptions C127_cubic_partial.
Print Assumptions C127_linear_partial.
Print Assumptions C127_point.
Definition identity : tensor Q := Tn 10 [3; 3] [1; 0; 0; 0; 1; 0; 0; 0; 1]%Q.
Example C127_example : affine_sample2d zq qz_ 0 0 (Some 99) [3; 3] (Tn 10 [3; 3] [1; 0; - (1); 0; 1; - (1); 0; 0; 1]%Q) (Tn 2 [3; 3] [1; 2; 3; 4; 5; 6; 7; 8; 9]) = SOk (filled (Tn 2 [3; 3] [99; 99; 99; 99; 1; 2; 99; 4; 5])).
Proof. reflexivity. Qed.
(** The transformation that moves nothing, on any image and with every kernel: all of the last row is lost. *)
Theorem C127_identity_refuted : forall type, type = 0 \/ type = 2 \/ type = 3 -> exists (x : tensor Z) out, wf x /\ t_shape x = [3; 3] /\
  affine_sample2d zq qz_ type 0 (Some 99) [3; 3] identity x = SOk (filled out) /\
  elt x [1; 1] = Some 5 /\ elt out [1; 1] = Some 5 /\ elt x [2; 1] = Some 8 /\ elt out [2; 1] = Some 99 /\ elt x [1; 2] = Some 6 /\ elt out [1; 2] = Some 99.
Proof.
  intros type Ht. exists (Tn 2 [3; 3] [1; 2; 3; 4; 5; 6; 7; 8; 9]), (Tn 2 [3; 3] [1; 2; 99; 4; 5; 99; 99; 99; 99]).
  split; [split; [repeat constructor; lia|reflexivity]|]. split; [reflexivity|]. destruct Ht as [->|[->| ->]]; repeat (split; [reflexivity|]); reflexivity.
Qed.
(** Hard sampling takes locations up to a whole pixel outside of the image for inside. *)
Theorem C127_outside_refuted : exists (x : tensor Z) out, wf x /\ affine_sample2d zq qz_ 3 0 (Some 99) [3; 3] (Tn 10 [3; 3] [1; 0; - (3 # 4); 0; 1; 0; 0; 0; 1]%Q) x = SOk (filled out) /\
  (image_of 1 0 (- (3 # 4)) 0 0 == - (3 # 4))%Q /\ elt out [0; 0] = Some 1.
Proof.
  exists (Tn 2 [3; 3] [1; 2; 3; 4; 5; 6; 7; 8; 9]), (Tn 2 [3; 3] [1; 1; 2; 4; 4; 5; 99; 99; 99]). split; [split; [repeat constructor; lia|reflexivity]|]. split; [reflexivity|]. split; reflexivity.
Qed.
Print Assumptions C127_identity_refuted.
Print Assumptions C127_outside_refuted.

(** ** C128: letterboxing. *)
Lemma scale_pos a b : 0 < a -> 0 < b -> (0 < inject_Z a / inject_Z b)%Q.
Proof. intros Ha Hb. apply Qlt_shift_div_l; [change 0%Q with (inject_Z 0); now apply inj_lt|]. rewrite Qmult_0_l. change 0%Q with (inject_Z 0). now apply inj_lt. Qed.
(** the output has the size asked for (width first), and shows the image scaled by
    the largest factor with which it fits, from the first row and column on; what
    is not [well_inside] gets the outer value *)
Theorem C128_letterbox_partial {A} (to_q : A -> Q) cast (Cp : forall p q, (p == q)%Q -> cast p = cast q) (o : A) (x : tensor A) n h w ch size h' w' :
  wf x -> t_shape x = [n; h; w; ch] -> 0 < h -> 0 < w -> (size = [w'; h'] \/ (size = [h'] /\ w' = h')) -> 0 < h' -> 0 < w' -> tile_supports (t_dtype x) = true ->
  exists s out, fit_scale h w h' w' s /\ (0 < s)%Q /\ nhwc_letterbox to_q cast 0 o size x = SOk (filled out) /\ wf out /\ t_dtype out = t_dtype x /\ t_shape out = [n; h'; w'; ch] /\
    forall k y x0 c, 0 <= k < n -> 0 <= y < h' -> 0 <= x0 < w' -> 0 <= c < ch ->
      (well_inside h w (inject_Z y / s) (inject_Z x0 / s) -> exists v, (forall sy sx, 0 <= sy < h -> 0 <= sx < w -> elt x [k; sy; sx; c] = Some (v sy sx)) /\
         elt out [k; y; x0; c] = Some (cast (interpolate tent h w (fun sy sx => to_q (v sy sx)) (inject_Z y / s) (inject_Z x0 / s)))) /\
      (~ well_inside h w (inject_Z y / s) (inject_Z x0 / s) -> elt out [k; y; x0; c] = Some o).
Proof.
  intros W Es Hh Hw Hs Hh' Hw' Sup. set (xs := (inject_Z w' / inject_Z w)%Q). set (ys := (inject_Z h' / inject_Z h)%Q). set (s := if Qltb ys xs then ys else xs).
  assert (Hhq : (0 < inject_Z h)%Q) by (change 0%Q with (inject_Z 0); now apply inj_lt). assert (Hwq : (0 < inject_Z w)%Q) by (change 0%Q with (inject_Z 0); now apply inj_lt).
  assert (X : (xs * inject_Z w == inject_Z w')%Q) by (unfold xs; field; lra). assert (Y : (ys * inject_Z h == inject_Z h')%Q) by (unfold ys; field; lra).
  assert (X0 : (0 < xs)%Q) by now apply scale_pos. assert (Y0 : (0 < ys)%Q) by now apply scale_pos.
  assert (S : fit_scale h w h' w' s /\ (0 < s)%Q).
  { unfold s. pose proof (Qltb_spec ys xs) as L. clearbody xs ys. destruct (Qltb ys xs); (split; [|assumption]); unfold fit_scale.
    - split; [lra|]. split; [|left; exact Y]. rewrite <- X. apply Qmult_le_r; [exact Hwq|]. lra.
    - split; [|split; [lra|right; exact X]]. rewrite <- Y. apply Qmult_le_r; [exact Hhq|exact L]. }
  assert (Ef : nhwc_letterbox to_q cast 0 o size x = affine_sample2d to_q cast 0 1 (Some o) [h'; w'] (Tn 10 [3; 3] [1 / s; 0; 0; 0; 1 / s; 0; 0; 0; 1]%Q) x).
  { unfold nhwc_letterbox. assert (El : letter_size size = Some (h', w')) by (destruct Hs as [->|[-> ->]]; reflexivity). rewrite El, Es.
    rewrite (proj2 (Z.ltb_lt 0 h) Hh), (proj2 (Z.ltb_lt 0 w) Hw), (proj2 (Z.ltb_lt 0 h') Hh'), (proj2 (Z.ltb_lt 0 w') Hw'). reflexivity. }
  destruct S as [S1 S2]. clearbody s. clear xs ys X Y X0 Y0.
  destruct (C127_linear_partial to_q cast Cp (1 / s) 0 0 0 (1 / s) 0 0 0 1 10 1 o x [n] h w [ch] h' w' W Es ltac:(left; reflexivity) ltac:(lia) ltac:(lia) Sup) as (out & E & Wo & Do & So & P).
  exists s, out. split; [exact S1|]. split; [exact S2|]. rewrite Ef. split; [exact E|]. split; [exact Wo|]. split; [exact Do|]. split; [exact So|].
  intros k y x0 c Hk Hy Hx Hc. destruct (P [k] y x0 [c]) as [P1 P2]; [constructor; [exact Hk|constructor]|exact Hy|exact Hx|constructor; [exact Hc|constructor]|]. cbn [app] in P1, P2.
  assert (I1 : (image_of 0 (1 / s) 0 y x0 == inject_Z y / s)%Q) by (unfold image_of; field; lra). assert (I2 : (image_of (1 / s) 0 0 y x0 == inject_Z x0 / s)%Q) by (unfold image_of; field; lra).
  assert (Ew : well_inside h w (image_of 0 (1 / s) 0 y x0) (image_of (1 / s) 0 0 y x0) <-> well_inside h w (inject_Z y / s) (inject_Z x0 / s)).
  { unfold well_inside. rewrite I1, I2. reflexivity. }
  rewrite Ew in P1, P2. split; [|exact P2]. intros Hi. destruct (P1 Hi) as (v & V1 & V2). exists v. split; [exact V1|]. rewrite V2. f_equal. apply Cp. apply interpolate_proper; [intros p q Epq; now rewrite Epq|exact I1|exact I2].
Qed.
(** Only images [n; h; w; c] and one or two sizes are taken. *)
Theorem C128_refused {A} (to_q : A -> Q) cast type (o : A) size (x : tensor A) : length (t_shape x) <> 4%nat \/ (length size <> 1%nat /\ length size <> 2%nat) ->
  nhwc_letterbox to_q cast type o size x = SErr.
Proof.
  intros H. unfold nhwc_letterbox. destruct size as [|a [|b [|c size]]]; cbn [letter_size length] in *; try reflexivity; destruct (t_shape x) as [|? [|? [|? [|? [|? ?]]]]]; cbn [length] in H; try reflexivity; exfalso; lia.
Qed.
Print Assumptions C128_letterbox_partial.
Print Assumptions C128_refused.
Example C128_example : nhwc_letterbox zq qz_ 0 99 [4; 6] (Tn 2 [1; 3; 2; 1] [0; 10; 20; 30; 40; 50]) =
  SOk (filled (Tn 2 [1; 6; 4; 1] [0; 5; 99; 99; 10; 15; 99; 99; 20; 25; 99; 99; 30; 35; 99; 99; 99; 99; 99; 99; 99; 99; 99; 99])) /\ fit_scale 3 2 6 4 2.
Proof. split; [reflexivity|]. unfold fit_scale. split; [discriminate|]. split; [discriminate|]. left. reflexivity. Qed.
(** A box of the size of the image, which must show the image: its last row and column are lost. *)
Theorem C128_same_size_refuted : exists (x : tensor Z) out, wf x /\ t_shape x = [1; 3; 3; 1] /\ fit_scale 3 3 3 3 1 /\ nhwc_letterbox zq qz_ 0 99 [3] x = SOk (filled out) /\
  out = Tn 2 [1; 3; 3; 1] [1; 2; 99; 4; 5; 99; 99; 99; 99].
Proof.
  exists (Tn 2 [1; 3; 3; 1] [1; 2; 3; 4; 5; 6; 7; 8; 9]), (Tn 2 [1; 3; 3; 1] [1; 2; 99; 4; 5; 99; 99; 99; 99]). split; [split; [repeat constructor; lia|reflexivity]|]. split; [reflexivity|].
  split; [unfold fit_scale; split; [discriminate|split; [discriminate|left; reflexivity]]|]. split; reflexivity.
Qed.
Print Assumptions C128_same_size_refuted.
