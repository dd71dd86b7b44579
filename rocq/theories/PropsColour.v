(** C123, C124: force_gray and force_color. *)
From Coq Require Import List ZArith Bool Lia SpecFloat.
From Verif Require Import ShapeModel ShapeSpec ShapeProofs KernelBase KernelSpec KernelProofs TileModel WinogradProofs PropsTopk ColourModel ColourSpec.
Import ListNotations.
Local Open Scope Z_scope.

Section Gray.
Context {A S F : Type}.
Variable mul : F -> A -> S.
Variable add : S -> S -> S.
Variable zero : S.
Variable conv : S -> sres A.
Variable bgr : list F.

Lemma gray_sum_row w data at_ row : forall acc, 0 <= at_ -> length w = length row ->
  (forall j, (j < length row)%nat -> nth_error data (Z.to_nat at_ + j) = nth_error row j) ->
  gray_sum mul add w data at_ acc = SOk (weighted mul add acc w row).
Proof.
  revert at_ row. induction w as [|s w IH]; intros at_ [|a row] acc H0 L H; try discriminate; [reflexivity|].
  cbn [gray_sum weighted]. assert (E : load data at_ = SOk a).
  { apply load_inv. split; [exact H0|]. rewrite <- (Nat.add_0_r (Z.to_nat at_)). exact (H 0%nat ltac:(cbn; lia)). }
  rewrite E. apply IH; [lia|now injection L|].
  intros j Hj. replace (Z.to_nat (at_ + 1) + j)%nat with (Z.to_nat at_ + Datatypes.S j)%nat by lia. exact (H (Datatypes.S j) ltac:(cbn; lia)).
Qed.

(** the pixel at a coordinate of the leading axes *)
Definition pixel (x : tensor A) (C : Z) (r : list Z) (row : list A) : Prop :=
  Z.of_nat (length row) = C /\ forall j, 0 <= j < C -> elt x (r ++ [j]) = nth_error row (Z.to_nat j).

Lemma pixel_exists x lead C r : wf x -> t_shape x = lead ++ [C] -> inside lead r ->
  exists row, pixel x C r row /\ Z.of_nat (length row) = C /\ 0 <= position lead r * C /\
    forall j, (j < length row)%nat -> nth_error (t_data x) (Z.to_nat (position lead r * C) + j) = nth_error row j.
Proof using Type.
  intros [Wn Wl] Es Ir. rewrite Es in Wn, Wl. apply Forall_app in Wn. destruct Wn as [Hn Hc]. inversion Hc as [|? ? HC _]; subst.
  rewrite elements_app in Wl. cbn [elements] in Wl. pose proof (position_bound _ _ Ir) as B.
  set (p := position lead r) in *. exists (firstn (Z.to_nat C) (skipn (Z.to_nat (p * C)) (t_data x))).
  assert (Hb : p * C + C <= Z.of_nat (length (t_data x))) by nia.
  assert (Hp : 0 <= p * C) by nia.
  assert (L : length (firstn (Z.to_nat C) (skipn (Z.to_nat (p * C)) (t_data x))) = Z.to_nat C).
  { rewrite firstn_length, skipn_length. lia. }
  assert (N : forall j, (j < Z.to_nat C)%nat -> nth_error (t_data x) (Z.to_nat (p * C) + j) = nth_error (firstn (Z.to_nat C) (skipn (Z.to_nat (p * C)) (t_data x))) j).
  { intros j Hj. rewrite <- (firstn_skipn (Z.to_nat (p * C)) (t_data x)) at 1. rewrite nth_error_app2; rewrite firstn_length_le by lia; [|lia].
    replace (Z.to_nat (p * C) + j - Z.to_nat (p * C))%nat with j by lia.
    rewrite <- (firstn_skipn (Z.to_nat C) (skipn (Z.to_nat (p * C)) (t_data x))) at 1. rewrite nth_error_app1 by lia. reflexivity. }
  split; [|split; [|split]].
  - split; [lia|]. intros j Hj. unfold elt. rewrite Es, row_pos by (symmetry; exact (inside_length _ _ Ir)).
    fold p. rewrite <- N by lia. f_equal. lia.
  - lia.
  - exact Hp.
  - intros j Hj. apply N. lia.
Qed.

Lemma gray_kernel_ok w x lead C : wf x -> t_shape x = lead ++ [C] -> tile_supports (t_dtype x) = true ->
  Z.of_nat (length w) = C ->
  (forall r row, inside lead r -> pixel x C r row -> exists v, conv (weighted mul add zero w row) = SOk v) ->
  exists out, gray_kernel mul add zero conv w x lead C = SOk (filled out) /\ wf out /\
    t_dtype out = t_dtype x /\ t_shape out = lead ++ [1] /\
    forall r, inside lead r -> exists row v, pixel x C r row /\
      conv (weighted mul add zero w row) = SOk v /\ elt out (r ++ [0]) = Some v.
Proof using Type.
  intros W Es Sup Lw Cv. unfold gray_kernel. rewrite Sup. cbn [negb]. cbv zeta.
  assert (Hn : Forall (fun d => 0 <= d) lead).
  { destruct W as [Wn _]. rewrite Es in Wn. apply Forall_app in Wn. apply Wn. }
  assert (P1 : prod (lead ++ [1]) = elements lead * 1) by (rewrite prod_elements, elements_app; cbn; lia).
  pose proof (elements_nonneg lead Hn) as Hnn. rewrite P1, prod_elements.
  assert (G : forall i, 0 <= i < elements lead -> exists v, gray_pixel mul add zero conv w (t_data x) C i = SOk v /\
            forall r, inside lead r -> position lead r = i -> exists row, pixel x C r row /\ conv (weighted mul add zero w row) = SOk v).
  { intros i Hi. destruct (coordinate_of lead i Hn Hi) as (r & Ir & Er).
    destruct (pixel_exists x lead C r W Es Ir) as (row & Pr & Lr & H0 & N). rewrite Er in H0, N.
    destruct (Cv r row Ir Pr) as (v & Hv). exists v. split.
    - unfold gray_pixel. rewrite (gray_sum_row w (t_data x) (i * C) row zero H0) by (auto; lia). exact Hv.
    - intros r' Ir' Er'. assert (r' = r) as -> by (apply (position_inj lead); auto; lia). exists row. auto. }
  set (tr := map (fun i => (i * 1, gray_pixel mul add zero conv w (t_data x) C i)) (upto (elements lead))).
  destruct (exec_once (elements lead * 1) tr) as (_ & data & Ex & Ld & Nd).
  - unfold tr. rewrite map_length, length_upto. lia.
  - intros d v Hd. unfold tr in Hd. apply in_map_iff in Hd. destruct Hd as (i & E & Hi). apply In_upto in Hi.
    apply pair_equal_spec in E. destruct E as [<- <-]. destruct (G i Hi) as (v & Hv & _). split; [lia|]. exists v. exact Hv.
  - intros d Hd. unfold tr. rewrite map_map. cbn [fst]. apply in_map_iff. exists d. split; [lia|]. apply In_upto. lia.
  - rewrite Ex. exists (Tn (t_dtype x) (lead ++ [1]) data). split; [reflexivity|]. split; [|split; [reflexivity|split; [reflexivity|]]].
    + split; [apply Forall_app; split; [exact Hn|constructor; [lia|constructor]]|]. cbn [t_shape t_data]. rewrite elements_app. cbn [elements]. lia.
    + intros r Ir. pose proof (position_bound _ _ Ir) as B. destruct (G _ B) as (v & Hv & Hr). destruct (Hr r Ir eq_refl) as (row & Pr & Cr).
      exists row, v. split; [exact Pr|split; [exact Cr|]]. unfold elt. cbn [t_shape t_data].
      rewrite row_pos by (symmetry; now apply inside_length). replace (position lead r * 1 + 0) with (position lead r * 1) by lia. apply Nd.
      unfold tr. apply in_map_iff. exists (position lead r). split; [now rewrite Hv|]. now apply In_upto.
Qed.

Lemma rev_snoc (s lead : list Z) C : s = lead ++ [C] -> rev s = C :: rev lead.
Proof. intros ->. apply rev_unit. Qed.

(** C123.  force_gray replaces the channels of every pixel by one: the sum of the
    channels times the weights given (or, for three channels and no weights, the
    default weights), computed in order and converted to the element type. *)
Theorem C123_force_gray scale x lead C : wf x -> t_shape x = lead ++ [C] -> C <> 1 ->
  tile_supports (t_dtype x) = true -> length bgr = 3%nat ->
  let w := match scale with [] => bgr | _ => scale end in
  Z.of_nat (length w) = C ->
  (forall r row, inside lead r -> pixel x C r row -> exists v, conv (weighted mul add zero w row) = SOk v) ->
  exists out, force_gray mul add zero conv bgr scale x = SOk (filled out) /\ wf out /\
    t_dtype out = t_dtype x /\ t_shape out = lead ++ [1] /\
    forall r, inside lead r -> exists row v, pixel x C r row /\
      conv (weighted mul add zero w row) = SOk v /\ elt out (r ++ [0]) = Some v.
Proof using Type.
  intros W Es N1 Sup L3 w Lw Cv. unfold force_gray. rewrite (rev_snoc _ _ _ Es), rev_involutive.
  rewrite (proj2 (Z.eqb_neq C 1) N1).
  pose proof (gray_kernel_ok w x lead C W Es Sup Lw Cv) as K. destruct scale as [|s scale]; cbn [w] in *.
  - replace (C =? 3) with true by (symmetry; apply Z.eqb_eq; subst w; lia). exact K.
  - replace (C =? Z.of_nat (length (s :: scale))) with true by (symmetry; apply Z.eqb_eq; subst w; lia). exact K.
Qed.

(** An image with one channel is returned as it is, whatever its type and the weights. *)
Theorem C123_gray_unchanged scale x lead : t_shape x = lead ++ [1] ->
  force_gray mul add zero conv bgr scale x = SOk (filled x).
Proof using Type. intros Es. unfold force_gray. rewrite (rev_snoc _ _ _ Es). destruct x. reflexivity. Qed.

(** Everything else is refused: no axis, channels and weights of different
    number, other than three channels without weights, types without a kernel. *)
Theorem C123_refused scale x : length bgr = 3%nat ->
  t_shape x = [] \/
  (exists lead C, t_shape x = lead ++ [C] /\ C <> 1 /\
    (Z.of_nat (length match scale with [] => bgr | _ => scale end) <> C \/ tile_supports (t_dtype x) = false)) ->
  force_gray mul add zero conv bgr scale x = SErr.
Proof using Type.
  intros L3 [E|(lead & C & Es & N1 & H)]; unfold force_gray.
  - rewrite E. reflexivity.
  - rewrite (rev_snoc _ _ _ Es), rev_involutive, (proj2 (Z.eqb_neq C 1) N1).
    destruct scale as [|s scale].
    + destruct (Z.eqb_spec C 3) as [E3|]; [|reflexivity]. cbn [negb]. unfold gray_kernel. destruct H as [H|H]; [lia|]. now rewrite H.
    + destruct (Z.eqb_spec C (Z.of_nat (length (s :: scale)))) as [E3|]; [|reflexivity]. cbn [negb]. unfold gray_kernel. destruct H as [H|H]; [lia|]. now rewrite H.
Qed.
End Gray.
Print Assumptions C123_force_gray.
Print Assumptions C123_gray_unchanged.
Print Assumptions C123_refused.

(** C124.  force_color repeats the one channel of every pixel three times. *)
Theorem C124_force_color {A} (x : tensor A) lead : wf x -> t_shape x = lead ++ [1] -> tile_supports (t_dtype x) = true ->
  exists out, force_color x = SOk (filled out) /\ wf out /\ t_dtype out = t_dtype x /\ t_shape out = lead ++ [3] /\
    forall r j, inside lead r -> 0 <= j < 3 -> elt out (r ++ [j]) = elt x (r ++ [0]) /\ elt out (r ++ [j]) <> None.
Proof.
  intros W Es Sup. unfold force_color. rewrite (rev_snoc _ _ _ Es), rev_involutive. cbn [Z.eqb negb]. change (1 =? 3) with false. change (1 =? 1) with true. cbv iota. cbn [negb]. rewrite Sup. cbn [negb]. cbv zeta.
  destruct (W) as [Wn Wl]. rewrite Es in Wn, Wl. apply Forall_app in Wn. destruct Wn as [Hn _]. rewrite elements_app in Wl. cbn [elements] in Wl.
  pose proof (elements_nonneg lead Hn) as Hnn.
  assert (P3 : prod (lead ++ [3]) = elements lead * 3) by (rewrite prod_elements, elements_app; cbn; lia).
  rewrite P3, prod_elements.
  set (tr := flat_map _ _).
  destruct (exec_once (elements lead * 3) tr) as (_ & data & Ex & Ld & Nd).
  - unfold tr. rewrite (length_flat_map_const _ _ 3%nat) by (intros; reflexivity). rewrite length_upto. lia.
  - intros d v Hd. unfold tr in Hd. apply in_flat_map in Hd. destruct Hd as (i & Hi & Hd). apply in_map_iff in Hd. destruct Hd as (j & E & Hj). apply In_upto in Hi, Hj.
    apply pair_equal_spec in E. destruct E as [<- <-]. split; [lia|]. destruct (load_ok (t_data x) (i * 1)) as (a & Ha & _); [lia|]. exists a. exact Ha.
  - intros d Hd. unfold tr. destruct (split_index (elements lead) 3 d Hd ltac:(lia)) as (B1 & B2 & Ed). rewrite in_map_iff.
    exists (d, load (t_data x) (d / 3 * 1)). split; [reflexivity|]. apply in_flat_map. exists (d / 3). split; [now apply In_upto|].
    apply in_map_iff. exists (d mod 3). split; [now rewrite <- Ed|]. now apply In_upto.
  - rewrite Ex. exists (Tn (t_dtype x) (lead ++ [3]) data). split; [reflexivity|]. split; [|split; [reflexivity|split; [reflexivity|]]].
    + split; [apply Forall_app; split; [exact Hn|constructor; [lia|constructor]]|]. cbn [t_shape t_data]. rewrite elements_app. cbn [elements]. lia.
    + intros r j Ir Hj. pose proof (position_bound _ _ Ir) as B.
      destruct (load_ok (t_data x) (position lead r * 1)) as (a & Ha & Na); [lia|].
      assert (E1 : elt (Tn (t_dtype x) (lead ++ [3]) data) (r ++ [j]) = Some a).
      { unfold elt. cbn [t_shape t_data]. rewrite row_pos by (symmetry; now apply inside_length). apply Nd.
        unfold tr. apply in_flat_map. exists (position lead r). split; [now apply In_upto|]. apply in_map_iff. exists j. split; [now rewrite Ha|now apply In_upto]. }
      rewrite E1. split; [|discriminate]. unfold elt. rewrite Es, row_pos by (symmetry; now apply inside_length). rewrite <- Na. f_equal. lia.
Qed.
Print Assumptions C124_force_color.

Theorem C124_color_unchanged {A} (x : tensor A) lead : t_shape x = lead ++ [3] -> force_color x = SOk (filled x).
Proof. intros Es. unfold force_color. rewrite (rev_snoc _ _ _ Es). destruct x. reflexivity. Qed.
Print Assumptions C124_color_unchanged.

Theorem C124_refused {A} (x : tensor A) :
  t_shape x = [] \/ (exists lead C, t_shape x = lead ++ [C] /\ C <> 3 /\ (C <> 1 \/ tile_supports (t_dtype x) = false)) ->
  force_color x = SErr.
Proof.
  intros [E|(lead & C & Es & N3 & H)]; unfold force_color.
  - rewrite E. reflexivity.
  - rewrite (rev_snoc _ _ _ Es), rev_involutive, (proj2 (Z.eqb_neq C 3) N3).
    destruct (Z.eqb_spec C 1) as [->|]; [|reflexivity]. cbn [negb]. destruct H as [H|H]; [lia|]. now rewrite H.
Qed.
Print Assumptions C124_refused.

(** *** Making a gray image coloured and gray again *)
Definition gray_of (lo hi v : Z) : sres Z := to_integer lo hi (weighted f32_mul f32_add (S754_zero false) f32_bgr [v; v; v]).
Definition keeps (lo hi v : Z) : bool := match gray_of lo hi v with SOk u => u =? v | _ => false end.
Lemma all_unsigned : forallb (fun v => keeps 0 255 v) (upto 256) = true.
Proof. vm_compute. reflexivity. Qed.
Lemma all_signed : forallb (fun v => keeps (-128) 127 (v - 128)) (upto 256) = true.
Proof. vm_compute. reflexivity. Qed.
Lemma keeps_gray lo hi v : keeps lo hi v = true -> gray_of lo hi v = SOk v.
Proof. unfold keeps. destruct (gray_of lo hi v) as [u| |]; try discriminate. intros E. apply Z.eqb_eq in E. now subst. Qed.
Lemma gray_8 (lo hi v : Z) : (lo, hi) = (0, 255) \/ (lo, hi) = (-128, 127) -> lo <= v <= hi -> gray_of lo hi v = SOk v.
Proof.
  intros [E|E] Hv; injection E as -> ->; apply keeps_gray.
  - pose proof (proj1 (forallb_forall _ _) all_unsigned v) as H. apply H, In_upto. lia.
  - pose proof (proj1 (forallb_forall _ _) all_signed (v + 128)) as H. cbv beta in H. replace (v + 128 - 128) with v in H by lia. apply H, In_upto. lia.
Qed.

(** For 8-bit images, in IEEE single precision and with the default weights: a
    gray image made coloured and gray again is the image. *)
Theorem C124_colour_then_gray (x : tensor Z) lead lo hi :
  (t_dtype x = 2 /\ lo = 0 /\ hi = 255) \/ (t_dtype x = 1 /\ lo = -128 /\ hi = 127) ->
  wf x -> t_shape x = lead ++ [1] -> Forall (fun v => lo <= v <= hi) (t_data x) ->
  exists y, force_color x = SOk (filled y) /\
    force_gray f32_mul f32_add (S754_zero false) (to_integer lo hi) f32_bgr [] y = SOk (filled x).
Proof.
  intros T W Es R. assert (Sup : tile_supports (t_dtype x) = true) by (destruct T as [[-> _]|[-> _]]; reflexivity).
  assert (T' : (lo, hi) = (0, 255) \/ (lo, hi) = (-128, 127)) by (destruct T as [(_ & -> & ->)|(_ & -> & ->)]; auto).
  destruct (C124_force_color x lead W Es Sup) as (y & Ey & Wy & Dy & Sy & Vy). exists y. split; [exact Ey|].
  assert (Pv : forall r row, inside lead r -> pixel y 3 r row -> exists v, row = [v; v; v] /\ elt x (r ++ [0]) = Some v /\ lo <= v <= hi).
  { intros r row Ir (Lr & Hr). destruct (Vy r 0 Ir ltac:(lia)) as [E0 N0]. destruct (Vy r 1 Ir ltac:(lia)) as [E1 _]. destruct (Vy r 2 Ir ltac:(lia)) as [E2 _].
    pose proof (Hr 0 ltac:(lia)) as H0. pose proof (Hr 1 ltac:(lia)) as H1. pose proof (Hr 2 ltac:(lia)) as H2.
    destruct row as [|a [|b [|c [|d row]]]]; cbn [length] in Lr; try lia. cbn in H0, H1, H2.
    exists a. rewrite E0 in H0. rewrite E1, H0 in H1. rewrite E2, H0 in H2. injection H1 as <-. injection H2 as <-. split; [reflexivity|split; [exact H0|]].
    rewrite Forall_forall in R. apply R. unfold elt in H0. eapply nth_error_In. exact H0. }
  destruct (C123_force_gray f32_mul f32_add (S754_zero false) (to_integer lo hi) f32_bgr [] y lead 3) as (z & Ez & Wz & Dz & Sz & Vz).
  - exact Wy.
  - exact Sy.
  - lia.
  - now rewrite Dy.
  - reflexivity.
  - reflexivity.
  - intros r row Ir Pr. destruct (Pv r row Ir Pr) as (v & -> & _ & Hv). exists v. exact (gray_8 lo hi v T' Hv).
  - rewrite Ez. f_equal. f_equal. apply tensor_ext; auto; [congruence|congruence|].
    intros c Hc. rewrite Sz in Hc. apply inside_snoc in Hc. destruct Hc as (r & k & -> & Ir & Hk). assert (k = 0) as -> by lia.
    destruct (Vz r Ir) as (row & v & Pr & Cv & E). destruct (Pv r row Ir Pr) as (u & -> & Eu & Hu). rewrite E, Eu. f_equal.
    pose proof (gray_8 lo hi u T' Hu) as G. unfold gray_of in G. rewrite G in Cv. now injection Cv.
Qed.
Print Assumptions C124_colour_then_gray.

(** Not so for wider integers: the sum has 24 bits and its fraction is dropped. *)
Theorem C124_colour_then_gray_refuted : gray_of (-2147483648) 2147483647 1786335 = SOk 1786334.
Proof. vm_compute. reflexivity. Qed.
Print Assumptions C124_colour_then_gray_refuted.

(** *** Concrete cases *)
Definition two_pixels : tensor Z := Tn 2 [1; 2; 3] [10; 20; 30; 255; 255; 255].
Example gray_default : force_gray f32_mul f32_add (S754_zero false) (to_integer 0 255) f32_bgr [] two_pixels =
  SOk (filled (Tn 2 [1; 2; 1] [21; 255])).
Proof. vm_compute. reflexivity. Qed.
Example gray_weights : force_gray Z.mul Z.add 0 (fun v => SOk v) [1; 1; 1] [2; 0; 1] (Tn 5 [2; 3] [1; 2; 3; 4; 5; 6]) =
  SOk (filled (Tn 5 [2; 1] [5; 14])).
Proof. vm_compute. reflexivity. Qed.
Example gray_wrong : force_gray Z.mul Z.add 0 (fun v => SOk v) [1; 1; 1] [2; 0] (Tn 5 [2; 3] [1; 2; 3; 4; 5; 6]) = SErr.
Proof. vm_compute. reflexivity. Qed.
Example color_example : force_color (Tn 2 [1; 2; 1] [7; 9]) = SOk (filled (Tn 2 [1; 2; 3] [7; 7; 7; 9; 9; 9])).
Proof. vm_compute. reflexivity. Qed.
