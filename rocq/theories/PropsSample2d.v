(** C168, C169: resampling by a factor. *)
From Coq Require Import List ZArith QArith Qabs Qround Bool Lia Lqa.
From Verif Require Import ShapeModel ShapeSpec ShapeProofs KernelBase KernelSpec KernelProofs LoopModel TileModel ResizeModel ResizeSpec ResizeProofs PropsResize
  AffineModel AffineSpec AffineProofs PropsAffine ZooModel Sample2dModel.
Import ListNotations.
Local Open Scope Z_scope.

(** the size asked for: every axis times its factor, rounded down *)
Definition grown (rnd : Q -> Q) (n : Z) (s : Q) : Z := Qfloor (rnd (rnd (inject_Z n) * s)%Q).
Definition fits (rnd : Q -> Q) (n : Z) (s : Q) : Prop := - 2 ^ 31 <= grown rnd n s < 2 ^ 31.

Lemma scaled_ok rnd n s : fits rnd n s -> scaled rnd n s = SOk (grown rnd n s).
Proof. intros [H1 H2]. unfold scaled. fold (grown rnd n s). now rewrite (proj2 (Z.ltb_ge _ _) H1), (proj2 (Z.leb_gt _ _) H2). Qed.
Lemma scaled_inv rnd n s v : scaled rnd n s = SOk v -> fits rnd n s /\ v = grown rnd n s.
Proof.
  unfold scaled, fits. fold (grown rnd n s). destruct (Z.ltb_spec (grown rnd n s) (- 2 ^ 31)); cbn [orb]; [discriminate|].
  destruct (Z.leb_spec (2 ^ 31) (grown rnd n s)); [discriminate|]. intros E. injection E as <-. auto.
Qed.
Lemma scaled_all_inv rnd shape scale l : scaled_all rnd shape scale = SOk l -> Forall2 (fits rnd) shape scale /\ l = map (fun p => grown rnd (fst p) (snd p)) (combine shape scale).
Proof.
  revert scale l. induction shape as [|n shape IH]; intros [|s scale] l; cbn [scaled_all]; try discriminate.
  - intros E. injection E as <-. split; [constructor|reflexivity].
  - destruct (scaled rnd n s) as [v| |] eqn:E; cbn [bind2]; try discriminate. apply scaled_inv in E. destruct E as [F ->].
    destruct (scaled_all rnd shape scale) as [l'| |] eqn:E; cbn [bind2]; try discriminate. apply IH in E. destruct E as [F2 ->].
    intros E. injection E as <-. split; [now constructor|reflexivity].
Qed.
Lemma scaled_all_ok rnd shape scale : Forall2 (fits rnd) shape scale -> scaled_all rnd shape scale = SOk (map (fun p => grown rnd (fst p) (snd p)) (combine shape scale)).
Proof. induction 1 as [|n s shape scale F _ IH]; cbn [scaled_all combine map fst snd]; [reflexivity|]. rewrite (scaled_ok _ _ _ F). cbn [bind2]. rewrite IH. reflexivity. Qed.

Lemma two_axes lead h w tail h' w' : 0 < h' -> 0 < w' -> names_axes lead h w tail (repeat (-1) (length lead)) h' w' (repeat (-1) (length tail)).
Proof. intros Hh Hw. destruct (minus_ones lead) as [A1 A2], (minus_ones tail) as [B1 B2]. split; [exact Hh|]. split; [exact Hw|]. split; [exact A1|]. split; [exact B1|]. left. now split. Qed.
(** a request for two axes is the same as one that leaves the others alone *)
Lemma same_request {A} (to_q : A -> Q) cast type size (x : tensor A) i ready o : check_outputs (t_shape x) size = SOk (i, ready, o) ->
  exists lead h w tail h' w', t_shape x = lead ++ h :: w :: tail /\ asked (t_shape x) size = lead ++ h' :: w' :: tail /\ 0 < h' /\ 0 < w' /\
    ready = (h =? h') && (w =? w') /\
    resize2d to_q cast type size x = resize2d to_q cast type (repeat (-1) (length lead) ++ h' :: w' :: repeat (-1) (length tail)) x.
Proof.
  intros E. pose proof (check_outputs_inv _ _ _ _ _ E) as (lead & h & w & tail & h' & w' & Es & Ls & Ea & Hh & Hw & Ei & Eo & Er).
  exists lead, h, w, tail, h', w'. split; [exact Es|]. split; [exact Ea|]. split; [exact Hh|]. split; [exact Hw|]. split; [exact Er|].
  unfold resize2d. rewrite E, Es, Er, Ei, Eo.
  rewrite (check_outputs_ok lead h w tail); [reflexivity|]. now apply two_axes.
Qed.

(** where the cut-off sampling looks: the axis of size [n] for coordinate [c] of [m] *)
Definition source (c : list Z) (n m : list Z) : list Z :=
  map (fun p => fst p * fst (snd p) / snd (snd p)) (combine c (combine n m)).
Lemma source_app c1 n1 m1 c2 n2 m2 : length c1 = length n1 -> length n1 = length m1 -> source (c1 ++ c2) (n1 ++ n2) (m1 ++ m2) = source c1 n1 m1 ++ source c2 n2 m2.
Proof.
  unfold source. revert n1 m1. induction c1 as [|a c1 IH]; intros [|b n1] [|d m1] L1 L2; try discriminate; [reflexivity|].
  cbn [app combine map]. f_equal. apply IH; [now injection L1|now injection L2].
Qed.
Lemma source_self c n : inside n c -> source c n n = c.
Proof. unfold source. induction 1 as [|a b n c H _ IH]; cbn [combine map fst snd]; [reflexivity|]. rewrite IH. f_equal. apply Z.div_mul. lia. Qed.

Section Two.
Context {A : Type}.
Variable to_q : A -> Q.
Variable cast : Q -> A.
Variable rnd : Q -> Q.

(** Whatever the factors: if there is an output, every axis has its size times its
    factor, rounded down (a negative product keeps the axis), and the element at a
    coordinate is that of the input at the coordinate times the ratio of the sizes,
    rounded down, along every axis. *)
Theorem C168_hard (scale : list Q) (x : tensor A) out :
  wf x -> Forall (fun n => 0 < n) (t_shape x) -> sample2d_v2 to_q cast rnd 3 scale x = SOk out ->
  exists t, out = filled t /\ wf t /\ t_dtype t = t_dtype x /\ length scale = length (t_shape x) /\
    t_shape t = asked (t_shape x) (map (fun p => grown rnd (fst p) (snd p)) (combine (t_shape x) scale)) /\
    forall c, inside (t_shape t) c -> elt t c = elt x (source c (t_shape x) (t_shape t)).
Proof.
  intros W P. unfold sample2d_v2, size_of. destruct (Nat.eqb_spec (length (t_shape x)) (length scale)) as [L|]; cbn [negb bind2]; [|discriminate].
  destruct (scaled_all rnd (t_shape x) scale) as [size| |] eqn:E; cbn [bind2]; try discriminate. apply scaled_all_inv in E. destruct E as [_ ->].
  set (size := map _ _). intros R.
  destruct (check_outputs (t_shape x) size) as [[[i ready] o]| |] eqn:C; [|unfold resize2d in R; rewrite C in R; discriminate..].
  destruct (same_request to_q cast 3 size x i ready o C) as (lead & h & w & tail & h' & w' & Es & Ea & Hh & Hw & Er & Eq). rewrite Eq in R.
  assert (Na : names_axes lead h w tail (repeat (-1) (length lead)) h' w' (repeat (-1) (length tail))).
  { now apply two_axes. }
  assert (P2 := P). rewrite Es in P2. apply Forall_app in P2. destruct P2 as [_ P2]. inversion P2 as [|? ? Ph P3]; subst. inversion P3 as [|? ? Pw _]; subst. clear P2 P3.
  destruct ((h =? h') && (w =? w')) eqn:B.
  - apply andb_true_iff in B. destruct B as [B1 B2]. apply Z.eqb_eq in B1, B2. subst h' w'. destruct x as [dt sh data]. cbn [t_shape t_dtype] in *. subst sh.
    rewrite C117_unchanged in R by exact Na. injection R as <-. eexists. split; [reflexivity|]. split; [exact W|]. split; [reflexivity|]. split; [now symmetry|].
    split; [cbn [t_shape]; symmetry; exact Ea|]. cbn [t_shape]. intros c I. now rewrite source_self.
  - assert (Ch : h <> h' \/ w <> w') by (apply andb_false_iff in B; destruct B as [B|B]; apply Z.eqb_neq in B; auto).
    assert (Sup : tile_supports (t_dtype x) = true).
    { unfold resize2d in R. rewrite Es, (check_outputs_ok _ _ _ _ _ _ _ _ Na), B in R. destruct (tile_supports (t_dtype x)); [reflexivity|discriminate]. }
    destruct (C118_hard to_q cast x lead h w tail _ h' w' _ W Es Ph Pw Na Ch Sup) as (t & E & Wt & Dt & St & V).
    rewrite E in R. injection R as <-. exists t. split; [reflexivity|]. split; [exact Wt|]. split; [exact Dt|]. split; [now symmetry|].
    split; [now rewrite St, Ea|]. intros c I. rewrite St in I. apply Forall2_app_inv_l in I. destruct I as (r & c2 & I1 & I2 & ->).
    inversion I2 as [|? y ? c3 Hy I3]; subst. inversion I3 as [|? x0 ? tl Hx I4]; subst.
    rewrite (V r y x0 tl I1 Hy Hx I4), St, Es. f_equal.
    pose proof (inside_length _ _ I1) as L1.
    rewrite source_app by lia. rewrite source_self by exact I1. f_equal.
    change (source (y :: x0 :: tl) (h :: w :: tail) (h' :: w' :: tail)) with (y * h / h' :: x0 * w / w' :: source tl tail tail). now rewrite source_self.
Qed.

(** There is an output when the factors change two neighbouring axes (both, unless
    the others are negative: see [names_axes]). *)
Theorem C168_accepted type (scale : list Q) (x : tensor A) lead h w tail ls h' w' ts :
  type <> 0 -> type <> 1 -> wf x -> t_shape x = lead ++ h :: w :: tail -> 0 < h -> 0 < w -> Forall2 (fits rnd) (t_shape x) scale ->
  map (fun p => grown rnd (fst p) (snd p)) (combine (t_shape x) scale) = ls ++ h' :: w' :: ts -> names_axes lead h w tail ls h' w' ts ->
  tile_supports (t_dtype x) = true ->
  exists out, sample2d_v2 to_q cast rnd type scale x = SOk (filled out) /\ t_shape out = lead ++ h' :: w' :: tail.
Proof.
  intros T0 T1 W Es Ph Pw F Eg Na Sup. unfold sample2d_v2, size_of. rewrite (F2_length _ _ _ F), Nat.eqb_refl. cbn [negb].
  rewrite (scaled_all_ok _ _ _ F). cbn [bind2]. rewrite Eg.
  destruct (Z.eq_dec h h') as [E1|N1]; [destruct (Z.eq_dec w w') as [E2|N2]|].
  - subst h' w'. destruct x as [dt sh data]. cbn [t_shape] in *. subst sh. rewrite C117_unchanged by exact Na. eexists. split; reflexivity.
  - destruct (Z.eq_dec type 3) as [->|T3].
    + destruct (C118_hard to_q cast x lead h w tail ls h' w' ts W Es Ph Pw Na (or_intror N2) Sup) as (o & E & _ & _ & S & _). eauto.
    + destruct (C118_nearest to_q cast type x lead h w tail ls h' w' ts T0 T1 T3 W Es Ph Pw Na (or_intror N2) Sup) as (o & E & _ & _ & S & _). eauto.
  - destruct (Z.eq_dec type 3) as [->|T3].
    + destruct (C118_hard to_q cast x lead h w tail ls h' w' ts W Es Ph Pw Na (or_introl N1) Sup) as (o & E & _ & _ & S & _). eauto.
    + destruct (C118_nearest to_q cast type x lead h w tail ls h' w' ts T0 T1 T3 W Es Ph Pw Na (or_introl N1) Sup) as (o & E & _ & _ & S & _). eauto.
Qed.

(** The dtype and the shape announced are those of the output, for every kind of sampling. *)
Theorem C168_announced type (scale : list Q) (x : tensor A) out : sample2d_v2 to_q cast rnd type scale x = SOk out ->
  sample2d_v2_infer rnd scale x = SOk (t_dtype out, t_shape out).
Proof.
  unfold sample2d_v2, sample2d_v2_infer. destruct (size_of rnd (t_shape x) scale) as [size| |]; cbn [bind2]; try discriminate. intros R.
  unfold resize2d in R. destruct (check_outputs (t_shape x) size) as [[[i ready] o]| |] eqn:C; try discriminate. cbn [bind2 snd]. destruct ready.
  - injection R as <-. cbn [t_dtype t_shape]. apply check_outputs_inv in C. destruct C as (lead & h & w & tail & h' & w' & Es & _ & _ & _ & _ & _ & Eo & Er).
    symmetry in Er. apply andb_true_iff in Er. destruct Er as [B1 B2]. apply Z.eqb_eq in B1, B2. subst h' w'. now rewrite Eo, Es.
  - destruct (tile_supports (t_dtype x)); cbn [negb] in R; [|discriminate]. destruct (exec _ _); try discriminate. injection R as <-. reflexivity.
Qed.

(** Refused: a number of factors that is not the number of axes; an axis that would vanish. *)
Theorem C168_refused type (scale : list Q) (x : tensor A) : length scale <> length (t_shape x) ->
  sample2d_v2 to_q cast rnd type scale x = SErr /\ sample2d_v2_infer rnd scale x = SErr.
Proof. intros N. unfold sample2d_v2, sample2d_v2_infer, size_of. rewrite (proj2 (Nat.eqb_neq _ _)) by congruence. split; reflexivity. Qed.
Theorem C168_vanishing_refused type (scale : list Q) (x : tensor A) : Forall2 (fits rnd) (t_shape x) scale ->
  (exists n s, In (n, s) (combine (t_shape x) scale) /\ grown rnd n s = 0 /\ n <> 0) -> sample2d_v2 to_q cast rnd type scale x = SErr.
Proof.
  intros F (n & s & I & G & Nz). unfold sample2d_v2, size_of. rewrite (F2_length _ _ _ F), Nat.eqb_refl. cbn [negb]. rewrite (scaled_all_ok _ _ _ F). cbn [bind2].
  apply C117_refused. right. intros (lead & h & w & tail & h' & w' & Es & Ea & Hh & Hw).
  set (size := map _ _) in *. assert (Ls : length (t_shape x) = length size). { unfold size. rewrite map_length, combine_length, (F2_length _ _ _ F). lia. }
  apply In_nth_error in I. destruct I as [k K].
  assert (Kn : nth_error (t_shape x) k = Some n /\ nth_error (asked (t_shape x) size) k = Some 0).
  { unfold asked, size. clear - K G. revert scale K. generalize (t_shape x). revert k. induction k as [|k IH]; intros [|a l] [|b scale] K; try discriminate; cbn [combine map nth_error fst snd] in *.
    - injection K as <- <-. rewrite G. split; reflexivity.
    - now apply IH. }
  destruct Kn as [K1 K2]. rewrite Ea in K2. rewrite Es in K1.
  destruct (Nat.lt_ge_cases k (length lead)) as [H|H].
  - rewrite nth_error_app1 in K1, K2 by exact H. congruence.
  - rewrite nth_error_app2 in K1, K2 by exact H. destruct (k - length lead)%nat as [|[|j]]; cbn [nth_error] in *; [injection K2 as K2; lia..|congruence].
Qed.

(** A whole factor multiplies the size, as long as the product is a number the rounding keeps. *)
Theorem C168_whole_factor n k : rnd (inject_Z n) = inject_Z n -> (forall q, (q == inject_Z (n * k))%Q -> (rnd q == inject_Z (n * k))%Q) -> grown rnd n (inject_Z k) = n * k.
Proof.
  intros R1 R2. unfold grown. rewrite R1. rewrite (Qfloor_comp _ (inject_Z (n * k))); [apply Qfloor_Z|]. apply R2. now rewrite inject_Z_mult.
Qed.
End Two.
Print Assumptions C168_hard.
Print Assumptions C168_accepted.
Print Assumptions C168_announced.
Print Assumptions C168_refused.
Print Assumptions C168_vanishing_refused.
Print Assumptions C168_whole_factor.

(** binary32: to nearest, ties to even (numbers far from the ends of the range) *)
Definition to_float (q : Q) : Q :=
  let pos (n d : Z) := let f := float_div n d in Qred (fst f # Z.to_pos (snd f)) in
  if Qnum q =? 0 then 0%Q else if 0 <? Qnum q then pos (Qnum q) (Zpos (Qden q)) else Qopp (pos (- Qnum q) (Zpos (Qden q))).
Definition picture : tensor Z := Tn 2 [1; 2; 3; 1] [1; 2; 3; 4; 5; 6].
Example C168_example :
  sample2d_v2 zq qz_ to_float 3 [1; 2; 3 # 2; 1]%Q picture = SOk (filled (Tn 2 [1; 4; 4; 1] [1; 1; 2; 3; 1; 1; 2; 3; 4; 4; 5; 6; 4; 4; 5; 6])) /\
  sample2d_v2_infer to_float [1; 2; 3 # 2; 1]%Q picture = SOk (2, [1; 4; 4; 1]) /\ wf picture /\ Forall (fun n => 0 < n) (t_shape picture) /\
  names_axes [1] 2 3 [1] [1] 4 4 [1] /\ grown to_float 2 2 = 4 /\ grown to_float 7 (inject_Z 3) = 21.
Proof.
  split; [reflexivity|]. split; [reflexivity|]. split; [split; [repeat constructor; lia|reflexivity]|]. split; [repeat constructor; lia|]. split; [|split; reflexivity].
  unfold names_axes. split; [lia|]. split; [lia|]. split; [constructor; [right; split; lia|constructor]|]. split; [constructor; [right; split; lia|constructor]|]. right. lia.
Qed.
(** The float nearest to 1/41 takes 41 pixels to none, not to one: the call is refused,
    while 1/2 takes 2 to 1. *)
Theorem C168_reciprocal_refuted : grown to_float 41 (to_float (1 # 41)) = 0 /\ grown to_float 2 (to_float (1 # 2)) = 1 /\
  sample2d_v2 zq qz_ to_float 3 [to_float (1 # 41); 1]%Q (Tn 2 [41; 1] (repeat 7 41)) = SErr.
Proof. split; [vm_compute; reflexivity|]. split; vm_compute; reflexivity. Qed.
(** A negative factor is not refused: it leaves the axis as it is. *)
Theorem C168_negative_refuted : sample2d_v2 zq qz_ to_float 3 [- (5 # 1); 2; 2; - (1 # 3)]%Q (Tn 2 [1; 1; 2; 1] [1; 2]) =
  SOk (filled (Tn 2 [1; 2; 4; 1] [1; 1; 2; 2; 1; 1; 2; 2])).
Proof. vm_compute. reflexivity. Qed.
(** Doubling only the height of a single picture, interpolating: the axes taken are the
    first two, and the kernel reads outside of the image. *)
Theorem C168_height_refuted : exists (x : tensor Z), wf x /\ t_shape x = [1; 2; 2; 1] /\ sample2d_v2 zq qz_ to_float 0 [1; 2; 1; 1]%Q x = SUndef.
Proof. exists (Tn 2 [1; 2; 2; 1] [1; 2; 3; 4]). split; [split; [repeat constructor; lia|reflexivity]|]. split; [reflexivity|]. vm_compute. reflexivity. Qed.
Print Assumptions C168_reciprocal_refuted.
Print Assumptions C168_negative_refuted.
Print Assumptions C168_height_refuted.

(** ** C169: sample2d *)
Section One.
Context {A : Type}.
Variable to_q : A -> Q.
Variable cast : Q -> A.
Variable rnd : Q -> Q.

Lemma sample2d_step (zero : A) type dim (s : Q) (x : tensor A) lead h w tail : (1 # 100000 <= s)%Q -> 0 <= type <= 3 ->
  t_shape x = lead ++ h :: w :: tail -> names_dim lead tail dim -> fits rnd h s -> fits rnd w s ->
  sample2d to_q cast rnd zero type dim s x =
    affine_sample2d to_q cast type dim (Some zero) [grown rnd h s; grown rnd w s] (Tn 10 [3; 3] [rnd (1 / s)%Q; 0; 0; 0; rnd (1 / s)%Q; 0; 0; 0; 1]%Q) x.
Proof.
  intros Hs Ht Es Hd Fh Fw. unfold sample2d, Qltb. rewrite (proj2 (Qle_bool_iff _ _) Hs). cbn [negb]. rewrite (proj2 (Z.leb_le 0 type)), (proj2 (Z.leb_le type 3)) by lia. cbn [andb negb].
  assert (En : Z.of_nat (length (t_shape x)) = Z.of_nat (length lead) + Z.of_nat (length tail) + 2) by (rewrite Es, app_length; cbn [length]; lia).
  assert (Ef : (if dim <? 0 then Z.of_nat (length (t_shape x)) + dim else dim) = Z.of_nat (length lead)).
  { rewrite En. destruct Hd as [-> | ->]; [rewrite (proj2 (Z.ltb_ge _ 0)) by lia; reflexivity|rewrite (proj2 (Z.ltb_lt _ 0)) by lia; lia]. }
  cbv zeta. rewrite Ef, En. rewrite (proj2 (Z.ltb_ge _ 0)), (proj2 (Z.leb_gt _ _)) by lia. cbn [orb]. rewrite Nat2Z.id, Es, nth_mid, nth_mid2, (scaled_ok _ _ _ Fh), (scaled_ok _ _ _ Fw). reflexivity.
Qed.

Lemma row0 r y x : (transform r 0 0 y x == r * inject_Z x)%Q.
Proof. unfold transform. change (inject_Z 1) with 1%Q. ring. Qed.
Lemma row1 r y x : (transform 0 r 0 y x == r * inject_Z y)%Q.
Proof. unfold transform. change (inject_Z 1) with 1%Q. ring. Qed.
Lemma truncate_proper p q : (p == q)%Q -> truncate p = truncate q.
Proof. intros E. unfold truncate. assert (Eb : Qgeb p 0 = Qgeb q 0) by (unfold Qgeb; now rewrite E). rewrite Eb. destruct (Qgeb q 0); [now apply Qfloor_comp|now apply Qceiling_comp]. Qed.
Lemma truncate_floor p : (0 <= p)%Q -> truncate p = Qfloor p.
Proof. intros H. unfold truncate, Qgeb. now rewrite (proj2 (Qle_bool_iff _ _) H). Qed.
Lemma round_proper p q : (p == q)%Q -> round p = round q.
Proof.
  intros E. unfold round. assert (Eb : Qgeb p 0 = Qgeb q 0) by (unfold Qgeb; now rewrite E). rewrite Eb. destruct (Qgeb q 0); [now apply Qfloor_comp; rewrite E|].
  f_equal. apply Qfloor_comp. now rewrite E.
Qed.
Lemma round_floor p : (0 <= p)%Q -> round p = Qfloor (p + (1 # 2)).
Proof. intros H. unfold round, Qgeb. now rewrite (proj2 (Qle_bool_iff _ _) H). Qed.

(** where a pixel is taken from: the coordinate times the reciprocal of the factor,
    cut off (HARD) or to the nearest (NEAREST) *)
Definition taken (type : Z) (r : Q) (y : Z) : Z := if type =? 3 then Qfloor (r * inject_Z y) else Qfloor (r * inject_Z y + (1 # 2)).

(** The two axes get their size times the factor, rounded down; a pixel is the one of
    the input at the place, or zero when that is in the last row or column, or outside. *)
Theorem C169_point (zero : A) type dim (s : Q) (x : tensor A) lead h w tail : type = 2 \/ type = 3 ->
  (1 # 100000 <= s)%Q -> (0 <= rnd (1 / s))%Q -> wf x -> t_shape x = lead ++ h :: w :: tail -> names_dim lead tail dim ->
  fits rnd h s -> fits rnd w s -> 0 <= grown rnd h s -> 0 <= grown rnd w s -> tile_supports (t_dtype x) = true ->
  exists out, sample2d to_q cast rnd zero type dim s x = SOk (filled out) /\ wf out /\ t_dtype out = t_dtype x /\
    t_shape out = lead ++ grown rnd h s :: grown rnd w s :: tail /\
    forall l y x0 t, inside lead l -> 0 <= y < grown rnd h s -> 0 <= x0 < grown rnd w s -> inside tail t ->
      let sy := taken type (rnd (1 / s)%Q) y in let sx := taken type (rnd (1 / s)%Q) x0 in
      (sy < h - 1 -> sx < w - 1 -> elt out (l ++ y :: x0 :: t) = elt x (l ++ sy :: sx :: t)) /\
      (h - 1 <= sy \/ w - 1 <= sx -> elt out (l ++ y :: x0 :: t) = Some zero).
Proof.
  intros Ht Hs Hr W Es Hd Fh Fw Gh Gw Sup. rewrite (sample2d_step zero type dim s x lead h w tail) by (auto; lia).
  destruct (C127_point to_q cast type (if type =? 3 then truncate else round) (rnd (1 / s)%Q) 0 0 0 (rnd (1 / s)%Q) 0 0 0 1 10 dim zero x lead h w tail (grown rnd h s) (grown rnd w s)) as (out & E & Wo & Do & So & V); auto.
  { destruct Ht as [-> | ->]; [left|right]; split; reflexivity. }
  exists out. split; [exact E|]. split; [exact Wo|]. split; [exact Do|]. split; [exact So|]. intros l y x0 t Il Iy Ix It. cbv zeta.
  assert (Pos : forall k, 0 <= k -> (0 <= rnd (1 / s) * inject_Z k)%Q). { intros k Hk. apply Qmult_le_0_compat; [exact Hr|]. change 0%Q with (inject_Z 0). now rewrite <- Zle_Qle. }
  assert (T : forall p k, 0 <= k -> (p == rnd (1 / s) * inject_Z k)%Q -> (if type =? 3 then truncate else round) p = taken type (rnd (1 / s)%Q) k /\ 0 <= taken type (rnd (1 / s)%Q) k).
  { intros p k Hk Ep. pose proof (Pos k Hk) as H0. unfold taken. destruct (type =? 3).
    - rewrite (truncate_proper _ _ Ep), truncate_floor by exact H0. split; [reflexivity|]. change 0 with (Qfloor 0). now apply Qfloor_resp_le.
    - rewrite (round_proper _ _ Ep), round_floor by exact H0. split; [reflexivity|]. change 0 with (Qfloor (0 + (1 # 2))). apply Qfloor_resp_le. lra. }
  destruct (T _ y ltac:(lia) (row1 (rnd (1 / s)%Q) y x0)) as [Ey Py]. destruct (T _ x0 ltac:(lia) (row0 (rnd (1 / s)%Q) y x0)) as [Ex Px].
  destruct (V l y x0 t _ _ Il Iy Ix It eq_refl eq_refl) as [V1 V2]. rewrite Ey, Ex in V1, V2. split.
  - intros H1 H2. apply V1; lia.
  - intros H. apply V2. lia.
Qed.

(** Interpolating: the value between the four pixels around the place; zero from the
    last row or column on. *)
Theorem C169_linear_partial (Cp : forall p q, (p == q)%Q -> cast p = cast q) (zero : A) dim (s : Q) (x : tensor A) lead h w tail :
  (1 # 100000 <= s)%Q -> (0 <= rnd (1 / s))%Q -> wf x -> t_shape x = lead ++ h :: w :: tail -> names_dim lead tail dim ->
  fits rnd h s -> fits rnd w s -> 0 <= grown rnd h s -> 0 <= grown rnd w s -> tile_supports (t_dtype x) = true ->
  exists out, sample2d to_q cast rnd zero 0 dim s x = SOk (filled out) /\ wf out /\ t_dtype out = t_dtype x /\
    t_shape out = lead ++ grown rnd h s :: grown rnd w s :: tail /\
    forall l y x0 t, inside lead l -> 0 <= y < grown rnd h s -> 0 <= x0 < grown rnd w s -> inside tail t ->
      let py := (rnd (1 / s) * inject_Z y)%Q in let px := (rnd (1 / s) * inject_Z x0)%Q in
      ((py < inject_Z (h - 1))%Q -> (px < inject_Z (w - 1))%Q -> exists v, (forall sy sx, 0 <= sy < h -> 0 <= sx < w -> elt x (l ++ sy :: sx :: t) = Some (v sy sx)) /\
         elt out (l ++ y :: x0 :: t) = Some (cast (interpolate tent h w (fun sy sx => to_q (v sy sx)) py px))) /\
      ((inject_Z (h - 1) <= py)%Q \/ (inject_Z (w - 1) <= px)%Q -> elt out (l ++ y :: x0 :: t) = Some zero).
Proof.
  intros Hs Hr W Es Hd Fh Fw Gh Gw Sup. rewrite (sample2d_step zero 0 dim s x lead h w tail) by (auto; lia).
  destruct (C127_linear_partial to_q cast Cp (rnd (1 / s)%Q) 0 0 0 (rnd (1 / s)%Q) 0 0 0 1 10 dim zero x lead h w tail (grown rnd h s) (grown rnd w s)) as (out & E & Wo & Do & So & V); auto.
  exists out. split; [exact E|]. split; [exact Wo|]. split; [exact Do|]. split; [exact So|]. intros l y x0 t Il Iy Ix It. cbv zeta.
  assert (Pos : forall k, 0 <= k -> (0 <= rnd (1 / s) * inject_Z k)%Q). { intros k Hk. apply Qmult_le_0_compat; [exact Hr|]. change 0%Q with (inject_Z 0). now rewrite <- Zle_Qle. }
  pose proof (Pos y ltac:(lia)) as Py. pose proof (Pos x0 ltac:(lia)) as Px.
  assert (Ey : (image_of 0 (rnd (1 / s)) 0 y x0 == rnd (1 / s) * inject_Z y)%Q) by (unfold image_of; ring).
  assert (Ex : (image_of (rnd (1 / s)) 0 0 y x0 == rnd (1 / s) * inject_Z x0)%Q) by (unfold image_of; ring).
  destruct (V l y x0 t Il Iy Ix It) as [V1 V2]. split.
  - intros H1 H2. destruct V1 as (v & V1 & V3). { unfold well_inside. rewrite Ey, Ex. repeat split; assumption. }
    exists v. split; [exact V1|]. rewrite V3. f_equal. apply Cp. apply interpolate_proper; [|exact Ey|exact Ex]. intros a b Eab. now apply tent_proper.
  - intros H. apply V2. unfold well_inside. rewrite Ey, Ex. lra.
Qed.

(** Refused: a factor under 1/100000, an unknown kind, an axis without a next one. *)
Theorem C169_refused (zero : A) type dim (s : Q) (x : tensor A) :
  (s < 1 # 100000)%Q \/ type < 0 \/ 3 < type \/ dim < - Z.of_nat (length (t_shape x)) \/ dim = -1 \/ Z.of_nat (length (t_shape x)) <= dim + 1 ->
  sample2d to_q cast rnd zero type dim s x = SErr.
Proof.
  intros H. unfold sample2d, Qltb. destruct (Qle_bool (1 # 100000) s) eqn:B; cbn [negb]; [|reflexivity]. apply Qle_bool_iff in B.
  destruct (Z.leb_spec 0 type); cbn [andb negb]; [|reflexivity]. destruct (Z.leb_spec type 3); cbn [negb]; [|reflexivity]. cbv zeta.
  set (n := Z.of_nat (length (t_shape x))) in *. set (f := if dim <? 0 then n + dim else dim).
  destruct (Z.ltb_spec f 0); cbn [orb]; [reflexivity|]. destruct (Z.leb_spec (n - 1) f); [reflexivity|]. exfalso.
  destruct H as [H|H]; [lra|]. unfold f in *. destruct (Z.ltb_spec dim 0); lia.
Qed.

(** The shape announced is that of the output. *)
Theorem C169_announced (zero : A) type dim (s : Q) (x : tensor A) out : (forall q, (0 <= q)%Q -> (0 <= rnd q)%Q) -> wf x ->
  sample2d to_q cast rnd zero type dim s x = SOk out -> sample2d_infer rnd dim s x = SOk (t_dtype out, t_shape out).
Proof.
  intros Rp [Nx _]. unfold sample2d, sample2d_infer. destruct (Qltb s (1 # 100000)) eqn:B; [discriminate|]. unfold Qltb in B. apply negb_false_iff, Qle_bool_iff in B.
  destruct (negb _); [discriminate|]. cbv zeta. set (n := Z.of_nat (length (t_shape x))). set (f := if dim <? 0 then n + dim else dim).
  destruct ((f <? 0) || (n - 1 <=? f)); [discriminate|].
  assert (Tr : forall k, 0 <= k -> truncate (rnd (rnd (inject_Z k) * s)%Q) = grown rnd k s).
  { intros k Hk. unfold grown. apply truncate_floor. apply Rp. apply Qmult_le_0_compat; [|lra]. apply Rp. change 0%Q with (inject_Z 0). now rewrite <- Zle_Qle. }
  assert (Nn : forall i, 0 <= nth i (t_shape x) 0). { intros i. destruct (nth_in_or_default i (t_shape x) 0) as [I| ->]; [|lia]. rewrite Forall_forall in Nx. now apply Nx. }
  rewrite !Tr by apply Nn. unfold scaled. fold (grown rnd (nth (Z.to_nat f) (t_shape x) 0) s) (grown rnd (nth (S (Z.to_nat f)) (t_shape x) 0) s).
  set (a := grown rnd (nth (Z.to_nat f) (t_shape x) 0) s). set (b := grown rnd (nth (S (Z.to_nat f)) (t_shape x) 0) s).
  destruct ((a <? - 2 ^ 31) || (2 ^ 31 <=? a)); cbn [bind2]; [discriminate|]. destruct ((b <? - 2 ^ 31) || (2 ^ 31 <=? b)); cbn [bind2]; [discriminate|].
  unfold affine_sample2d. destruct (negb _); [discriminate|]. cbv zeta. fold n. fold f. destruct (n <? 2); [discriminate|]. destruct (negb _); [discriminate|].
  destruct ((a <? 0) || (b <? 0)); [discriminate|]. cbn [t_shape]. destruct (negb _); [discriminate|]. destruct (exec _ _); try discriminate. intros E. injection E as <-. reflexivity.
Qed.
End One.
Print Assumptions C169_point.
Print Assumptions C169_linear_partial.
Print Assumptions C169_refused.
Print Assumptions C169_announced.

(** The factor 1 does not give the picture back: its last row and column are zero,
    whatever the picture. *)
Theorem C169_identity_refuted {A} (to_q : A -> Q) cast (rnd : Q -> Q) (zero : A) type dim (x : tensor A) lead h w tail : type = 2 \/ type = 3 ->
  (rnd (1 / 1) == 1)%Q -> grown rnd h 1 = h -> grown rnd w 1 = w -> h < 2 ^ 31 -> w < 2 ^ 31 ->
  wf x -> t_shape x = lead ++ h :: w :: tail -> names_dim lead tail dim -> tile_supports (t_dtype x) = true ->
  exists out, sample2d to_q cast rnd zero type dim 1 x = SOk (filled out) /\ t_shape out = t_shape x /\
    forall l y x0 t, inside lead l -> 0 <= y < h -> 0 <= x0 < w -> inside tail t ->
      elt out (l ++ y :: x0 :: t) = if (y =? h - 1) || (x0 =? w - 1) then Some zero else elt x (l ++ y :: x0 :: t).
Proof.
  intros Ht Hr Gh Gw Bh Bw W Es Hd Sup.
  assert (N : 0 <= h /\ 0 <= w). { destruct W as [Nx _]. rewrite Es in Nx. apply Forall_app in Nx. destruct Nx as [_ Nx]. pose proof (Forall_inv Nx). pose proof (Forall_inv (Forall_inv_tail Nx)). cbn beta in *. lia. }
  destruct (C169_point to_q cast rnd zero type dim 1 x lead h w tail Ht) as (out & E & _ & _ & So & V); auto; try lra; unfold fits; rewrite ?Gh, ?Gw; try lia.
  exists out. split; [exact E|]. rewrite Gh, Gw in So. split; [congruence|]. intros l y x0 t Il Iy Ix It.
  assert (T : forall k, taken type (rnd (1 / 1)%Q) k = k).
  { intros k. unfold taken. destruct (type =? 3).
    - rewrite (Qfloor_comp _ (inject_Z k)) by (rewrite Hr; ring). apply Qfloor_Z.
    - rewrite (Qfloor_comp _ (inject_Z k + (1 # 2))) by (rewrite Hr; ring). destruct (floor_bounds (inject_Z k + (1 # 2))) as [F1 F2]. set (m := Qfloor _) in *. clearbody m.
      assert (inject_Z m < inject_Z (k + 1))%Q by (rewrite inject_Z_plus; change (inject_Z 1) with 1%Q; lra).
      assert (inject_Z k < inject_Z (m + 1))%Q by (rewrite inject_Z_plus; change (inject_Z 1) with 1%Q in *; lra).
      rewrite <- Zlt_Qlt in *. lia. }
  destruct (V l y x0 t Il ltac:(lia) ltac:(lia) It) as [V1 V2]. rewrite !T in V1, V2.
  destruct (Z.eqb_spec y (h - 1)); cbn [orb]; [apply V2; lia|]. destruct (Z.eqb_spec x0 (w - 1)); [apply V2; lia|]. apply V1; lia.
Qed.
Print Assumptions C169_identity_refuted.
(** the hypotheses are met by a picture of 2 by 3 and by binary32 *)
Example C169_example :
  (to_float (1 / 1) == 1)%Q /\ grown to_float 2 1 = 2 /\ grown to_float 3 1 = 3 /\ names_dim [1] [1] (-3) /\ names_dim [1] [1] 1 /\
  sample2d zq qz_ to_float 0 2 1 1 picture = SOk (filled (Tn 2 [1; 2; 3; 1] [1; 2; 0; 0; 0; 0])) /\
  sample2d zq qz_ to_float 0 3 1 2 picture = SOk (filled (Tn 2 [1; 4; 6; 1] ([1; 1; 2; 2; 0; 0; 1; 1; 2; 2; 0; 0] ++ repeat 0 12))) /\
  sample2d zq qz_ to_float 0 0 1 2 picture = SOk (filled (Tn 2 [1; 4; 6; 1] ([1; 1; 2; 2; 0; 0; 2; 3; 3; 4; 0; 0] ++ repeat 0 12))) /\
  sample2d_infer to_float 1 2 picture = SOk (2, [1; 4; 6; 1]) /\ (0 <= to_float (1 / 2))%Q /\ fits to_float 3 2.
Proof.
  split; [vm_compute; reflexivity|]. split; [reflexivity|]. split; [reflexivity|]. split; [right; reflexivity|]. split; [left; reflexivity|].
  split; [vm_compute; reflexivity|]. split; [vm_compute; reflexivity|]. split; [vm_compute; reflexivity|]. split; [vm_compute; reflexivity|].
  split; [vm_compute; discriminate|]. unfold fits. vm_compute. split; [discriminate|reflexivity].
Qed.
