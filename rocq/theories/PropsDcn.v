(** C162: convolution at displaced places. *)
From Coq Require Import List ZArith Bool Lia QArith Qabs Qround Qcanon Lqa.
From Verif Require Import ShapeModel ShapeSpec KernelBase KernelSpec KernelProofs ShapeProofs LoopModel LoopProofs EltwiseModel GemmModel GemmSpec GemmProofs
  ConvModel WinogradProofs ResizeModel ResizeSpec ResizeProofs PropsPatch DcnModel DcnSpec DcnProofs.
Import ListNotations.
Local Open Scope Z_scope.

Lemma each_ok {A B} (f : A -> sres B) (g : A -> B) l : (forall a, In a l -> f a = SOk (g a)) -> each (map f l) = SOk (map g l).
Proof. induction l as [|a l IH]; intros E; cbn [map each]; [reflexivity|]. rewrite E by now left. rewrite IH by (intros; apply E; now right). reflexivity. Qed.
Lemma concat_loops {A} n s (g : list Z -> A) :
  concat (map (fun i => map (fun c => g (i :: c)) (loops s)) (upto n)) = map g (loops (n :: s)).
Proof.
  cbn [loops]. rewrite flat_map_concat_map, concat_map, map_map. f_equal. apply map_ext. intros i. now rewrite map_map.
Qed.
Lemma conv_places n pad k stride dil p : 0 < stride -> places n pad k stride dil p -> Z.quot (n + 2 * pad - (dil * (k - 1) + 1)) stride + 1 = p.
Proof.
  intros Hs (P & L & U). rewrite Z.quot_div_nonneg by nia. replace p with (p - 1 + 1) by lia. f_equal. symmetry.
  apply (Z.div_unique _ _ _ (n + 2 * pad - (dil * (k - 1) + 1) - (p - 1) * stride)); lia.
Qed.

(** The operator is the convolution of the displaced, masked taps plus the bias:
    for every batch, number of channels, window, stride, dilation, (equal) padding
    and number of deformable groups that divides the channels, whenever the offsets
    and masks have the sizes this takes. *)
Theorem C162_dcn_partial (vec : bool) (N C H W O KH KW OH OW G pad_h pad_w stride_h stride_w dil_h dil_w : Z) (x w b off mask : tensor Qc) :
  wf x -> wf w -> wf b -> wf off -> wf mask ->
  Forall (fun t => t_dtype t = float32) [x; w; b; off; mask] ->
  t_shape x = [N; C; H; W] -> t_shape w = [O; C; KH; KW] -> t_shape b = [O] ->
  t_shape off = [N; 2 * (G * (KH * KW)); OH; OW] -> t_shape mask = [N; G * (KH * KW); OH; OW] ->
  0 < G -> (G | C) -> 0 < stride_h -> 0 < stride_w ->
  places H pad_h KH stride_h dil_h OH -> places W pad_w KW stride_w dil_w OW ->
  exists out, dcn_v2 vec true [0; 0; 0; 0; pad_h; pad_h; pad_w; pad_w] [1; 1; stride_h; stride_w] [1; 1; dil_h; dil_w] G x w b off mask = SOk (filled out) /\
    wf out /\ t_dtype out = float32 /\ t_shape out = [N; O; OH; OW] /\
    forall n o i j, 0 <= n < N -> 0 <= o < O -> 0 <= i < OH -> 0 <= j < OW ->
      exists v, elt out [n; o; i; j] = Some v /\
        (this v == at_ b [o] + qsum C (fun c => qsum KH (fun p => qsum KW (fun q => at_ w [o; c; p; q] *
           tap_value x off mask H W KH KW n c (c / (C / G)) i j p q stride_h stride_w dil_h dil_w pad_h pad_w))))%Q.
Proof.
  intros Wx Ww Wb Wo Wm Ts Sx Sw Sb So Sm G0 GC Sh0 Sw0 PH PW.
  pose proof (conv_places _ _ _ _ _ _ Sh0 PH) as EH. pose proof (conv_places _ _ _ _ _ _ Sw0 PW) as EW.
  assert (Ranges : 0 <= N /\ 0 <= C /\ 0 <= H /\ 0 <= W /\ 0 <= OH /\ 0 <= OW /\ 0 <= KH /\ 0 <= KW).
  { destruct Wx as (F1 & _), Ww as (F2 & _). rewrite Sx in F1. rewrite Sw in F2. destruct PH as (PH & _), PW as (PW & _).
    pose proof (Forall_inv F1). pose proof (Forall_inv (Forall_inv_tail F1)). pose proof (Forall_inv (Forall_inv_tail (Forall_inv_tail F1))). pose proof (Forall_inv (Forall_inv_tail (Forall_inv_tail (Forall_inv_tail F1)))).
    pose proof (Forall_inv (Forall_inv_tail (Forall_inv_tail F2))). pose proof (Forall_inv (Forall_inv_tail (Forall_inv_tail (Forall_inv_tail F2)))). cbn beta in *. lia. }
  assert (O0 : 0 <= O). { destruct Ww as (F2 & _). rewrite Sw in F2. exact (Forall_inv F2). }
  pose proof Ranges as (N0 & C0 & H0 & W0 & OH0 & OW0 & KH0 & KW0).
  set (win := Window pad_h pad_h pad_w pad_w stride_h stride_w dil_h dil_w).
  destruct (columns_ok N C H W OH OW KH KW G win x off mask Ranges (conj G0 GC) (conj Wx Sx) (conj Wo So) (conj Wm Sm)) as (stores & cols & E1 & E2 & RD).
  set (cv := column_value C H W KH KW G win x off mask) in *.
  set (K := C * KH * KW) in *. set (P := OH * OW) in *. assert (P0 : 0 <= P) by (unfold P; nia). assert (K0 : 0 <= K) by (unfold K; nia).
  set (colf := fun n t p => Q2Qc (cv n (t / (KH * KW)) ((t / KW) mod KH) (t mod KW) (p / OW) (p mod OW))).
  assert (Colf : forall n t p, 0 <= n < N -> 0 <= t < K -> 0 <= p < P -> read cols (n * (K * P) + (t * P + p)) = SOk (colf n t p)).
  { intros n t p Hn Ht Hp. assert (0 < KH /\ 0 < KW /\ 0 < C) as (KH1 & KW1 & C1) by (unfold K in *; nia). assert (0 < OW /\ 0 < OH) as (OW1 & OH1) by (unfold P in *; nia).
    pose proof (Z.div_mod t KW ltac:(lia)) as D1. pose proof (Z.mod_pos_bound t KW KW1) as M1.
    pose proof (Z.div_mod (t / KW) KH ltac:(lia)) as D2. pose proof (Z.mod_pos_bound (t / KW) KH KH1) as M2. rewrite Z.div_div in D2 by lia. replace (KW * KH) with (KH * KW) in D2 by ring.
    pose proof (Z.div_mod p OW ltac:(lia)) as D3. pose proof (Z.mod_pos_bound p OW OW1) as M3.
    assert (B1 : 0 <= t / (KH * KW) < C). { split; [apply Z.div_pos; nia|]. apply Z.div_lt_upper_bound; [nia|]. unfold K in *. nia. }
    assert (B2 : 0 <= p / OW < OH). { split; [apply Z.div_pos; nia|]. apply Z.div_lt_upper_bound; [nia|]. unfold P in *. nia. }
    unfold colf. rewrite <- (RD n (t / (KH * KW)) ((t / KW) mod KH) (t mod KW) (p / OW) (p mod OW) Hn B1 M2 M1 B2 M3). f_equal.
    replace (p / OW * OW + p mod OW) with p by lia. replace ((t / (KH * KW) * KH + (t / KW) mod KH) * KW + t mod KW) with t; [reflexivity|].
    set (aa := t / (KH * KW)) in *. set (bb := (t / KW) mod KH) in *. set (cc := t mod KW) in *. set (dd := t / KW) in *. clearbody aa bb cc dd. nia. }
  set (val := fun n o p => Qcplus (Q2Qc (at_ b [o])) (sum_of (Q2Qc 0) Qcplus K (fun t => Qcmult (Q2Qc (at_ w [o; t / (KH * KW); (t / KW) mod KH; t mod KW])) (colf n t p)))).
  set (g := fun co => match co with [n; o; i; j] => val n o (i * OW + j) | _ => Q2Qc 0 end).
  assert (Canon : forall q, Q2Qc (this q) = q) by (intros q; apply Qc_is_canon; apply this_q2qc).
  assert (Img : forall n, 0 <= n < N ->
    image vec P O K (fun p => load (repeat (Q2Qc 1) (Z.to_nat (N * P))) (n * P + p)) (fun p => read cols (n * (K * P) + p)) (t_data w) (t_data b) =
    SOk (map (fun c => Some (g (n :: c))) (loops [O; OH; OW]))).
  { intros n Hn.
    destruct (image_ok vec P O K (fun p => load (repeat (Q2Qc 1) (Z.to_nat (N * P))) (n * P + p)) (fun p => read cols (n * (K * P) + p)) (t_data w) (t_data b)
      (colf n) (fun o t => Q2Qc (at_ w [o; t / (KH * KW); (t / KW) mod KH; t mod KW])) (fun o => Q2Qc (at_ b [o]))) as (m & E & L & V); auto.
    - intros p Hp. assert (A : 0 <= n * P + p < N * P) by nia. unfold load. rewrite (proj2 (Z.ltb_ge _ 0)) by lia.
      rewrite (nth_error_nth' _ (Q2Qc 1)) by (rewrite repeat_length; lia). now rewrite nth_repeat.
    - intros o Oo. destruct (load_elt b [o] Wb) as (q & Lq & Eq & _). { rewrite Sb. repeat constructor; lia. }
      rewrite Sb in Lq. cbn [position elements] in Lq. replace (o * 1 + 0) with o in Lq by lia. now rewrite Lq, <- Eq, Canon.
    - intros o t Oo Ht. assert (0 < KH /\ 0 < KW /\ 0 < C) as (KH1 & KW1 & C1) by (unfold K in *; nia).
      pose proof (Z.div_mod t KW ltac:(lia)) as D1. pose proof (Z.mod_pos_bound t KW KW1) as M1.
      pose proof (Z.div_mod (t / KW) KH ltac:(lia)) as D2. pose proof (Z.mod_pos_bound (t / KW) KH KH1) as M2. rewrite Z.div_div in D2 by lia. replace (KW * KH) with (KH * KW) in D2 by ring.
      assert (B1 : 0 <= t / (KH * KW) < C). { split; [apply Z.div_pos; nia|]. apply Z.div_lt_upper_bound; [nia|]. unfold K in *. nia. }
      destruct (load_elt w [o; t / (KH * KW); (t / KW) mod KH; t mod KW] Ww) as (q & Lq & Eq & _). { rewrite Sw. repeat constructor; lia. }
      rewrite Sw in Lq. cbn [position elements] in Lq. rewrite <- Eq, Canon, <- Lq. f_equal. unfold K.
      set (aa := t / (KH * KW)) in *. set (bb := (t / KW) mod KH) in *. set (cc := t mod KW) in *. set (dd := t / KW) in *. clearbody aa bb cc dd. nia.
    - rewrite E. f_equal. apply nth_error_ext. intros at0. rewrite nth_error_map.
      destruct (Nat.lt_ge_cases at0 (length m)) as [Hat|Hat].
      + assert (S0 : Forall (fun d => 0 <= d) [O; OH; OW]) by (repeat constructor; lia).
        assert (B : 0 <= Z.of_nat at0 < O * P) by lia. assert (0 < P) by nia. assert (OW1 : 0 < OW) by (unfold P in *; nia).
        pose proof (Z.div_mod (Z.of_nat at0) P ltac:(lia)) as D1. pose proof (Z.mod_pos_bound (Z.of_nat at0) P ltac:(lia)) as M1.
        assert (Bo : 0 <= Z.of_nat at0 / P < O) by (split; [apply Z.div_pos; lia|apply Z.div_lt_upper_bound; nia]).
        set (o := Z.of_nat at0 / P) in *. set (p := Z.of_nat at0 mod P) in *. clearbody o p.
        pose proof (Z.div_mod p OW ltac:(lia)) as D3. pose proof (Z.mod_pos_bound p OW OW1) as M3.
        assert (B2 : 0 <= p / OW < OH). { split; [apply Z.div_pos; lia|]. apply Z.div_lt_upper_bound; [lia|]. unfold P in *. nia. }
        assert (I : inside [O; OH; OW] [o; p / OW; p mod OW]) by (repeat constructor; lia).
        pose proof (nth_loops _ _ I) as NL. cbn [position elements] in NL. unfold P in D1.
        replace (o * (OH * (OW * 1)) + (p / OW * (OW * 1) + (p mod OW * 1 + 0))) with (Z.of_nat at0) in NL by lia. rewrite Nat2Z.id in NL. rewrite NL. cbn [option_map].
        pose proof (V o p Bo M1) as Vp. replace (Z.to_nat (o * P + p)) with at0 in Vp by (unfold P; lia). rewrite Vp. do 2 f_equal. cbn [g]. unfold val.
        replace (p / OW * OW + p mod OW) with p by lia. reflexivity.
      + rewrite (proj2 (nth_error_None m at0)) by lia. rewrite (proj2 (nth_error_None (loops [O; OH; OW]) at0)); [reflexivity|].
        pose proof (length_loops [O; OH; OW] ltac:(repeat constructor; lia)) as LL. cbn [elements] in LL. unfold P in *. nia. }
  exists (Tn float32 [N; O; OH; OW] (map g (loops [N; O; OH; OW]))).
  assert (Sn : Forall (fun d => 0 <= d) [N; O; OH; OW]) by (repeat constructor; lia).
  split; [|split; [now apply exec_coords_wf|split; [reflexivity|split; [reflexivity|]]]].
  - unfold dcn_v2. replace (conv_init true [0; 0; 0; 0; pad_h; pad_h; pad_w; pad_w] [1; 1; stride_h; stride_w] [1; 1; dil_h; dil_w]) with (Some win) by reflexivity.
    pose proof (Forall_inv Ts) as T1. pose proof (Forall_inv (Forall_inv_tail Ts)) as T2. pose proof (Forall_inv (Forall_inv_tail (Forall_inv_tail Ts))) as T3.
    pose proof (Forall_inv (Forall_inv_tail (Forall_inv_tail (Forall_inv_tail Ts)))) as T4. pose proof (Forall_inv (Forall_inv_tail (Forall_inv_tail (Forall_inv_tail (Forall_inv_tail Ts))))) as T5. cbn beta in *.
    assert (Inf : infer true win [t_dtype x; t_dtype w; t_dtype b; t_dtype off; t_dtype mask] (t_shape x) (t_shape w) (t_shape b) (t_shape off) (t_shape mask) = SOk (float32, [N; O; OH; OW])).
    { rewrite T1, T2, T3, T4, T5, Sx, Sw, Sb, So, Sm. unfold infer. cbn [length Nat.eqb andb negb forallb]. change (float32 =? float32) with true. cbn [andb negb].
      unfold forward, conv_size. cbn [top bottom left_ right_ ConvModel.stride_h ConvModel.stride_w ConvModel.dil_h ConvModel.dil_w win]. rewrite (proj2 (Z.eqb_neq stride_h 0)), (proj2 (Z.eqb_neq stride_w 0)) by lia.
      cbn [bind bind2 fst snd]. replace (H + pad_h + pad_h) with (H + 2 * pad_h) by ring. replace (W + pad_w + pad_w) with (W + 2 * pad_w) by ring. now rewrite EH, EW. }
    rewrite Inf. cbn [bind2 snd]. unfold is_negative at 1. cbn [existsb]. rewrite !(proj2 (Z.ltb_ge _ 0)) by lia. cbn [orb].
    unfold compute. rewrite Sx, Sw. cbn [top bottom left_ right_ ConvModel.stride_h ConvModel.stride_w ConvModel.dil_h ConvModel.dil_w win]. rewrite !Z.eqb_refl, T1. change (negb (float32 =? float32)) with false. cbn [negb]. cbn iota.
    rewrite (proj2 (Z.eqb_neq stride_h 0)), (proj2 (Z.eqb_neq stride_w 0)) by lia. cbn [orb]. cbv zeta. rewrite EH, EW. fold K P.
    unfold is_negative. cbn [existsb]. rewrite !(proj2 (Z.ltb_ge _ 0)) by lia. cbn [orb].
    destruct (list_eq_dec Z.eq_dec [N; O; OH; OW] [N; O; OH; OW]) as [_|D]; [|now destruct D]. cbn [negb].
    fold win. rewrite E1. cbn [bind2]. rewrite E2. cbn [bind2].
    rewrite (each_ok _ (fun n => map (fun c => Some (g (n :: c))) (loops [O; OH; OW]))) by (intros n Hn; apply In_upto in Hn; now apply Img).
    cbn [bind2]. unfold filled. cbn [t_dtype t_shape t_data]. rewrite (concat_loops N [O; OH; OW] (fun c => Some (g c))), map_map. reflexivity.
  - intros n o i j Hn Oo Hi Hj. exists (g [n; o; i; j]). split; [apply exec_coords_elt; now apply in_4|]. cbn [g]. unfold val.
    rewrite this_plus, this_q2qc, this_sum. apply Qplus_comp; [reflexivity|]. unfold K. replace (C * KH * KW) with (C * (KH * KW)) by ring.
    rewrite qsum_mul by nia. apply qsum_ext. intros c Hc. rewrite qsum_mul by lia. apply qsum_ext. intros p Hp. apply qsum_ext. intros q Hq.
    rewrite this_mult, !this_q2qc. unfold colf. rewrite this_q2qc.
    assert (A1 : (c * (KH * KW) + (p * KW + q)) / (KH * KW) = c) by (rewrite Z.div_add_l, Z.div_small by nia; lia).
    assert (A2 : (c * (KH * KW) + (p * KW + q)) / KW = c * KH + p).
    { replace (c * (KH * KW) + (p * KW + q)) with ((c * KH + p) * KW + q) by ring. rewrite Z.div_add_l, Z.div_small by lia. lia. }
    assert (A3 : (c * KH + p) mod KH = p) by (rewrite Z.add_comm, Z.mod_add, Z.mod_small by lia; reflexivity).
    assert (A4 : (c * (KH * KW) + (p * KW + q)) mod KW = q).
    { replace (c * (KH * KW) + (p * KW + q)) with (q + (c * KH + p) * KW) by ring. rewrite Z.mod_add, Z.mod_small by lia. reflexivity. }
    assert (A5 : (i * OW + j) / OW = i) by (rewrite Z.div_add_l, Z.div_small by lia; lia).
    assert (A6 : (i * OW + j) mod OW = j) by (rewrite Z.add_comm, Z.mod_add, Z.mod_small by lia; reflexivity).
    rewrite A1, A2, A3, A4, A5, A6. reflexivity.
Qed.
Print Assumptions C162_dcn_partial.

(** refused: padding that is not the same on both sides of an axis, though its
    shape is announced *)
Theorem C162_uneven_padding_refuted vec nchw padding stride dilation G x w b off mask win :
  conv_init nchw padding stride dilation = Some win -> (top win <> bottom win \/ left_ win <> right_ win) ->
  forall out, dcn_v2 vec nchw padding stride dilation G x w b off mask <> SOk out.
Proof.
  intros E U out. unfold dcn_v2. rewrite E. destruct (infer _ _ _ _ _ _ _ _) as [p| |]; cbn [bind2]; try discriminate. destruct (is_negative (snd p)); [discriminate|].
  unfold compute. destruct (t_shape x) as [|n [|c [|h [|wd [|]]]]]; try discriminate. destruct (t_shape w) as [|o [|ck [|kh [|kw [|]]]]]; try discriminate.
  destruct (Z.eqb_spec (top win) (bottom win)); cbn [negb]; [|discriminate]. destruct (Z.eqb_spec (left_ win) (right_ win)); cbn [negb]; [|discriminate]. exfalso. tauto.
Qed.
Print Assumptions C162_uneven_padding_refuted.

(** refused: numbers that are not single precision *)
Theorem C162_dtype_refuted vec nchw padding stride dilation G x w b off mask : t_dtype x <> float32 ->
  forall out, dcn_v2 vec nchw padding stride dilation G x w b off mask <> SOk out.
Proof.
  intros U out. unfold dcn_v2. destruct (conv_init _ _ _ _) as [win|]; [|discriminate]. destruct (infer _ _ _ _ _ _ _ _) as [p| |]; cbn [bind2]; try discriminate. destruct (is_negative (snd p)); [discriminate|].
  unfold compute. destruct (t_shape x) as [|n [|c [|h [|wd [|]]]]]; try discriminate. destruct (t_shape w) as [|o [|ck [|kh [|kw [|]]]]]; try discriminate.
  destruct (negb _); [discriminate|]. destruct (negb _); [discriminate|]. rewrite (proj2 (Z.eqb_neq _ _) U). cbn [negb]. discriminate.
Qed.
Print Assumptions C162_dtype_refuted.

(** refused: inputs that are not all of one type *)
Theorem C162_mixed_types_refused vec nchw padding stride dilation G x w b off mask t :
  In t [w; b; off; mask] -> t_dtype t <> t_dtype x ->
  dcn_v2 vec nchw padding stride dilation G x w b off mask = SErr.
Proof.
  intros I U. unfold dcn_v2. destruct (conv_init _ _ _ _) as [win|]; [|reflexivity]. unfold infer.
  destruct (t_shape x) as [|n [|x1 [|x2 [|x3 [|]]]]]; try reflexivity. destruct (t_shape w) as [|o [|w1 [|w2 [|w3 [|]]]]]; try reflexivity.
  destruct (negb (_ && _ && _)); [reflexivity|].
  assert (E : forallb (Z.eqb (t_dtype x)) [t_dtype w; t_dtype b; t_dtype off; t_dtype mask] = false).
  { apply not_true_iff_false. intros E. rewrite forallb_forall in E. apply U. symmetry. apply Z.eqb_eq, E. destruct I as [<-|[<-|[<-|[<-|[]]]]]; cbn; tauto. }
  rewrite E. reflexivity.
Qed.
Print Assumptions C162_mixed_types_refused.

(** no output without deformable groups: the channels are divided by their number *)
Theorem C162_no_groups_refuted vec nchw padding stride dilation x w b off mask :
  forall out, dcn_v2 vec nchw padding stride dilation 0 x w b off mask <> SOk out.
Proof.
  intros out. unfold dcn_v2. destruct (conv_init _ _ _ _) as [win|]; [|discriminate]. destruct (infer _ _ _ _ _ _ _ _) as [p| |]; cbn [bind2]; try discriminate. destruct (is_negative (snd p)); [discriminate|].
  unfold compute. destruct (t_shape x) as [|n [|c [|h [|wd [|]]]]]; try discriminate. destruct (t_shape w) as [|o [|ck [|kh [|kw [|]]]]]; try discriminate.
  repeat match goal with |- (if ?t then _ else _) <> _ => destruct t; try discriminate | |- (let z := _ in _) <> _ => cbv zeta end.
Qed.
Print Assumptions C162_no_groups_refuted.

Definition numbers (shape : list Z) (l : list Q) : tensor Qc := Tn float32 shape (map Q2Qc l).
Definition shown (r : sres (raw_tensor Qc)) : sres (Z * list Z * list (option Q)) :=
  match r with SOk t => SOk (t_dtype t, t_shape t, map (option_map this) (t_data t)) | SErr => SErr | SUndef => SUndef end.

(** the sizes of the offsets are not looked at: with none, the operator reads past the end *)
Definition one_cell := numbers [1; 1; 1; 1] [5%Q].
Theorem C162_offsets_refuted : exists (x w b off mask : tensor Qc), wf x /\ wf w /\ wf b /\ wf off /\ wf mask /\
  Forall (fun t => t_dtype t = float32) [x; w; b; off; mask] /\
  t_shape x = [1; 1; 1; 1] /\ t_shape w = [1; 1; 1; 1] /\ t_shape b = [1] /\ t_shape mask = [1; 1; 1; 1] /\ t_shape off = [1; 1; 1; 1] /\
  infer true (Window 0 0 0 0 1 1 1 1) [float32; float32; float32; float32; float32] (t_shape x) (t_shape w) (t_shape b) (t_shape off) (t_shape mask) = SOk (float32, [1; 1; 1; 1]) /\
  forall vec, dcn_v2 vec true [0; 0; 0; 0; 0; 0; 0; 0] [1; 1; 1; 1] [1; 1; 1; 1] 1 x w b off mask = SUndef.
Proof.
  exists one_cell, one_cell, (numbers [1] [1%Q]), one_cell, one_cell.
  repeat match goal with |- _ /\ _ => split | |- wf _ => split | |- Forall _ _ => constructor end; try reflexivity; try (cbn; lia). all: intros []; vm_compute; reflexivity.
Qed.
Print Assumptions C162_offsets_refuted.

(** three channels in two deformable groups: the third channel is in a third group,
    whose offsets are not in the tensor *)
Theorem C162_group_refuted : exists (x w b off mask : tensor Qc), wf x /\ wf w /\ wf b /\ wf off /\ wf mask /\
  Forall (fun t => t_dtype t = float32) [x; w; b; off; mask] /\
  t_shape x = [1; 3; 1; 1] /\ t_shape w = [1; 3; 1; 1] /\ t_shape b = [1] /\ t_shape off = [1; 4; 1; 1] /\ t_shape mask = [1; 2; 1; 1] /\
  forall vec, dcn_v2 vec true [0; 0; 0; 0; 0; 0; 0; 0] [1; 1; 1; 1] [1; 1; 1; 1] 2 x w b off mask = SUndef.
Proof.
  exists (numbers [1; 3; 1; 1] [1%Q; 2%Q; 3%Q]), (numbers [1; 3; 1; 1] [1%Q; 1%Q; 1%Q]), (numbers [1] [1%Q]), (numbers [1; 4; 1; 1] [0%Q; 0%Q; 0%Q; 0%Q]), (numbers [1; 2; 1; 1] [1%Q; 1%Q]).
  repeat match goal with |- _ /\ _ => split | |- wf _ => split | |- Forall _ _ => constructor end; try reflexivity; try (cbn; lia). all: intros []; vm_compute; reflexivity.
Qed.
Print Assumptions C162_group_refuted.

(** the other data format is announced but refused (here; its sizes only agree by accident) *)
Theorem C162_nhwc_refuted : exists (x w b off mask : tensor Qc), wf x /\ wf w /\ wf b /\ wf off /\ wf mask /\
  Forall (fun t => t_dtype t = float32) [x; w; b; off; mask] /\
  infer false (Window 0 0 0 0 1 1 1 1) [float32; float32; float32; float32; float32] (t_shape x) (t_shape w) (t_shape b) (t_shape off) (t_shape mask) = SOk (float32, [1; 2; 3; 1]) /\
  forall vec, dcn_v2 vec false [0; 0; 0; 0; 0; 0; 0; 0] [1; 1; 1; 1] [1; 1; 1; 1] 1 x w b off mask = SErr.
Proof.
  exists (numbers [1; 2; 3; 1] [1%Q; 2%Q; 3%Q; 4%Q; 5%Q; 6%Q]), (numbers [1; 1; 1; 1] [1%Q]), (numbers [1] [0%Q]), (numbers [1; 2; 3; 2] (repeat 0%Q 12)), (numbers [1; 2; 3; 1] (repeat 1%Q 6)).
  repeat match goal with |- _ /\ _ => split | |- wf _ => split | |- Forall _ _ => constructor end; try reflexivity; try (cbn; lia). all: intros []; vm_compute; reflexivity.
Qed.
Print Assumptions C162_nhwc_refuted.

(** A 2x3 map of two channels in two groups, a 1x1 window: the first channel is
    displaced by half a cell to the right and half a cell down, the second halved by its mask. *)
Definition demo_x := numbers [1; 2; 2; 3] [1%Q; 2%Q; 3%Q; 5%Q; 6%Q; 8%Q;  10%Q; 20%Q; 30%Q; 40%Q; 50%Q; 60%Q].
Definition demo_w := numbers [1; 2; 1; 1] [1%Q; 2%Q].
Definition demo_b := numbers [1] [100%Q].
Definition demo_off := numbers [1; 4; 2; 3] (repeat (1 # 2)%Q 12 ++ repeat 0%Q 12).
Definition demo_mask := numbers [1; 2; 2; 3] (repeat 1%Q 6 ++ repeat (1 # 2)%Q 6).
Example demo_hypotheses : wf demo_x /\ wf demo_w /\ wf demo_b /\ wf demo_off /\ wf demo_mask /\ (2 | 2) /\ places 2 0 1 1 1 2 /\ places 3 0 1 1 1 3.
Proof. unfold places. repeat match goal with |- _ /\ _ => split | |- wf _ => split | |- Forall _ _ => constructor end; try reflexivity; try (cbn; lia). Qed.
Example demo_run : shown (dcn_v2 true true [0; 0; 0; 0; 0; 0; 0; 0] [1; 1; 1; 1] [1; 1; 1; 1] 2 demo_x demo_w demo_b demo_off demo_mask) =
  SOk (float32, [1; 1; 2; 3], map Some [(227 # 2); (499 # 4); (531 # 4); (571 # 4); (307 # 2); 162]%Q).
Proof. vm_compute. reflexivity. Qed.
