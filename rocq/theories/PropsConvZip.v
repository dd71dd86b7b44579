(** C164: replacing a convolution by Winograd's method at compile time. *)
From Coq Require Import List ZArith Bool Lia Field QArith Qcanon.
From Verif Require Import ShapeModel ShapeSpec KernelBase KernelSpec EltwiseModel GemmModel GemmSpec ConvModel ConvSpec PropsConv
  WinogradModel PropsWinograd ConvZipModel.
Import ListNotations.
Local Open Scope Z_scope.

(** ** When the rule applies *)
Section When.
Context {R : Type}.

(** Exactly the 3x3 convolutions of at least 32 channels to at least 32 channels,
    with stride 1 and a dilation of 1 under its right name, in NCHW and on the CPU,
    are replaced; and the new node has the old one's padding, format and padding value *)
Theorem C164_when : forall cpu (nd : conv_node R) z,
  (forall w, weights_of nd = Some w -> length (t_shape w) = 4%nat) ->
  conv_zip cpu nd = SOk (Some z) <->
  cpu = true /\ nchw_of nd = true /\
  (exists outs c w, weights_of nd = Some w /\ t_shape w = [outs; c; 3; 3] /\ 32 <= c /\ 32 <= outs) /\
  (exists a b rest, stride_of nd = Some (a :: b :: 1 :: 1 :: rest)) /\
  (exists a b rest, dilation_of nd = Some (a :: b :: 1 :: 1 :: rest)) /\
  (layer_of nd = Conv2d /\ inputs_of nd = 2%nat /\ (exists p, padding_of nd = Some p /\ z = WinoNode (Some p) true (padding_value_of nd)) \/
   layer_of nd = Conv2dV2 /\ inputs_of nd = 3%nat /\ z = WinoNode None true (padding_value_of nd)).
Proof.
  intros cpu nd z Hw. split.
  - unfold conv_zip. destruct cpu; [|discriminate]. cbn [negb]. intros H.
    assert (L : exists v2 : bool, layer_of nd = (if v2 then Conv2dV2 else Conv2d) /\
      (if negb (nchw_of nd) then SOk None else
      bind (got (stride_of nd)) (fun stride =>
      bind (match dilation_of nd with Some d => bind (four_of d) (fun _ => SOk d) | None => SOk [0; 0; 0; 0] end) (fun dilation =>
      bind (four_of stride) (fun _ =>
      if negb (Nat.eqb (inputs_of nd) (if v2 then 3 else 2)) then SErr else
      bind (got (weights_of nd)) (fun w =>
      bind (if v2 then SOk None else bind (got (padding_of nd)) (fun p => SOk (Some p))) (fun padding =>
      bind (winograd_check (t_shape w) (nth 2 stride 0) (nth 3 stride 0) (nth 2 dilation 0) (nth 3 dilation 0)) (fun ok =>
      SOk (if ok then Some (WinoNode padding (nchw_of nd) (padding_value_of nd)) else None)))))))) = SOk (Some z)).
    { destruct (layer_of nd); [exists false|exists true|discriminate H]; split; try reflexivity; exact H. }
    clear H. destruct L as (v2 & El & H). destruct (nchw_of nd) eqn:En; [|discriminate H]. cbn [negb] in H.
    destruct (stride_of nd) as [stride|] eqn:Es; [|discriminate H]. cbn [got bind] in H.
    destruct (dilation_of nd) as [d|] eqn:Ed.
    2:{ cbn [bind] in H. destruct (four_of stride) eqn:F; try discriminate H. cbn [bind] in H.
        destruct (negb _) in H; [discriminate H|]. destruct (weights_of nd) as [w|]; [|discriminate H]. cbn [got bind] in H.
        exfalso. specialize (Hw w eq_refl). destruct (t_shape w) as [|s0 [|s1 [|s2 [|s3 [|]]]]]; try discriminate Hw.
        unfold winograd_check in H. cbn [nth Z.eqb] in H. rewrite !andb_false_r in H. cbn [andb] in H. rewrite ?andb_false_r in H. cbn [andb] in H.
        destruct v2; [discriminate H|]. destruct (padding_of nd); discriminate H. }
    destruct (four_of d) eqn:Fd; try discriminate H. cbn [bind] in H.
    destruct (four_of stride) eqn:Fs; try discriminate H. cbn [bind] in H.
    unfold four_of in Fd, Fs. destruct (Z.leb_spec 4 (Z.of_nat (length d))); [|discriminate Fd]. destruct (Z.leb_spec 4 (Z.of_nat (length stride))); [|discriminate Fs].
    destruct (Nat.eqb_spec (inputs_of nd) (if v2 then 3 else 2)) as [Ei|]; [|discriminate H]. cbn [negb] in H.
    destruct (weights_of nd) as [w|] eqn:Ew; [|discriminate H]. cbn [got bind] in H. specialize (Hw w eq_refl).
    destruct (t_shape w) as [|s0 [|s1 [|s2 [|s3 [|]]]]] eqn:Sw; try discriminate Hw.
    destruct stride as [|a1 [|b1 [|sh [|sw srest]]]]; try (cbn [length] in *; lia). destruct d as [|a2 [|b2 [|dh [|dw drest]]]]; try (cbn [length] in *; lia).
    unfold winograd_check in H. cbn [nth] in H.
    assert (exists pad, (if v2 then SOk None else bind (got (padding_of nd)) (fun p => SOk (Some p))) = SOk pad /\
       (s2 = 3 /\ s3 = 3 /\ sw = 1 /\ sh = 1 /\ dh = 1 /\ dw = 1 /\ 32 <= s1 /\ 32 <= s0) /\ z = WinoNode pad true (padding_value_of nd)) as (pad & Ep & Q & Ez).
    { destruct (if v2 then SOk None else bind (got (padding_of nd)) (fun p => SOk (Some p))) as [pad| |] eqn:Ep; try discriminate H. cbn [bind] in H.
      exists pad. split; [reflexivity|].
      destruct (Z.eqb_spec s2 3), (Z.eqb_spec s3 3), (Z.eqb_spec sw 1), (Z.eqb_spec sh 1), (Z.eqb_spec dh 1), (Z.eqb_spec dw 1), (Z.leb_spec 32 s1), (Z.leb_spec 32 s0);
        cbn [andb] in H; try discriminate H. injection H as <-. split; [|reflexivity]. repeat (split; [assumption|]). assumption. }
    destruct Q as (-> & -> & -> & -> & -> & -> & Q1 & Q2).
    split; [reflexivity|]. split; [reflexivity|]. split; [exists s0, s1, w; split; [reflexivity|split; [exact Sw|split; assumption]]|].
    split; [exists a1, b1, srest; reflexivity|]. split; [exists a2, b2, drest; reflexivity|].
    destruct v2.
    + right. injection Ep as <-. split; [exact El|split; [exact Ei|exact Ez]].
    + left. destruct (padding_of nd) as [p|]; [|discriminate Ep]. injection Ep as <-. split; [exact El|]. split; [exact Ei|]. exists p. split; [reflexivity|exact Ez].
  - intros (-> & En & (outs & c & w & Ew & Sw & Hc & Ho) & (a & b & rest & Es) & (a' & b' & rest' & Ed) & L).
    unfold conv_zip. cbn [negb]. rewrite En, Es, Ed, Ew. cbn [negb got bind].
    assert (F1 : four_of (a :: b :: 1 :: 1 :: rest) = SOk tt).
    { unfold four_of. destruct (Z.leb_spec 4 (Z.of_nat (length (a :: b :: 1 :: 1 :: rest)))); [reflexivity|cbn in *; lia]. }
    assert (F2 : four_of (a' :: b' :: 1 :: 1 :: rest') = SOk tt).
    { unfold four_of. destruct (Z.leb_spec 4 (Z.of_nat (length (a' :: b' :: 1 :: 1 :: rest')))); [reflexivity|cbn in *; lia]. }
    assert (W : winograd_check (t_shape w) 1 1 1 1 = SOk true).
    { rewrite Sw. unfold winograd_check. cbn [Z.eqb Pos.eqb andb]. destruct (Z.leb_spec 32 c), (Z.leb_spec 32 outs); try lia. reflexivity. }
    destruct L as [(El & Ei & p & Ep & ->)|(El & Ei & ->)]; rewrite El, Ei.
    + rewrite F2. cbn [bind]. rewrite F1. cbn [bind Nat.eqb negb]. rewrite Ep. cbn [got bind nth]. rewrite W. reflexivity.
    + rewrite F2. cbn [bind]. rewrite F1. cbn [bind Nat.eqb negb nth]. rewrite W. reflexivity.
Qed.
End When.

(** ** What it preserves *)
Section Props.
Context {R : Type} (rO rI : R) (radd rmul rsub rdiv : R -> R -> R) (ropp rinv : R -> R).
Hypothesis Fth : field_theory rO rI radd rmul rsub ropp rdiv rinv eq.
Local Notation num := (num rI radd rmul).
Hypothesis nz2 : num 2 <> rO.
Hypothesis nz3 : num 3 <> rO.
Hypothesis nz5 : num 5 <> rO.
Variable near : R -> R -> bool.
Hypothesis near_refl : forall x, near x x = true.

(** A conv2d that the rule replaces, that conv2d itself would accept, whose weights
    are not packed and whose paddings are not negative, gives the same answer as
    the operator that replaces it, on every input the window fits and whatever
    inputs that operator has run on before *)
Theorem C164_same_answer_partial : forall (nd : conv_node R) z w,
  layer_of nd = Conv2d -> conv_zip true nd = SOk (Some z) -> weights_of nd = Some w ->
  wf w -> t_dtype w = 10 -> length (t_shape w) = 4%nat ->
  forall pt pb pl pr, padding_of nd = Some [0; 0; 0; 0; pt; pb; pl; pr] -> 0 <= pt -> 0 <= pb -> 0 <= pl -> 0 <= pr ->
  stride_of nd = Some [1; 1; 1; 1] -> dilation_of nd = Some [1; 1; 1; 1] -> packed_of nd <> Some true ->
  forall earlier x n h wd, wf x -> t_dtype x = 10 -> t_shape x = [n; nth 1 (t_shape w) 0; h; wd] -> 3 <= h + pt + pb -> 3 <= wd + pl + pr ->
  run_zipped rO rI radd rmul rsub rdiv ropp near z (map (fun x' => (x', w)) earlier) x w = run_node rO rI radd rmul near nd x w.
Proof.
  intros nd z w El Ez Ew Ww Tw Lw pt pb pl pr Ep P1 P2 P3 P4 Es Ed Hk earlier x n h wd Wx Tx Sx Hh Hwd.
  apply C164_when in Ez; [|intros w' E; congruence]. destruct Ez as (_ & En & (outs & c & w' & Ew' & Sw & _ & _) & _ & _ & L).
  rewrite Ew in Ew'. injection Ew' as <-. destruct L as [(_ & _ & p & Ep' & ->)|(El' & _)]; [|congruence].
  rewrite Ep in Ep'. injection Ep' as <-. unfold run_zipped, run_node. cbn [w_padding w_nchw w_padding_value]. rewrite Ep, Es, Ed, En. cbn [got bind].
  rewrite Sw in Sx. cbn [nth] in Sx.
  assert (K : match packed_of nd with Some b => b | None => false end = false) by (destruct (packed_of nd) as [[|]|]; congruence).
  rewrite K.
  exact (C105_same_as_conv2d rO rI radd rmul rsub rdiv ropp rinv Fth nz2 nz3 nz5 near near_refl false earlier _ x w n c h wd outs pt pb pl pr Wx Ww Tx Tw Sx Sw P1 P2 P3 P4 Hh Hwd).
Qed.
End Props.

(** ** Over the rationals *)
Definition zipped_q := run_zipped q0 q1 Qcplus Qcmult Qcminus Qcdiv Qcopp qc_near.
Definition node_q := run_node q0 q1 Qcplus Qcmult qc_near.
(** 32 kernels of 32 channels whose elements are numbered, and an image of one pixel *)
Definition numbered := Tn 10 [32; 32; 3; 3] (map qz (upto 9216)).
Definition pixel := Tn 10 [1; 32; 3; 3] (q1 :: map (fun _ => q0) (upto 287)).
Definition plain (packed : option bool) (stride : list Z) :=
  ConvNode Conv2d true (Some [0; 0; 0; 0; 0; 0; 0; 0]) None (Some stride) (Some [1; 1; 1; 1]) None packed 2 (Some numbered).
Definition element (r : sres (raw_tensor Qc)) (k : nat) : option (Z * positive) :=
  match r with SOk t => match nth_error (t_data t) k with Some (Some v) => Some (Qnum (this v), Qden (this v)) | _ => None end | _ => None end.

Lemma wf_numbered : wf numbered.
Proof. split; [repeat constructor; lia|]. vm_compute. reflexivity. Qed.
Lemma wf_pixel : wf pixel.
Proof. split; [repeat constructor; lia|]. vm_compute. reflexivity. Qed.
Lemma zipped_plain packed a b : (a = 1 /\ b = 1 \/ a = 2 /\ b = 1) -> conv_zip true (plain packed [a; b; 1; 1]) = SOk (Some (WinoNode (Some [0; 0; 0; 0; 0; 0; 0; 0]) true None)).
Proof. intros [[-> ->]|[-> ->]]; reflexivity. Qed.
Lemma zipped_answer : zipped_q (WinoNode (Some [0; 0; 0; 0; 0; 0; 0; 0]) true None) [] pixel numbered = node_q (plain None [1; 1; 1; 1]) pixel numbered.
Proof.
  destruct C105_rationals as (Fth & N2 & N3 & N5 & Nr).
  apply (C164_same_answer_partial q0 q1 Qcplus Qcmult Qcminus Qcdiv Qcopp Qcinv Fth N2 N3 N5 qc_near Nr (plain None [1; 1; 1; 1])
    (WinoNode (Some [0; 0; 0; 0; 0; 0; 0; 0]) true None) numbered) with (earlier := []) (pt := 0) (pb := 0) (pl := 0) (pr := 0) (n := 1) (h := 3) (wd := 3);
    try reflexivity; try lia; [exact wf_numbered|discriminate|exact wf_pixel].
Qed.

Definition two (r : sres (raw_tensor Qc)) : option (Z * positive) * option (Z * positive) :=
  match r with
  | SOk t => let f k := match nth_error (t_data t) k with Some (Some v) => Some (Qnum (this v), Qden (this v)) | _ => None end in (f 1%nat, f 2%nat)
  | _ => (None, None)
  end.
Lemma two_elements r a b : two r = (a, b) -> element r 1 = a /\ element r 2 = b.
Proof. destruct r; cbn [two]; intros [= <- <-]; split; reflexivity. Qed.
Lemma plain_elements : element (node_q (plain None [1; 1; 1; 1]) pixel numbered) 1 = Some (288, 1%positive) /\
  element (node_q (plain None [1; 1; 1; 1]) pixel numbered) 2 = Some (576, 1%positive).
Proof. apply two_elements. vm_cast_no_check (eq_refl (Some (288, 1%positive), Some (576, 1%positive))). Qed.

(** Packed weights are taken for plain ones by the operator that replaces conv2d *)
Theorem C164_packed_refuted : exists z,
  conv_zip true (plain (Some true) [1; 1; 1; 1]) = SOk (Some z) /\
  element (zipped_q z [] pixel numbered) 1 = Some (288, 1%positive) /\
  element (node_q (plain (Some true) [1; 1; 1; 1]) pixel numbered) 1 = Some (1, 1%positive).
Proof.
  exists (WinoNode (Some [0; 0; 0; 0; 0; 0; 0; 0]) true None). split; [apply zipped_plain; now left|]. split.
  - rewrite zipped_answer. exact (proj1 plain_elements).
  - vm_compute. reflexivity.
Qed.

(** A stride over the images, which conv2d refuses, is forgotten *)
Theorem C164_stride_refuted : exists z,
  conv_zip true (plain None [2; 1; 1; 1]) = SOk (Some z) /\
  element (zipped_q z [] pixel numbered) 1 = Some (288, 1%positive) /\
  node_q (plain None [2; 1; 1; 1]) pixel numbered = SErr.
Proof.
  exists (WinoNode (Some [0; 0; 0; 0; 0; 0; 0; 0]) true None). split; [apply zipped_plain; now right|]. split.
  - rewrite zipped_answer. exact (proj1 plain_elements).
  - reflexivity.
Qed.

(** A case of the hypotheses of C164_same_answer_partial, and its value *)
Example C164_example :
  conv_zip true (plain None [1; 1; 1; 1]) <> SOk None /\ wf numbered /\ wf pixel /\
  zipped_q (WinoNode (Some [0; 0; 0; 0; 0; 0; 0; 0]) true None) [] pixel numbered = node_q (plain None [1; 1; 1; 1]) pixel numbered /\
  element (node_q (plain None [1; 1; 1; 1]) pixel numbered) 2 = Some (576, 1%positive).
Proof.
  split; [discriminate|]. split; [exact wf_numbered|]. split; [exact wf_pixel|]. split; [exact zipped_answer|]. exact (proj2 plain_elements).
Qed.

Print Assumptions C164_when.
Print Assumptions C164_same_answer_partial.
Print Assumptions C164_packed_refuted.
Print Assumptions C164_stride_refuted.
Print Assumptions C164_example.
