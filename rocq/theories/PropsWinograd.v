(** C105: convolution by Winograd's method. *)
From Coq Require Import List ZArith Bool Lia Ring Field QArith Qcanon.
From Verif Require Import ShapeModel ShapeSpec ShapeProofs KernelBase KernelSpec KernelProofs EltwiseModel
  GemmModel GemmSpec GemmProofs ConvModel ConvSpec ConvProofs PropsConv WinogradModel WinogradAlgebra WinogradProofs.
Import ListNotations.
Local Open Scope Z_scope.

Section Props.
Context {R : Type} (rO rI : R) (radd rmul rsub rdiv : R -> R -> R) (ropp rinv : R -> R).
Hypothesis Fth : field_theory rO rI radd rmul rsub ropp rdiv rinv eq.
Local Notation num := (num rI radd rmul).
Hypothesis nz2 : num 2 <> rO.
Hypothesis nz3 : num 3 <> rO.
Hypothesis nz5 : num 5 <> rO.
Variable near : R -> R -> bool.
Hypothesis near_refl : forall x, near x x = true.
Local Notation wino_run := (wino_run rO rI radd rmul rsub rdiv ropp near).
Local Notation wino_runs := (wino_runs rO rI radd rmul rsub rdiv ropp near).
Local Notation conv2d := (conv2d rO rI radd rmul near).
Local Notation kernel_tile := (kernel_tile rO rI radd rmul rdiv ropp).

(** the cached kernel is that of [w] *)
Definition cached_for (w : tensor R) (outs c : Z) (m : wino_mode) (kt : list (option R)) : Prop :=
  exists data, kt = map Some data /\
  forall ii, 0 <= ii < (tile m + 2) * (tile m + 2) ->
    packed_rows outs c (fun p => read kt (ii * (outs * c) + p))
      (fun o ch => kernel_tile m (fun p q => value rO w [o; ch; p; q]) (ii / (tile m + 2)) (ii mod (tile m + 2))).

Lemma cached m (w : tensor R) outs c : wf w -> t_shape w = [outs; c; 3; 3] ->
  exists kt, transform_kernel rO rI radd rmul rdiv ropp m (load (t_data w)) outs c = SOk kt /\ cached_for w outs c m kt.
Proof using Fth.
  intros W S. assert (N : 0 <= outs /\ 0 <= c).
  { destruct W as [F _]. rewrite S in F. inversion F as [|? ? F1 Fa]; subst. inversion Fa as [|? ? F2 Fb]; subst. auto. }
  destruct (transform_kernel_ok rO rI radd rmul rsub rdiv ropp rinv Fth m (load (t_data w)) outs c (fun o ch p q => value rO w [o; ch; p; q])) as (kt & E & P); [tauto|tauto| |].
  - intros p q i j Hp Hq Hi Hj. rewrite <- (load_value rO w [p; q; i; j] W) by (rewrite S; now apply in_4).
    f_equal. rewrite S. cbn [position elements]. ring.
  - exists (map Some kt). split; [exact E|]. exists kt. split; [reflexivity|exact P].
Qed.

(** what the forward pass computes with a cached kernel *)
Lemma forward_ok (x w : tensor R) m kt n c h wd outs pt pb pl pr pv :
  wf x -> wf w -> t_dtype x = 10 -> t_shape x = [n; c; h; wd] -> t_shape w = [outs; c; 3; 3] ->
  0 <= pt -> 0 <= pb -> 0 <= pl -> 0 <= pr -> 3 <= h + pt + pb -> 3 <= wd + pl + pr -> cached_for w outs c m kt ->
  exists out, wino_forward rO rI radd rmul rsub rdiv near true m kt pt pb pl pr pv n c h wd outs (h + pt + pb - 2) (wd + pl + pr - 2) x = SOk (filled out) /\
    wf out /\ t_dtype out = 10 /\ t_shape out = [n; outs; h + pt + pb - 2; wd + pl + pr - 2] /\
    forall b o i j, inside (t_shape out) [b; o; i; j] ->
      elt out [b; o; i; j] = Some (convolution rO radd rmul x w c h wd 3 3 pv pt pl 1 1 1 1 b o i j).
Proof using Fth nz2 nz3 nz5 near_refl.
  intros Wx Ww Tx Sx Sw Hpt Hpb Hpl Hpr Hh Hw (data & -> & Hk).
  assert (Nx : 0 <= n /\ 0 <= c /\ 0 <= h /\ 0 <= wd).
  { destruct Wx as [F _]. rewrite Sx in F. inversion F as [|? ? F1 Fa]; subst. inversion Fa as [|? ? F2 Fb]; subst. inversion Fb as [|? ? F3 Fc]; subst. inversion Fc; subst. auto. }
  assert (No : 0 <= outs). { destruct Ww as [F _]. rewrite Sw in F. inversion F; subst. assumption. }
  destruct Nx as (Nn & Nc & Nh & Nw).
  destruct (winograd_ok rO rI radd rmul rsub rdiv ropp rinv Fth nz2 nz3 nz5 near near_refl m (load (t_data x)) (read (map Some data)) n c h wd outs
     (h + pt + pb - 2) (wd + pl + pr - 2) pt pb pl pr pv (fun b ch i j => value rO x [b; ch; i; j]) (fun o ch p q => value rO w [o; ch; p; q])) as (out & E & L & P);
    try assumption; try reflexivity; try lia.
  { intros b ch i j Hb Hc Hi Hj. rewrite <- (load_value rO x [b; ch; i; j] Wx) by (rewrite Sx; now apply in_4). f_equal. rewrite Sx. cbn [position elements]. ring. }
  exists (Tn 10 [n; outs; h + pt + pb - 2; wd + pl + pr - 2] out).
  split; [unfold wino_forward; rewrite Tx; cbn [negb]; change (10 =? 10) with true; cbn [negb]; rewrite E; reflexivity|].
  split; [split; [|exact L]|split; [reflexivity|split; [reflexivity|]]].
  { cbn [t_shape]. constructor; [exact Nn|]. constructor; [exact No|]. constructor; [lia|]. constructor; [lia|constructor]. }
  intros b o i j Hin. cbn [t_shape] in Hin. apply inside_4 in Hin. destruct Hin as (b' & o' & i' & j' & Eq & Hb & Ho & Hi & Hj).
  injection Eq as -> -> -> ->. unfold elt. cbn [t_shape t_data]. rewrite P by assumption. f_equal. unfold convolution.
  apply sum_ext. intros ch _. apply sum_ext. intros p _. apply sum_ext. intros q _. replace (i' * 1 + p * 1 - pt) with (i' + p - pt) by lia. replace (j' * 1 + q * 1 - pl) with (j' + q - pl) by lia. reflexivity.
Qed.

Lemma wino_init_ok pt pb pl pr : wino_init true [0; 0; 0; 0; pt; pb; pl; pr] = Some (pt, pb, pl, pr).
Proof. reflexivity. Qed.
Lemma forward_size pt pb pl pr h wd : forward (Window pt pb pl pr 1 1 1 1) h wd 3 3 = SOk (h + pt + pb - 2, wd + pl + pr - 2).
Proof.
  unfold forward, conv_size. cbn [top bottom left_ right_ stride_h stride_w dil_h dil_w]. change (1 =? 0) with false.
  cbn [bind]. rewrite !Z.quot_1_r. change (1 * (3 - 1) + 1) with 3.
  replace (h + pt + pb - 3 + 1) with (h + pt + pb - 2) by lia. replace (wd + pl + pr - 3 + 1) with (wd + pl + pr - 2) by lia. reflexivity.
Qed.

(** one run *)
Lemma run_ok st pv (x w u : tensor R) n c h wd outs pt pb pl pr :
  wf x -> wf w -> t_dtype x = 10 -> t_dtype w = 10 -> t_shape x = [n; c; h; wd] -> t_shape w = [outs; c; 3; 3] ->
  (exists w1 w2 w3, t_shape u = [outs; w1; w2; w3]) ->
  0 <= pt -> 0 <= pb -> 0 <= pl -> 0 <= pr -> 3 <= h + pt + pb -> 3 <= wd + pl + pr ->
  (match st with (true, Some (m, kt)) => cached_for w outs c m kt | _ => u = w end) ->
  exists out, snd (wino_run true [0; 0; 0; 0; pt; pb; pl; pr] pv st x u) = SOk (filled out) /\ wf out /\
    t_dtype out = 10 /\ t_shape out = [n; outs; h + pt + pb - 2; wd + pl + pr - 2] /\
    forall b o i j, inside (t_shape out) [b; o; i; j] ->
      elt out [b; o; i; j] = Some (convolution rO radd rmul x w c h wd 3 3 pv pt pl 1 1 1 1 b o i j).
Proof using Fth nz2 nz3 nz5 near_refl.
  intros Wx Ww Tx Tw Sx Sw (w1 & w2 & w3 & Su) Hpt Hpb Hpl Hpr Hh Hw Hst.
  unfold WinogradModel.wino_run. rewrite wino_init_ok, Sx, Su. rewrite forward_size.
  destruct (Z.ltb_spec (h + pt + pb - 2) 0); [lia|]. destruct (Z.ltb_spec (wd + pl + pr - 2) 0); [lia|]. cbn [orb].
  assert (Fresh : u = w -> exists out,
     snd (if negb (t_dtype u =? 10) then ((fst st, Some (mode_select c outs h wd, fresh (outs * w1 * ((tile (mode_select c outs h wd) + 2) * (tile (mode_select c outs h wd) + 2))))), SErr)
          else match transform_kernel rO rI radd rmul rdiv ropp (mode_select c outs h wd) (load (t_data u)) outs w1 with
            | SOk kt => ((true, Some (mode_select c outs h wd, kt)), wino_forward rO rI radd rmul rsub rdiv near true (mode_select c outs h wd) kt pt pb pl pr pv n c h wd outs (h + pt + pb - 2) (wd + pl + pr - 2) x)
            | SErr => ((fst st, Some (mode_select c outs h wd, fresh (outs * w1 * ((tile (mode_select c outs h wd) + 2) * (tile (mode_select c outs h wd) + 2))))), SErr)
            | SUndef => ((fst st, Some (mode_select c outs h wd, fresh (outs * w1 * ((tile (mode_select c outs h wd) + 2) * (tile (mode_select c outs h wd) + 2))))), SUndef)
            end) = SOk (filled out) /\ wf out /\
    t_dtype out = 10 /\ t_shape out = [n; outs; h + pt + pb - 2; wd + pl + pr - 2] /\
    forall b o i j, inside (t_shape out) [b; o; i; j] ->
      elt out [b; o; i; j] = Some (convolution rO radd rmul x w c h wd 3 3 pv pt pl 1 1 1 1 b o i j)).
  { intros ->. rewrite Tw. change (10 =? 10) with true. cbn [negb]. rewrite Sw in Su. injection Su as <- _ _.
    destruct (cached (mode_select c outs h wd) w outs c Ww Sw) as (kt & -> & C). cbn [snd]. now apply forward_ok. }
  destruct st as [[|] [[m kt]|]]; try (exact (Fresh Hst)). cbn [snd]. now apply forward_ok.
Qed.

(** what an object remembers of its first weights *)
Definition remembers (w : tensor R) (outs c : Z) (st : wino_state (R := R)) : Prop :=
  match st with (true, Some (m, kt)) => cached_for w outs c m kt | _ => True end.

Lemma run_remembers padding pv st (x w : tensor R) outs c : wf w -> t_dtype w = 10 -> t_shape w = [outs; c; 3; 3] ->
  remembers w outs c st -> remembers w outs c (fst (wino_run true padding pv st x w)).
Proof using Fth.
  intros Ww Tw Sw Hst. unfold WinogradModel.wino_run. destruct (wino_init true padding) as [(((pt, pb), pl), pr)|]; [|exact Hst].
  destruct (t_shape x) as [|n [|x1 [|x2 [|x3 [|]]]]]; try exact Hst. rewrite Sw.
  destruct (forward _ x2 x3 3 3) as [(oh, ow)| |]; try exact Hst. destruct ((oh <? 0) || (ow <? 0)); [exact Hst|].
  rewrite Tw. change (10 =? 10) with true. cbn [negb].
  destruct (cached (mode_select x1 outs x2 x3) w outs c Ww Sw) as (kt & -> & C).
  destruct st as [[|] [[m kt']|]]; cbn [fst remembers]; try exact C. exact Hst.
Qed.

Lemma runs_remember padding pv (w : tensor R) outs c : wf w -> t_dtype w = 10 -> t_shape w = [outs; c; 3; 3] ->
  forall xs st, remembers w outs c st -> remembers w outs c (wino_runs true padding pv st (map (fun x => (x, w)) xs)).
Proof using Fth.
  intros Ww Tw Sw. induction xs as [|x xs IH]; intros st Hst; [exact Hst|]. cbn [map WinogradModel.wino_runs]. apply IH. now apply run_remembers.
Qed.

(** C105: a new operator object (with the attribute for transformed weights
    set or not), after any number of runs with the same weights and any
    inputs, computes the convolution of its input: for all sizes, both tile
    sizes, paddings of the input that are not negative. *)
Theorem C105_winograd_partial : forall attribute xs pv (x w : tensor R) n c h wd outs pt pb pl pr,
  wf x -> wf w -> t_dtype x = 10 -> t_dtype w = 10 -> t_shape x = [n; c; h; wd] -> t_shape w = [outs; c; 3; 3] ->
  0 <= pt -> 0 <= pb -> 0 <= pl -> 0 <= pr -> 3 <= h + pt + pb -> 3 <= wd + pl + pr ->
  let padding := [0; 0; 0; 0; pt; pb; pl; pr] in
  exists out, snd (wino_run true padding pv (wino_runs true padding pv (attribute, None) (map (fun x' => (x', w)) xs)) x w) = SOk (filled out) /\ wf out /\
    t_dtype out = 10 /\ t_shape out = [n; outs; h + pt + pb - 2; wd + pl + pr - 2] /\
    forall b o i j, inside (t_shape out) [b; o; i; j] ->
      elt out [b; o; i; j] = Some (convolution rO radd rmul x w c h wd 3 3 pv pt pl 1 1 1 1 b o i j).
Proof using Fth nz2 nz3 nz5 near_refl.
  intros attribute xs pv x w n c h wd outs pt pb pl pr Wx Ww Tx Tw Sx Sw Hpt Hpb Hpl Hpr Hh Hw padding.
  apply (run_ok _ pv x w w n c h wd outs pt pb pl pr); try assumption; [now exists c, 3, 3|].
  assert (Hr := runs_remember padding pv w outs c Ww Tw Sw xs (attribute, None)).
  assert (H0 : remembers w outs c (attribute, None)) by (destruct attribute; exact I). specialize (Hr H0).
  destruct (wino_runs true padding pv (attribute, None) (map (fun x' => (x', w)) xs)) as [[|] [[m kt]|]]; auto.
Qed.

Lemma results_equal (o1 o2 : tensor R) s (f : Z -> Z -> Z -> Z -> R) d1 d2 d3 d4 : s = [d1; d2; d3; d4] ->
  wf o1 -> wf o2 -> t_dtype o1 = t_dtype o2 -> t_shape o1 = s -> t_shape o2 = s ->
  (forall b o i j, inside (t_shape o1) [b; o; i; j] -> elt o1 [b; o; i; j] = Some (f b o i j)) ->
  (forall b o i j, inside (t_shape o2) [b; o; i; j] -> elt o2 [b; o; i; j] = Some (f b o i j)) -> o1 = o2.
Proof.
  intros Es W1 W2 T S1 S2 P1 P2. apply tensor_ext; auto; [congruence|]. intros l Hl. pose proof Hl as Hl'. rewrite S1, Es in Hl'.
  apply inside_4 in Hl'. destruct Hl' as (b & o & i & j & -> & _). rewrite P1 by exact Hl. rewrite P2 by (rewrite S2; now rewrite <- S1). reflexivity.
Qed.

(** C105: it may replace conv2d with stride 1 (as the compiler does). *)
Theorem C105_same_as_conv2d : forall attribute xs pv (x w : tensor R) n c h wd outs pt pb pl pr,
  wf x -> wf w -> t_dtype x = 10 -> t_dtype w = 10 -> t_shape x = [n; c; h; wd] -> t_shape w = [outs; c; 3; 3] ->
  0 <= pt -> 0 <= pb -> 0 <= pl -> 0 <= pr -> 3 <= h + pt + pb -> 3 <= wd + pl + pr ->
  let padding := [0; 0; 0; 0; pt; pb; pl; pr] in
  snd (wino_run true padding pv (wino_runs true padding pv (attribute, None) (map (fun x' => (x', w)) xs)) x w) =
  conv2d true padding [1; 1; 1; 1] [1; 1; 1; 1] pv false x w.
Proof using Fth nz2 nz3 nz5 near_refl.
  intros attribute xs pv x w n c h wd outs pt pb pl pr Wx Ww Tx Tw Sx Sw Hpt Hpb Hpl Hpr Hh Hw padding.
  destruct (C105_winograd_partial attribute xs pv x w n c h wd outs pt pb pl pr Wx Ww Tx Tw Sx Sw Hpt Hpb Hpl Hpr Hh Hw) as (o1 & E1 & W1 & T1 & S1 & P1).
  destruct (C89_conv2d_partial rO rI radd rmul (Rth rO rI radd rmul rsub rdiv ropp rinv Fth) near near_refl padding [1; 1; 1; 1] [1; 1; 1; 1] pv x w n c h wd outs 3 3 pt pb pl pr 1 1 1 1)
    as (o2 & E2 & W2 & T2 & S2 & P2); try assumption; try reflexivity; try lia.
  fold padding in E1. rewrite E1, E2. do 2 f_equal.
  apply (results_equal o1 o2 [n; outs; h + pt + pb - 2; wd + pl + pr - 2] (fun b o i j => convolution rO radd rmul x w c h wd 3 3 pv pt pl 1 1 1 1 b o i j) _ _ _ _ eq_refl); try assumption.
  - congruence.
  - rewrite S2. rewrite !Z.div_1_r. change (1 * (3 - 1) + 1) with 3.
    replace (h + pt + pb - 3 + 1) with (h + pt + pb - 2) by lia. replace (wd + pl + pr - 3 + 1) with (wd + pl + pr - 2) by lia. reflexivity.
Qed.

(** C105 is not so when the weights change: an object that has run keeps the
    first weights, whatever tensor of weights with as many outputs it is
    given. *)
Theorem C105_first_weights : forall attribute pv (x0 x w0 w : tensor R) n0 n c h wd h0 wd0 outs w1 w2 w3 pt pb pl pr,
  wf x -> wf w0 -> t_dtype x = 10 -> t_dtype w0 = 10 -> t_shape x0 = [n0; c; h0; wd0] -> t_shape x = [n; c; h; wd] ->
  t_shape w0 = [outs; c; 3; 3] -> t_shape w = [outs; w1; w2; w3] ->
  0 <= pt -> 0 <= pb -> 0 <= pl -> 0 <= pr -> 3 <= h + pt + pb -> 3 <= wd + pl + pr -> 3 <= h0 + pt + pb -> 3 <= wd0 + pl + pr ->
  let padding := [0; 0; 0; 0; pt; pb; pl; pr] in
  snd (wino_run true padding pv (fst (wino_run true padding pv (attribute, None) x0 w0)) x w) =
  conv2d true padding [1; 1; 1; 1] [1; 1; 1; 1] pv false x w0.
Proof using Fth nz2 nz3 nz5 near_refl.
  intros attribute pv x0 x w0 w n0 n c h wd h0 wd0 outs w1 w2 w3 pt pb pl pr Wx Ww Tx Tw Sx0 Sx Sw0 Sw Hpt Hpb Hpl Hpr Hh Hw Hh0 Hw0 padding.
  assert (Hst : exists m kt, fst (wino_run true padding pv (attribute, None) x0 w0) = (true, Some (m, kt)) /\ cached_for w0 outs c m kt).
  { unfold WinogradModel.wino_run, padding. rewrite wino_init_ok, Sx0, Sw0, forward_size.
    destruct (Z.ltb_spec (h0 + pt + pb - 2) 0); [lia|]. destruct (Z.ltb_spec (wd0 + pl + pr - 2) 0); [lia|]. cbn [orb]. rewrite Tw.
    change (10 =? 10) with true. cbn [negb]. destruct (cached (mode_select c outs h0 wd0) w0 outs c Ww Sw0) as (kt & -> & C).
    exists (mode_select c outs h0 wd0), kt. split; [|exact C]. now destruct attribute. }
  destruct Hst as (m & kt & -> & C).
  destruct (run_ok (true, Some (m, kt)) pv x w0 w n c h wd outs pt pb pl pr) as (o1 & E1 & W1 & T1 & S1 & P1); try assumption; [now exists w1, w2, w3|].
  destruct (C89_conv2d_partial rO rI radd rmul (Rth rO rI radd rmul rsub rdiv ropp rinv Fth) near near_refl padding [1; 1; 1; 1] [1; 1; 1; 1] pv x w0 n c h wd outs 3 3 pt pb pl pr 1 1 1 1)
    as (o2 & E2 & W2 & T2 & S2 & P2); try assumption; try reflexivity; try lia.
  fold padding in E1. rewrite E1, E2. do 2 f_equal.
  apply (results_equal o1 o2 [n; outs; h + pt + pb - 2; wd + pl + pr - 2] (fun b o i j => convolution rO radd rmul x w0 c h wd 3 3 pv pt pl 1 1 1 1 b o i j) _ _ _ _ eq_refl); try assumption.
  - congruence.
  - rewrite S2. rewrite !Z.div_1_r. change (1 * (3 - 1) + 1) with 3.
    replace (h + pt + pb - 3 + 1) with (h + pt + pb - 2) by lia. replace (wd + pl + pr - 3 + 1) with (wd + pl + pr - 2) by lia. reflexivity.
Qed.
End Props.

(** ** Concrete cases, over the rationals *)
Definition qc_near (a b : Qc) : bool := if Qc_eq_dec a b then true else false.
Lemma qc_near_refl x : qc_near x x = true.
Proof. unfold qc_near. now destruct (Qc_eq_dec x x). Qed.
Definition qz (z : Z) : Qc := Q2Qc (inject_Z z).
Definition q0 := Q2Qc 0.
Definition q1 := Q2Qc 1.
Definition qrun := wino_run q0 q1 Qcplus Qcmult Qcminus Qcdiv Qcopp qc_near.
Definition qconv padding := conv2d q0 q1 Qcplus Qcmult qc_near true padding [1; 1; 1; 1] [1; 1; 1; 1] q0 false.
(** the numbers of a result, as plain fractions *)
Definition numbers (r : sres (raw_tensor Qc)) : sres (list Z * list (option (Z * positive))) :=
  lift1 (fun t => (t_shape t, map (option_map (fun q => (Qnum (this q), Qden (this q)))) (t_data t))) r.
Definition qt (s l : list Z) : tensor Qc := Tn 10 s (map qz l).

(** the hypotheses on the numbers hold of the rationals *)
Theorem C105_rationals : field_theory q0 q1 Qcplus Qcmult Qcminus Qcopp Qcdiv Qcinv eq /\
  num q1 Qcplus Qcmult 2 <> q0 /\ num q1 Qcplus Qcmult 3 <> q0 /\ num q1 Qcplus Qcmult 5 <> q0 /\ forall x, qc_near x x = true.
Proof.
  split; [exact Qcft|].
  split; [intros H; apply (f_equal this) in H; vm_compute in H; discriminate|].
  split; [intros H; apply (f_equal this) in H; vm_compute in H; discriminate|].
  split; [intros H; apply (f_equal this) in H; vm_compute in H; discriminate|exact qc_near_refl].
Qed.

Definition image3 := qt [1; 1; 3; 3] [1; 2; 3; 4; 5; 6; 7; 8; 9].
Definition weights3 := qt [1; 1; 3; 3] [1; 0; -1; 2; 0; -2; 1; 0; -1].
Definition image4 := qt [1; 1; 4; 4] [1; 2; 3; 4; 5; 6; 7; 8; 9; 10; 11; 12; 13; 14; 15; 16].
Definition delta := qt [1; 1; 3; 3] [1; 0; 0; 0; 0; 0; 0; 0; 0].

(** a 3x3 image padded by one: one tile and a half in each direction *)
Theorem C105_example :
  numbers (snd (qrun true [0; 0; 0; 0; 1; 1; 1; 1] q0 (false, None) image3 weights3)) =
    SOk ([1; 1; 3; 3], map (fun z => Some (z, 1%positive)) [-9; -6; 9; -20; -8; 20; -21; -6; 21]) /\
  numbers (qconv [0; 0; 0; 0; 1; 1; 1; 1] image3 weights3) =
    SOk ([1; 1; 3; 3], map (fun z => Some (z, 1%positive)) [-9; -6; 9; -20; -8; 20; -21; -6; 21]).
Proof. split; vm_compute; reflexivity. Qed.

(** the second run below is given weights that are all zero *)
Theorem C105_weights_refuted :
  numbers (snd (qrun true [0; 0; 0; 0; 0; 0; 0; 0] q0 (fst (qrun true [0; 0; 0; 0; 0; 0; 0; 0] q0 (false, None) image3 weights3)) image3 (qt [1; 1; 3; 3] [0; 0; 0; 0; 0; 0; 0; 0; 0]))) =
    SOk ([1; 1; 1; 1], [Some (-8, 1%positive)]) /\
  numbers (qconv [0; 0; 0; 0; 0; 0; 0; 0] image3 (qt [1; 1; 3; 3] [0; 0; 0; 0; 0; 0; 0; 0; 0])) = SOk ([1; 1; 1; 1], [Some (0, 1%positive)]).
Proof. split; vm_compute; reflexivity. Qed.

(** C105 is not so for negative paddings: one row added on top and one
    removed at the bottom is taken for no padding. *)
Theorem C105_negative_padding_refuted :
  numbers (snd (qrun true [0; 0; 0; 0; 1; -1; 0; 0] q0 (false, None) image4 delta)) =
    SOk ([1; 1; 2; 2], map (fun z => Some (z, 1%positive)) [1; 2; 5; 6]) /\
  numbers (qconv [0; 0; 0; 0; 1; -1; 0; 0] image4 delta) = SOk ([1; 1; 2; 2], map (fun z => Some (z, 1%positive)) [0; 0; 1; 2]).
Proof. split; vm_compute; reflexivity. Qed.

(** C105: sizes the method is not made for are not refused: a 4x4 kernel is
    read as a 3x3 one, weights for two channels are applied to one, and a 1x1
    kernel is read beyond its end. *)
Theorem C105_kernel_size_refuted :
  numbers (snd (qrun true [0; 0; 0; 0; 0; 0; 0; 0] q0 (false, None) image4 image4)) = SOk ([1; 1; 2; 2], map (fun z => Some (z, 1%positive)) [348; 393; 528; 573]) /\
  numbers (qconv [0; 0; 0; 0; 0; 0; 0; 0] image4 image4) = SOk ([1; 1; 1; 1], [Some (1496, 1%positive)]) /\
  numbers (snd (qrun true [0; 0; 0; 0; 0; 0; 0; 0] q0 (false, None) image3 (qt [1; 2; 3; 3] [1; 1; 1; 1; 1; 1; 1; 1; 1; 0; 0; 0; 0; 0; 0; 0; 0; 0]))) <> SErr /\
  numbers (qconv [0; 0; 0; 0; 0; 0; 0; 0] image3 (qt [1; 2; 3; 3] [1; 1; 1; 1; 1; 1; 1; 1; 1; 0; 0; 0; 0; 0; 0; 0; 0; 0])) = SErr /\
  snd (qrun true [0; 0; 0; 0; 0; 0; 0; 0] q0 (false, None) image3 (qt [1; 1; 1; 1] [1])) = SUndef.
Proof.
  split; [vm_compute; reflexivity|]. split; [vm_compute; reflexivity|]. split; [vm_compute; discriminate|]. split; vm_compute; reflexivity.
Qed.

(** C105: with the attribute set, weights of another type are refused once;
    the next run, with proper weights, uses a kernel that was never written. *)
Theorem C105_after_refusal_refuted :
  snd (qrun true [0; 0; 0; 0; 0; 0; 0; 0] q0 (true, None) image3 (Tn 11 [1; 1; 3; 3] (t_data weights3))) = SErr /\
  snd (qrun true [0; 0; 0; 0; 0; 0; 0; 0] q0 (fst (qrun true [0; 0; 0; 0; 0; 0; 0; 0] q0 (true, None) image3 (Tn 11 [1; 1; 3; 3] (t_data weights3)))) image3 weights3) = SUndef /\
  numbers (snd (qrun true [0; 0; 0; 0; 0; 0; 0; 0] q0 (true, None) image3 weights3)) = SOk ([1; 1; 1; 1], [Some (-8, 1%positive)]).
Proof. split; [vm_compute; reflexivity|]. split; vm_compute; reflexivity. Qed.

Print Assumptions C105_winograd_partial.
Print Assumptions C105_same_as_conv2d.
Print Assumptions C105_first_weights.
Print Assumptions C105_rationals.
Print Assumptions C105_example.
Print Assumptions C105_weights_refuted.
Print Assumptions C105_negative_padding_refuted.
Print Assumptions C105_kernel_size_refuted.
Print Assumptions C105_after_refusal_refuted.
