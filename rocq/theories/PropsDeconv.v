(** C96: transposed convolution. *)
From Coq Require Import List ZArith Bool Lia Ring Permutation.
From Verif Require Import ShapeModel ShapeSpec ShapeProofs KernelBase KernelSpec KernelProofs LoopModel LoopProofs EltwiseModel
  TransposeModel TransposeSpec PropsTranspose
  GemmModel GemmSpec GemmProofs GemmPlainProofs ConvModel ConvSpec ConvProofs PropsConv GemmOpProofs DeconvModel DeconvSpec DeconvProofs.
Import ListNotations.
Local Open Scope Z_scope.

Lemma NoDup_loops s : NoDup (loops s).
Proof.
  apply NoDup_nth_error. intros i j Hi E.
  assert (Hc : exists c, nth_error (loops s) i = Some c) by (destruct (nth_error (loops s) i) eqn:Q; [eauto|apply nth_error_None in Q; lia]).
  destruct Hc as (c & Ec). rewrite Ec in E. symmetry in E.
  assert (P : forall k, nth_error (loops s) k = Some c -> Z.of_nat k = position s c).
  { intros k Hk. assert (In (Z.of_nat k, c) (counted (loops s))) as H by (apply In_counted; split; [lia|now rewrite Nat2Z.id]).
    apply In_counted_loops in H. apply H. }
  pose proof (P i Ec). pose proof (P j E). lia.
Qed.

Section Props.
Context {R : Type} (rO rI : R) (radd rmul : R -> R -> R).
Hypothesis Rth : semi_ring_theory rO rI radd rmul eq.
Add Ring Rring : Rth.
Variable near : R -> R -> bool.
Hypothesis near_refl : forall x, near x x = true.
Notation "a +! b" := (radd a b) (at level 50, left associativity).
Notation "a *! b" := (rmul a b) (at level 40, left associativity).
Notation sum_of := (sum_of rO radd).

(** C96: every element of the output is the sum of what the input elements
    send there; for all sizes, paddings, strides and dilations. *)
Theorem C96_conv2d_transpose_partial : forall padding stride dilation (x w : tensor R) n ci h wd co kh kw pt pb pl pr sh sw dh dw,
  wf x -> wf w -> t_dtype x = 10 -> t_dtype w = 10 -> t_shape x = [n; ci; h; wd] -> t_shape w = [ci; co; kh; kw] ->
  padding = [0; 0; 0; 0; pt; pb; pl; pr] -> stride = [1; 1; sh; sw] -> dilation = [1; 1; dh; dw] ->
  sh <> 0 -> sw <> 0 -> 1 <= ci -> 1 <= co -> 1 <= kh -> 1 <= kw ->
  0 <= (h - 1) * sh + dh * (kh - 1) + 1 - pt - pb -> 0 <= (wd - 1) * sw + dw * (kw - 1) + 1 - pl - pr ->
  exists out, conv2d_transpose rO rI radd rmul near true padding stride dilation false x w = SOk (filled out) /\ wf out /\
    t_dtype out = 10 /\
    t_shape out = [n; co; (h - 1) * sh + dh * (kh - 1) + 1 - pt - pb; (wd - 1) * sw + dw * (kw - 1) + 1 - pl - pr] /\
    forall b c i j, inside (t_shape out) [b; c; i; j] ->
      elt out [b; c; i; j] = Some (transposed_convolution rO radd rmul x w ci h wd kh kw pt pl sh sw dh dw b c i j).
Proof using Rth near_refl.
  intros padding stride dilation x w n ci h wd co kh kw pt pb pl pr sh sw dh dw Wx Ww Tx Tw Sx Sw -> -> -> Hsh Hsw Hci Hco Hkh Hkw Hoh How.
  set (oh := (h - 1) * sh + dh * (kh - 1) + 1 - pt - pb) in *. set (ow := (wd - 1) * sw + dw * (kw - 1) + 1 - pl - pr) in *.
  assert (Nx : 0 <= n /\ 0 <= h /\ 0 <= wd).
  { destruct Wx as [F _]. rewrite Sx in F. inversion F as [|? ? F1 Fa]; subst. inversion Fa as [|? ? F2 Fb]; subst. inversion Fb as [|? ? F3 Fc]; subst. inversion Fc; subst. auto. }
  destruct Nx as (Hn & Hh & Hwd).
  set (win := Window pt pb pl pr sh sw dh dw).
  assert (Eoh : oh = backward_size h (top win) (bottom win) kh (stride_h win) (dil_h win)) by (unfold oh, backward_size, win; cbn; ring).
  assert (Eow : ow = backward_size wd (left_ win) (right_ win) kw (stride_w win) (dil_w win)) by (unfold ow, backward_size, win; cbn; ring).
  set (K := co * kh * kw).
  assert (HK : 1 <= K) by (unfold K; assert (1 <= co * kh) by nia; nia).
  set (w2 := Tn 10 [ci; K] (t_data w)).
  assert (W2 : wf w2).
  { split; [repeat constructor; cbn; lia|]. cbn [w2 t_data t_shape]. destruct Ww as [_ L]. rewrite Sw in L. rewrite L. unfold K. cbn [elements]. ring. }
  assert (Er : reshape (t_shape w) [ci; -1] = SOk [ci; K]).
  { rewrite Sw. apply (reshape_ok_iff [ci; co; kh; kw] [ci; -1] [ci; K]); [repeat constructor; lia|].
    split; [unfold one_wildcard; cbn; destruct (Z.ltb_spec ci 0); cbn; lia|]. split; [|unfold K; cbn [elements]; ring].
    constructor; [destruct (Z.ltb_spec ci 0); lia|]. constructor; [cbn; lia|constructor]. }
  pose proof (C34_transpose true [1; 0] w2 W2 ltac:(discriminate)) as Ht.
  destruct (transpose_run true (Some [1; 0]) w2) as [t| |] eqn:Et; [| |destruct Ht].
  2:{ exfalso. apply Ht. split; [|split; [cbn; lia|repeat constructor; cbn; lia]].
      unfold is_permutation. cbn. apply perm_swap. }
  destruct Ht as (wt & -> & Wt & (Td & Ts & Te) & _ & _ & _).
  unfold with_rank in Te, Ts. cbn [w2 length Nat.sub repeat app t_shape t_data t_dtype] in Te, Ts. unfold permuted in Te, Ts. cbn in Ts.
  assert (Hwt : forall k o, 0 <= k < K -> 0 <= o < ci -> read (map Some (t_data wt)) (k * ci + o) = SOk (value rO w2 [o; k])).
  { intros k o Hk Ho. pose proof (load_mat rO wt K ci k o Wt Ts Hk Ho) as Lo. unfold read.
    assert (El : load (map Some (t_data wt)) (k * ci + o) = SOk (Some (value rO wt [k; o]))).
    { apply load_inv in Lo. destruct Lo as [L0 L1]. apply load_inv. split; [exact L0|]. rewrite nth_error_map, L1. reflexivity. }
    rewrite El. f_equal. unfold value. assert (I : inside [ci; K] [o; k]) by (repeat (constructor; [lia|]); constructor).
    specialize (Te [o; k] I). change (map (fun p => nth (Z.to_nat p) [o; k] 0) [1; 0]) with [k; o] in Te. now rewrite Te. }
  assert (Hw2 : forall o c p q, 0 <= o < ci -> 0 <= c < co -> 0 <= p < kh -> 0 <= q < kw -> value rO w2 [o; (c * kh + p) * kw + q] = value rO w [o; c; p; q]).
  { intros o c p q Ho Hc Hp Hq. unfold value, elt. cbn [w2 t_shape t_data]. rewrite Sw. unfold K.
    replace (position [ci; co * kh * kw] [o; (c * kh + p) * kw + q]) with (position [ci; co; kh; kw] [o; c; p; q]) by (cbn [position elements]; ring). reflexivity. }
  destruct (deconv_images_ok rO rI radd rmul Rth near near_refl (load (t_data x)) (read (map Some (t_data wt))) ci h wd co kh kw oh ow win
     (fun b o i j => value rO x [b; o; i; j]) (fun k o => value rO w2 [o; k])) with (todo := Z.to_nat n) (from := 0%nat)
     (col := @fresh R (co * kh * kw * h * wd)) (done := @nil R) as (out & E & L & P); try assumption; try lia.
  { intros b o i j Hb Ho Hi Hj. rewrite Nat.add_0_l, Z2Nat.id in Hb by exact Hn.
    rewrite <- (load_value rO x [b; o; i; j] Wx) by (rewrite Sx; repeat (constructor; [lia|]); constructor).
    f_equal. rewrite Sx. cbn [position elements]. ring. }
  { unfold fresh. rewrite repeat_length, Z2Nat.id; [reflexivity|]. fold K. assert (0 <= h * wd) by nia. replace (K * h * wd) with (K * (h * wd)) by ring. nia. }
  { reflexivity. }
  { cbn [map app] in E. rewrite Z2Nat.id in E by exact Hn. rewrite Nat.add_0_l, Z2Nat.id in L, P by exact Hn.
    exists (Tn 10 [n; co; oh; ow] out).
    split; [|split; [split; [repeat constructor; cbn; lia|cbn [t_data t_shape elements]; rewrite L; ring]|split; [reflexivity|split; [reflexivity|]]]].
    - unfold conv2d_transpose, conv_init. cbn [length Nat.eqb andb negb nth Z.eqb]. fold win. rewrite Sx, Sw, Tx, Tw. cbn [Z.eqb Pos.eqb negb orb].
      rewrite Z.eqb_refl. cbn [negb andb]. rewrite <- Eoh, <- Eow.
      destruct (Z.ltb_spec oh 0); [lia|]. destruct (Z.ltb_spec ow 0); [lia|]. cbn [orb].
      rewrite Sw in Er. rewrite Er. cbn [bind]. fold w2. rewrite Et. cbn [bind filled t_data].
      replace (n * co * oh * ow) with (n * (co * oh * ow)) by ring. change (upto n) with (map Z.of_nat (seq 0 (Z.to_nat n))). rewrite E. reflexivity.
    - intros b c i j Hin. cbn [t_shape] in Hin. inversion Hin as [|? ? ? ? Hb Hi1]; subst. inversion Hi1 as [|? ? ? ? Hc Hi2]; subst.
      inversion Hi2 as [|? ? ? ? Hi Hi3]; subst. inversion Hi3 as [|? ? ? ? Hj Hi4]; subst.
      unfold elt. cbn [t_shape t_data]. replace (position [n; co; oh; ow] [b; c; i; j]) with (b * (co * oh * ow) + (c * (oh * ow) + (i * ow + j))) by (cbn [position elements]; ring).
      rewrite P by assumption. f_equal. unfold deconv_at, transposed_convolution.
      apply sum_ext. intros p Hp. apply sum_ext. intros q Hq. apply sum_ext. intros i' Hi'. apply sum_ext. intros j' Hj'.
      cbn [win stride_h stride_w dil_h dil_w top left_]. destruct ((i' * sh + p * dh - pt =? i) && (j' * sw + q * dw - pl =? j)); [|reflexivity].
      apply sum_ext. intros o Ho. now rewrite Hw2. }
Qed.

(** *** the transposed convolution is the adjoint of the convolution *)
Lemma sum_scale_l n f a : a *! sum_of n f = sum_of n (fun k => a *! f k).
Proof using Rth.
  change (a *! suml rO radd f (upto n) = suml rO radd (fun k => a *! f k) (upto n)).
  induction (upto n) as [|x l IH]; [rewrite !suml_nil; ring|]. rewrite !suml_cons, <- IH. ring.
Qed.
Lemma sum_scale_r n f a : sum_of n f *! a = sum_of n (fun k => f k *! a).
Proof using Rth.
  change (suml rO radd f (upto n) *! a = suml rO radd (fun k => f k *! a) (upto n)).
  induction (upto n) as [|x l IH]; [rewrite !suml_nil; ring|]. rewrite !suml_cons, <- IH. ring.
Qed.

Lemma suml_perm {X} (f : X -> R) l l' : Permutation l l' -> suml rO radd f l = suml rO radd f l'.
Proof using Rth.
  induction 1 as [|x l l' P IH|x y l|l1 l2 l3 P1 IH1 P2 IH2]; [reflexivity| | |congruence]; rewrite !suml_cons; [now rewrite IH|]. ring.
Qed.

Lemma padded_sum h w image a b : padded rO h w image a b = sum_of h (fun i => sum_of w (fun j => if (a =? i) && (b =? j) then image i j else rO)).
Proof using Rth.
  unfold padded. destruct ((0 <=? a) && (a <? h) && (0 <=? b) && (b <? w)) eqn:E.
  - rewrite !andb_true_iff, !Z.leb_le, !Z.ltb_lt in E. destruct E as (((E1 & E2) & E3) & E4).
    rewrite (sum_single rO rI radd rmul Rth h _ a (conj E1 E2)).
    2:{ intros i Hi Ne. rewrite (sum_ext rO radd w _ (fun _ => rO)); [apply (suml_zero rO rI radd rmul Rth (upto w))|]. intros j Hj.
        destruct (Z.eqb_spec a i); [lia|reflexivity]. }
    rewrite (sum_single rO rI radd rmul Rth w _ b); [now rewrite !Z.eqb_refl|lia|].
    intros j Hj Ne. destruct (Z.eqb_spec b j); [lia|]. now rewrite andb_false_r.
  - symmetry. etransitivity; [|apply (suml_zero rO rI radd rmul Rth (upto h))]. apply sum_ext. intros i Hi.
    etransitivity; [|apply (suml_zero rO rI radd rmul Rth (upto w))]. apply sum_ext. intros j Hj.
    destruct (Z.eqb_spec a i) as [->|]; [|reflexivity]. destruct (Z.eqb_spec b j) as [->|]; [|reflexivity]. exfalso.
    destruct (Z.leb_spec 0 i), (Z.ltb_spec i h), (Z.leb_spec 0 j), (Z.ltb_spec j w); cbn [andb] in E; try discriminate; lia.
Qed.

Lemma adjoint (x g w : tensor R) n c H W outs h wd kh kw pt pl sh sw dh dw :
  dot rO radd rmul (convolution rO radd rmul x w c H W kh kw rO pt pl sh sw dh dw) (fun b o i j => value rO g [b; o; i; j]) n outs h wd =
  dot rO radd rmul (fun b k a e => value rO x [b; k; a; e]) (transposed_convolution rO radd rmul g w outs h wd kh kw pt pl sh sw dh dw) n c H W.
Proof using Rth.
  unfold dot. apply sum_ext. intros b Hb.
  set (T := fun o i j k p q a e =>
    if (i * sh + p * dh - pt =? a) && (j * sw + q * dw - pl =? e) then value rO w [o; k; p; q] *! value rO x [b; k; a; e] *! value rO g [b; o; i; j] else rO).
  set (F := fun l : list Z => match l with [o; i; j; k; p; q; a; e] => T o i j k p q a e | _ => rO end).
  set (perm := fun l : list Z => match l with [k; a; e; p; q; i; j; o] => [o; i; j; k; p; q; a; e] | _ => [] end).
  set (s1 := [outs; h; wd; c; kh; kw; H; W]). set (s2 := [c; H; W; kh; kw; h; wd; outs]).
  transitivity (suml rO radd F (loops s1)).
  { unfold s1. rewrite !(suml_loops rO rI radd rmul Rth). apply sum_ext. intros o Ho. rewrite (suml_loops rO rI radd rmul Rth). apply sum_ext. intros i Hi.
    rewrite (suml_loops rO rI radd rmul Rth). apply sum_ext. intros j Hj. unfold convolution.
    rewrite (suml_loops rO rI radd rmul Rth), sum_scale_r. apply sum_ext. intros k Hk. rewrite (suml_loops rO rI radd rmul Rth), sum_scale_r. apply sum_ext. intros p Hp.
    rewrite (suml_loops rO rI radd rmul Rth), sum_scale_r. apply sum_ext. intros q Hq. rewrite padded_sum.
    rewrite (suml_loops rO rI radd rmul Rth), sum_scale_l, sum_scale_r. apply sum_ext. intros a Ha.
    rewrite (suml_loops rO rI radd rmul Rth), sum_scale_l, sum_scale_r. apply sum_ext. intros e He.
    cbn [loops]. rewrite suml_cons, suml_nil. unfold F, T. destruct (_ && _); ring. }
  transitivity (suml rO radd F (map perm (loops s2))).
  { apply suml_perm. apply NoDup_Permutation; [apply NoDup_loops| |].
    - apply NoDup_map_on; [apply NoDup_loops|]. intros l l' Hl Hl'. apply In_loops in Hl, Hl'.
      inversion Hl as [|? ? ? ? ? J1]; subst. inversion J1 as [|? ? ? ? ? J2]; subst. inversion J2 as [|? ? ? ? ? J3]; subst. inversion J3 as [|? ? ? ? ? J4]; subst.
      inversion J4 as [|? ? ? ? ? J5]; subst. inversion J5 as [|? ? ? ? ? J6]; subst. inversion J6 as [|? ? ? ? ? J7]; subst. inversion J7 as [|? ? ? ? ? J8]; subst. inversion J8; subst.
      inversion Hl' as [|? ? ? ? ? L1]; subst. inversion L1 as [|? ? ? ? ? L2]; subst. inversion L2 as [|? ? ? ? ? L3]; subst. inversion L3 as [|? ? ? ? ? L4]; subst.
      inversion L4 as [|? ? ? ? ? L5]; subst. inversion L5 as [|? ? ? ? ? L6]; subst. inversion L6 as [|? ? ? ? ? L7]; subst. inversion L7 as [|? ? ? ? ? L8]; subst. inversion L8; subst.
      cbn [perm]. intros Q. injection Q. intros. subst. reflexivity.
    - intros l. rewrite In_loops, in_map_iff. split.
      + intros Hl. inversion Hl as [|? o ? ? Ho J1]; subst. inversion J1 as [|? i ? ? Hi J2]; subst. inversion J2 as [|? j ? ? Hj J3]; subst. inversion J3 as [|? k ? ? Hk J4]; subst.
        inversion J4 as [|? p ? ? Hp J5]; subst. inversion J5 as [|? q ? ? Hq J6]; subst. inversion J6 as [|? a ? ? Ha J7]; subst. inversion J7 as [|? e ? ? He J8]; subst. inversion J8; subst.
        exists [k; a; e; p; q; i; j; o]. split; [reflexivity|]. apply In_loops. repeat (constructor; [assumption|]). constructor.
      + intros (l' & <- & Hl). apply In_loops in Hl. inversion Hl as [|? k ? ? Hk J1]; subst. inversion J1 as [|? a ? ? Ha J2]; subst. inversion J2 as [|? e ? ? He J3]; subst. inversion J3 as [|? p ? ? Hp J4]; subst.
        inversion J4 as [|? q ? ? Hq J5]; subst. inversion J5 as [|? i ? ? Hi J6]; subst. inversion J6 as [|? j ? ? Hj J7]; subst. inversion J7 as [|? o ? ? Ho J8]; subst. inversion J8; subst.
        cbn [perm]. repeat (constructor; [assumption|]). constructor. }
  rewrite suml_map. unfold s2. rewrite (suml_loops rO rI radd rmul Rth). apply sum_ext. intros k Hk. rewrite (suml_loops rO rI radd rmul Rth). apply sum_ext. intros a Ha.
  rewrite (suml_loops rO rI radd rmul Rth). apply sum_ext. intros e He. unfold transposed_convolution.
  rewrite (suml_loops rO rI radd rmul Rth), sum_scale_l. apply sum_ext. intros p Hp. rewrite (suml_loops rO rI radd rmul Rth), sum_scale_l. apply sum_ext. intros q Hq.
  rewrite (suml_loops rO rI radd rmul Rth), sum_scale_l. apply sum_ext. intros i Hi. rewrite (suml_loops rO rI radd rmul Rth), sum_scale_l. apply sum_ext. intros j Hj.
  rewrite (suml_loops rO rI radd rmul Rth).
  transitivity (sum_of outs (fun o => T o i j k p q a e)).
  1:{ apply sum_ext. intros o Ho. cbn [loops]. rewrite suml_cons, suml_nil. change (F (perm [k; a; e; p; q; i; j; o])) with (T o i j k p q a e). ring. }
  unfold T. destruct (_ && _).
  - rewrite sum_scale_l. apply sum_ext. intros o Ho. ring.
  - transitivity rO; [|ring]. apply (suml_zero rO rI radd rmul Rth (upto outs)).
Qed.

(** C96: with the same weights and parameters, conv2d_transpose is the adjoint
    of conv2d: the scalar product of conv2d x with g is that of x with
    conv2d_transpose g. *)
Theorem C96_adjoint : forall padding stride dilation (x g w y z : tensor R) n co h wd ci kh kw pt pb pl pr sh sw dh dw,
  wf x -> wf g -> wf w -> t_dtype x = 10 -> t_dtype g = 10 -> t_dtype w = 10 ->
  t_shape g = [n; ci; h; wd] -> t_shape w = [ci; co; kh; kw] ->
  t_shape x = [n; co; (h - 1) * sh + dh * (kh - 1) + 1 - pt - pb; (wd - 1) * sw + dw * (kw - 1) + 1 - pl - pr] ->
  padding = [0; 0; 0; 0; pt; pb; pl; pr] -> stride = [1; 1; sh; sw] -> dilation = [1; 1; dh; dw] ->
  1 <= sh -> 1 <= sw -> 1 <= h -> 1 <= wd -> 1 <= ci -> 1 <= co -> 1 <= kh -> 1 <= kw ->
  conv2d rO rI radd rmul near true padding stride dilation rO false x w = SOk (filled y) ->
  conv2d_transpose rO rI radd rmul near true padding stride dilation false g w = SOk (filled z) ->
  t_shape y = t_shape g /\ t_shape z = t_shape x /\
  dot rO radd rmul (fun b o i j => value rO y [b; o; i; j]) (fun b o i j => value rO g [b; o; i; j]) n ci h wd =
  dot rO radd rmul (fun b c i j => value rO x [b; c; i; j]) (fun b c i j => value rO z [b; c; i; j]) n co
    ((h - 1) * sh + dh * (kh - 1) + 1 - pt - pb) ((wd - 1) * sw + dw * (kw - 1) + 1 - pl - pr).
Proof using Rth near_refl.
  intros padding stride dilation x g w y z n co h wd ci kh kw pt pb pl pr sh sw dh dw Wx Wg Ww Tx Tg Tw Sg Sw Sx Ep Es Ed Hsh Hsw Hh Hwd Hci Hco Hkh Hkw Ey Ez.
  set (H := (h - 1) * sh + dh * (kh - 1) + 1 - pt - pb) in *. set (W := (wd - 1) * sw + dw * (kw - 1) + 1 - pl - pr) in *.
  assert (NH : 0 <= H /\ 0 <= W).
  { destruct Wx as [F _]. rewrite Sx in F. inversion F as [|? ? F1 Fa]; subst. inversion Fa as [|? ? F2 Fb]; subst. inversion Fb as [|? ? F3 Fc]; subst. inversion Fc; subst. auto. }
  destruct NH as [NH NW].
  destruct (C89_conv2d_partial rO rI radd rmul Rth near near_refl padding stride dilation rO x w n co H W ci kh kw pt pb pl pr sh sw dh dw) as (y' & Ey' & Wy & _ & Sy & Py); auto.
  { unfold H. nia. } { unfold W. nia. }
  destruct (C96_conv2d_transpose_partial padding stride dilation g w n ci h wd co kh kw pt pb pl pr sh sw dh dw) as (z' & Ez' & Wz & _ & Sz & Pz); auto; try lia.
  assert (Q : forall u v : tensor R, SOk (filled u) = SOk (filled v) -> u = v).
  { intros [d1 s1 l1] [d2 s2 l2] Q. injection Q as -> -> Q. f_equal. clear - Q. revert l2 Q. induction l1 as [|x l1 IH]; intros [|x2 l2] Q; try discriminate; [reflexivity|].
    cbn in Q. injection Q as -> Q. f_equal. now apply IH. }
  rewrite Ey' in Ey. rewrite Ez' in Ez. apply Q in Ey, Ez. subst y' z'.
  replace ((H + pt + pb - (dh * (kh - 1) + 1)) / sh + 1) with h in Sy
    by (replace (H + pt + pb - (dh * (kh - 1) + 1)) with ((h - 1) * sh) by (unfold H; ring); rewrite Z.div_mul by lia; lia).
  replace ((W + pl + pr - (dw * (kw - 1) + 1)) / sw + 1) with wd in Sy
    by (replace (W + pl + pr - (dw * (kw - 1) + 1)) with ((wd - 1) * sw) by (unfold W; ring); rewrite Z.div_mul by lia; lia).
  split; [now rewrite Sy, Sg|]. split; [now rewrite Sz, Sx|].
  etransitivity; [|etransitivity; [apply (adjoint x g w n co H W ci h wd kh kw pt pl sh sw dh dw)|]].
  - unfold dot. apply sum_ext. intros b Hb. apply sum_ext. intros o Ho. apply sum_ext. intros i Hi. apply sum_ext. intros j Hj. f_equal.
    unfold value at 1. rewrite Py; [reflexivity|]. rewrite Sy. repeat (constructor; [lia|]); constructor.
  - unfold dot. apply sum_ext. intros b Hb. apply sum_ext. intros o Ho. apply sum_ext. intros i Hi. apply sum_ext. intros j Hj. f_equal.
    unfold value at 1. rewrite Pz; [reflexivity|]. rewrite Sz. repeat (constructor; [lia|]); constructor.
Qed.

(** C96: what is refused. *)
Theorem C96_refused : forall padding stride dilation packed (x w : tensor R),
  (length padding <> 8%nat \/ length stride <> 4%nat \/ length dilation <> 4%nat \/
   length (t_shape x) <> 4%nat \/ length (t_shape w) <> 4%nat \/ t_dtype x <> t_dtype w \/
   nth 0 (t_shape w) 0 <> nth 1 (t_shape x) 0) ->
  conv2d_transpose rO rI radd rmul near true padding stride dilation packed x w = SErr.
Proof.
  intros padding stride dilation packed x w H. unfold conv2d_transpose.
  destruct (conv_init true padding stride dilation) as [win|] eqn:Ei; [|reflexivity].
  assert (Hi : length padding = 8%nat /\ length stride = 4%nat /\ length dilation = 4%nat).
  { unfold conv_init in Ei. destruct (Nat.eqb_spec (length padding) 8); [|discriminate]. destruct (Nat.eqb_spec (length stride) 4); [|discriminate].
    destruct (Nat.eqb_spec (length dilation) 4); [|discriminate]. auto. }
  destruct (t_shape x) as [|x0 [|x1 [|x2 [|x3 [|]]]]]; try reflexivity.
  destruct (t_shape w) as [|w0 [|w1 [|w2 [|w3 [|]]]]]; try reflexivity.
  destruct (Z.eqb_spec (t_dtype x) (t_dtype w)) as [Ed|Ed]; cbn [negb]; [|reflexivity].
  destruct (Z.eqb_spec w0 x1) as [Ec|Ec]; cbn [negb]; [|reflexivity].
  exfalso. destruct Hi as (L1 & L2 & L3). destruct H as [H|[H|[H|[H|[H|[H|H]]]]]]; try (apply H; assumption); try (apply H; reflexivity).
Qed.

(** C96 is not so for double: the product writes nothing, so a 1x1 kernel
    leaves the output unwritten, and any other kernel reads unwritten memory. *)
Theorem C96_double_refuted :
  conv2d_transpose rO rI radd rmul near true [0;0;0;0;0;0;0;0] [1;1;1;1] [1;1;1;1] false (Tn 11 [1;1;1;1] [rI]) (Tn 11 [1;1;1;1] [rI])
    = SOk (Tn 11 [1;1;1;1] [None]) /\
  conv2d_transpose rO rI radd rmul near true [0;0;0;0;0;0;0;0] [1;1;1;1] [1;1;1;1] false (Tn 11 [1;1;1;1] [rI]) (Tn 11 [1;1;1;2] [rI; rI]) = SUndef.
Proof using near_refl.
  split; unfold conv2d_transpose, deconv_images, deconv_image, packed_gemm; cbn; rewrite !near_refl; reflexivity.
Qed.
End Props.

(** two channels of a 2x2 image, one output channel, 2x2 kernels, stride 2 with padding 1 on top *)
Theorem C96_example :
  conv2d_transpose 0 1 Z.add Z.mul Z.eqb true [0;0;0;0;1;0;0;0] [1;1;2;1] [1;1;1;1] false
    (Tn 10 [1;2;2;2] [1;2;3;4; 5;6;7;8]) (Tn 10 [2;1;2;2] [1;2;3;4; 10;20;30;40])
  = SOk (Tn 10 [1;1;3;3] (map Some [153; 390; 248; 73; 230; 168; 219; 544; 336])).
Proof. vm_compute. reflexivity. Qed.

Print Assumptions C96_conv2d_transpose_partial.
Print Assumptions C96_adjoint.
Print Assumptions C96_refused.
Print Assumptions C96_double_refuted.
Print Assumptions C96_example.
