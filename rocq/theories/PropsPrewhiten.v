(** C125: prewhiten. *)
From Coq Require Import List ZArith Bool Lia Field_theory Field.
From Verif Require Import ShapeModel ShapeSpec ShapeProofs KernelBase KernelSpec KernelProofs LoopModel LoopProofs TileModel AxisModel NormModel NormSpec PropsNorm GemmModel EltwiseModel PrewhitenModel.
Import ListNotations.
Local Open Scope Z_scope.

(** What has to be computed ([mean] and [deviation] of an image from NormSpec.v). *)
Section Spec.
Context {R : Type} (rO rI : R) (radd rmul rsub rdiv : R -> R -> R) (ltb : R -> R -> bool) (fsqrt : R -> R) (ofZ : Z -> R).
Definition whitened (x out : tensor R) : Prop :=
  tabulates x (fun c =>
    let n := hd 0 c in
    let d := deviation rO radd rmul rsub rdiv fsqrt ofZ x n in
    let least := rdiv rI (fsqrt (ofZ (elements (tl (t_shape x))))) in
    rmul (rsub (val rO x c) (mean rO radd rdiv ofZ x n)) (rdiv rI (if ltb d least then least else d))) out.
End Spec.

Section Props.
Context {R : Type} (rO rI : R) (radd rmul rsub : R -> R -> R) (ropp : R -> R) (rdiv : R -> R -> R) (rinv : R -> R).
Hypothesis Fth : field_theory rO rI radd rmul rsub ropp rdiv rinv (@eq R).
Variable ltb : R -> R -> bool.
Variable conv : Z -> R -> R.
Variable fsqrt : R -> R.
Variable ofZ : Z -> R.
Add Field RF : Fth.

(** The square root with the floor built in: prewhiten is norm_image with it. *)
Let root count v := larger ltb (fsqrt v) (rdiv rI (fsqrt (ofZ count))).

Lemma image_same t x count n :
  prewhiten_image rO rI radd rmul rsub rdiv ltb conv fsqrt ofZ t x count n =
  image_channel rO rI radd rmul rsub rdiv conv (root count) ofZ t rO x count n.
Proof using Fth.
  unfold prewhiten_image, image_channel. cbv zeta. apply map_ext. intros i. f_equal.
  f_equal. match goal with |- lift1 _ (lift1 _ ?s) = _ => destruct s; cbn [lift1]; try reflexivity end.
  f_equal. unfold root. match goal with |- context[radd ?a rO] => replace (radd a rO) with a by ring end. reflexivity.
Qed.

(** C125.  Every image of a batch is shifted by its mean and divided by its
    standard deviation, or by 1 / sqrt(number of elements) if that is larger. *)
Theorem C125_prewhiten_partial (x : tensor R) batch rest : wf x -> t_shape x = batch :: rest -> 0 < batch ->
  t_dtype x = 10 \/ t_dtype x = 11 -> (forall v, conv (t_dtype x) v = v) ->
  exists out, prewhiten rO rI radd rmul rsub rdiv ltb conv fsqrt ofZ x = SOk (filled out) /\
    whitened rO rI radd rmul rsub rdiv ltb fsqrt ofZ x out.
Proof using Fth.
  intros W Es Hb D Hc.
  destruct (C109_norm_image rO rI radd rmul rsub ropp rdiv rinv Fth conv (root (elements rest)) ofZ rO x batch rest W Es Hb D Hc) as (out & E & So).
  exists out. split.
  - rewrite <- E. unfold prewhiten, norm_image. rewrite Es.
    replace ((t_dtype x =? 10) || (t_dtype x =? 11)) with true by (destruct D as [-> | ->]; reflexivity). cbn [negb].
    destruct (Z.eqb_spec batch 0); [lia|]. rewrite prod_elements. cbn [elements].
    replace (Z.quot (batch * elements rest) batch) with (elements rest) by (rewrite Z.mul_comm, Z.quot_mul; lia).
    rewrite (flat_map_ext _ _ (fun n => image_same (t_dtype x) (t_data x) (elements rest) n)). reflexivity.
  - destruct So as (Wo & Do & So & El). split; [exact Wo|split; [exact Do|split; [exact So|]]].
    intros c Hcc. rewrite (El c Hcc). cbv zeta. do 2 f_equal.
    unfold root, larger, deviation. rewrite Es. cbn [tl].
    match goal with |- context[radd ?a rO] => replace (radd a rO) with a by ring end. reflexivity.
Qed.

(** The mean of every image of the result is zero. *)
Theorem C125_mean (x out : tensor R) batch rest n : wf x -> t_shape x = batch :: rest -> 0 <= n < batch ->
  ofZ (elements rest) = sum_over rO radd (loops rest) (fun _ => rI) -> ofZ (elements rest) <> rO ->
  whitened rO rI radd rmul rsub rdiv ltb fsqrt ofZ x out -> mean rO radd rdiv ofZ out n = rO.
Proof using Fth.
  intros W Es Hn Hz Nz (Wo & Do & So & El).
  apply (C109_image_mean rO rI radd rmul rsub ropp rdiv rinv Fth (root (elements rest)) ofZ rO x out batch rest n W Es Hn Hz Nz).
  split; [exact Wo|split; [exact Do|split; [exact So|]]].
  intros c Hcc. rewrite (El c Hcc). cbv zeta. do 2 f_equal.
  unfold root, larger, deviation. rewrite Es. cbn [tl].
  match goal with |- context[radd ?a rO] => replace (radd a rO) with a by ring end. reflexivity.
Qed.

(** Tensors without axes and types that are not floating point are refused. *)
Theorem C125_refused (x : tensor R) : t_shape x = [] \/ (t_dtype x <> 10 /\ t_dtype x <> 11) ->
  prewhiten rO rI radd rmul rsub rdiv ltb conv fsqrt ofZ x = SErr.
Proof using Type.
  unfold prewhiten. intros [-> | [H H']]; [reflexivity|]. destruct (t_shape x); [reflexivity|].
  destruct (Z.eqb_spec (t_dtype x) 10); [contradiction|]. destruct (Z.eqb_spec (t_dtype x) 11); [contradiction|reflexivity].
Qed.
(** A batch without images divides by zero instead of being returned or refused. *)
Theorem C125_empty_refuted (x : tensor R) rest : t_dtype x = 10 -> t_shape x = 0 :: rest ->
  prewhiten rO rI radd rmul rsub rdiv ltb conv fsqrt ofZ x = SUndef.
Proof using Type. intros D E. unfold prewhiten. now rewrite D, E. Qed.
End Props.
Print Assumptions C125_prewhiten_partial.
Print Assumptions C125_mean.
Print Assumptions C125_refused.
Print Assumptions C125_empty_refuted.

(** ** The real numbers meet the assumptions; there the result has no mean and,
    when the floor is not used, deviation one is what the division is by. *)
From Coq Require Import Reals RealField.
Theorem C125_prewhiten_reals_partial (x : tensor R) batch rest : wf x -> t_shape x = batch :: rest -> (0 < batch)%Z -> t_dtype x = 10%Z ->
  exists out, prewhiten 0%R 1%R Rplus Rmult Rminus Rdiv rltb (fun _ v => v) sqrt IZR x = SOk (filled out) /\
    whitened 0%R 1%R Rplus Rmult Rminus Rdiv rltb sqrt IZR x out.
Proof.
  intros W Es Hb D. apply (C125_prewhiten_partial 0%R 1%R Rplus Rmult Rminus Ropp Rdiv Rinv Rfield rltb (fun _ v => v) sqrt IZR x batch rest); auto.
Qed.
Print Assumptions C125_prewhiten_reals_partial.

(** A concrete case over the rationals (decided by computation): two images of two
    elements, one of them constant. *)
From Coq Require Import QArith.
Definition qsqrt (q : Q) : Q := Qred (Z.sqrt (Qnum q) # Pos.of_nat (Z.to_nat (Z.sqrt (Zpos (Qden q))))).
Example prewhiten_example :
  prewhiten 0%Q 1%Q (fun a b => Qred (a + b)) (fun a b => Qred (a * b)) (fun a b => Qred (a - b)) (fun a b => Qred (a / b))
    (fun a b => if Qlt_le_dec a b then true else false) (fun _ v => v) qsqrt inject_Z
    (Tn 10 [2; 4]%Z (map inject_Z [1; 5; 1; 5; 7; 7; 7; 7]%Z)) =
  SOk (filled (Tn 10 [2; 4]%Z (map inject_Z [-1; 1; -1; 1; 0; 0; 0; 0]%Z))).
Proof. vm_compute. reflexivity. Qed.
