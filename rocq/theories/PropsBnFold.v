(** C167: adding a batch_norm's epsilon to its variance at compile time. *)
From Coq Require Import List ZArith Bool Lia Ring.
From Verif Require Import ShapeModel KernelBase EltwiseModel ConvModel LoopModel ActivationModel BnFoldModel.
Import ListNotations.
Local Open Scope Z_scope.

(** an operator that changes nothing but the type *)
Definition retypes {R} (f : tensor R -> sres (tensor R)) : Prop :=
  exists d, forall t, f t = SOk (Tn d (t_shape t) (t_data t)).
(** casts over something *)
Fixpoint casts {R} (s : source R) : Prop :=
  match s with Op f first => retypes f /\ casts first | NoInputs => False | _ => True end.

Section Props.
Context {R : Type} (rO rI : R) (radd rmul rsub rdiv : R -> R -> R).
Hypothesis add_zero : forall a, radd a rO = a.
Variable fsqrt : R -> R.
Let exact (_ : Z) (v : R) := v.
Let bn := batch_norm rI radd rmul rsub rdiv exact fsqrt.
Let bn_of := batch_norm_of rI radd rmul rsub rdiv exact fsqrt.

Lemma channel_ext dim params params' ip f f' (x : tensor R) :
  map t_shape params = map t_shape params' -> map t_dtype params = map t_dtype params' ->
  (forall t k, f t k = f' t k) -> channel_op dim params ip f x = channel_op dim params' ip f' x.
Proof.
  intros S D H. unfold channel_op. destruct (dim <? 0); [reflexivity|]. destruct (nth_error (t_shape x) (Z.to_nat dim)) as [c|]; [|reflexivity].
  assert (E1 : forall l l' : list (tensor R), map t_shape l = map t_shape l' ->
     forallb (fun p => match t_shape p with [d] => d =? c | _ => false end) l = forallb (fun p => match t_shape p with [d] => d =? c | _ => false end) l').
  { induction l as [|a l IH]; intros [|b l'] E; try discriminate; [reflexivity|]. cbn [map] in E. injection E as E E'. cbn [forallb]. rewrite E, (IH l' E'). reflexivity. }
  assert (E2 : forall l l' : list (tensor R), map t_dtype l = map t_dtype l' -> forallb (fun p => t_dtype p =? t_dtype x) l = forallb (fun p => t_dtype p =? t_dtype x) l').
  { induction l as [|a l IH]; intros [|b l'] E; try discriminate; [reflexivity|]. cbn [map] in E. injection E as E E'. cbn [forallb]. rewrite E, (IH l' E'). reflexivity. }
  rewrite (E1 _ _ S), (E2 _ _ D).
  assert (A1 : forall pre back, rows_by_four (f (t_dtype x)) (t_data x) pre c back = rows_by_four (f' (t_dtype x)) (t_data x) pre c back).
  { intros. unfold rows_by_four. apply flat_map_ext. intros [|i [|k [|]]]; try reflexivity. apply map_ext. intros m. rewrite H. reflexivity. }
  assert (A2 : forall pre back, rows_in_turn (f (t_dtype x)) (t_data x) pre c back = rows_in_turn (f' (t_dtype x)) (t_data x) pre c back).
  { intros. unfold rows_in_turn. apply map_ext. intros [|i [|k [|m [|]]]]; try reflexivity. rewrite H. reflexivity. }
  assert (A3 : forall n pre back, rows_in_place (f (t_dtype x)) (t_data x) n pre c back = rows_in_place (f' (t_dtype x)) (t_data x) n pre c back).
  { intros. unfold rows_in_place. f_equal. apply map_ext. intros [|i [|k [|m [|]]]]; try reflexivity. rewrite H. reflexivity. }
  rewrite A1, A2, A3. reflexivity.
Qed.

Lemma bn_raised dim epsilon (x mean v : tensor R) :
  bn dim rO x mean (Tn (t_dtype v) (t_shape v) (map (fun a => radd a epsilon) (t_data v))) = bn dim epsilon x mean v.
Proof.
  unfold bn, batch_norm. apply channel_ext; [reflexivity|reflexivity|]. intros t k. unfold param. cbn [t_data]. unfold load.
  destruct (k <? 0); [reflexivity|]. rewrite nth_error_map. destruct (nth_error (t_data v) (Z.to_nat k)) as [a|]; cbn [option_map]; [|reflexivity].
  destruct (nth_error (t_data mean) (Z.to_nat k)) as [b|]; cbn [lift2]; [|reflexivity]. unfold norm_of, exact. cbv beta. rewrite add_zero. reflexivity.
Qed.

(** In exact numbers: when there are only casts between the batch_norm and the end
    of its variance, it answers, or refuses, for every input, mean and axis what it
    did before its epsilon was moved *)
Theorem C167_same_answer_partial : forall epsilon s, casts s ->
  exists s' e, fold_epsilon rO radd exact epsilon s = SOk (s', e) /\
    forall dim x mean input, bn_of dim e x mean input s' = bn_of dim epsilon x mean input s.
Proof.
  intros epsilon s Hs.
  assert (K : forall s, casts s -> (exists s' d, raise_source radd exact epsilon s = SOk (Some (s', d)) /\
      forall input, exists t, eval input s = SOk t /\ eval input s' = SOk (Tn (t_dtype t) (t_shape t) (map (fun a => radd a epsilon) (t_data t)))) \/
      raise_source radd exact epsilon s = SOk None).
  { clear s Hs. induction s as [t| |f first IH|]; intros Hs.
    - left. exists (Const (raised radd exact epsilon t)), (t_dtype t). split; [reflexivity|]. intros input. exists t. split; reflexivity.
    - right. reflexivity.
    - destruct Hs as [(d & Hf) Hs]. destruct (IH Hs) as [(s' & d' & E & P)|E]; cbn [raise_source]; rewrite E; cbn [bind]; [left|right; reflexivity].
      exists (Op f s'), d'. split; [reflexivity|]. intros input. destruct (P input) as (t & Et & Et'). exists (Tn d (t_shape t) (t_data t)).
      cbn [eval]. rewrite Et, Et'. cbn [bind]. rewrite !Hf. split; reflexivity.
    - destruct Hs. }
  destruct s as [t| |f first|].
  - exists (Const t), epsilon. split; reflexivity.
  - exists Param, epsilon. split; reflexivity.
  - destruct (K _ Hs) as [(s' & d & E & P)|E]; unfold fold_epsilon; rewrite E; cbn [bind].
    + exists s', (exact d (exact 10 rO)). split; [reflexivity|]. intros dim x mean input. unfold bn_of, batch_norm_of. destruct (P input) as (t & Et & Et'). rewrite Et, Et'. cbn [bind].
      apply bn_raised.
    + exists (Op f first), epsilon. split; reflexivity.
  - destruct Hs.
Qed.
End Props.

(** ** Where it does not hold *)
Section Refuted.
(** Integers stand for the numbers; the root is left out and the quotient is a
    difference *)
Let exact (_ : Z) (v : Z) := v.
Let bn_of := batch_norm_of 0 Z.add Z.mul Z.sub Z.sub exact (fun v => v).
Let fold_ := fold_epsilon 0 Z.add exact.
Let one := Tn 10 [1] [1].
Let zero := Tn 10 [1] [0].
Let half : tensor Z -> sres (tensor Z) := fun t => SOk (Tn 10 (t_shape t) (t_data t)).
Let twice : tensor Z -> sres (tensor Z) := fun t => SOk (Tn 10 (t_shape t) (map (Z.mul 2) (t_data t))).

(** Any operator is taken for a cast: a variance that is twice a constant gets
    twice the epsilon *)
Theorem C167_operator_refuted : exists s' e, fold_ 5 (Op twice (Const (Tn 10 [1] [7]))) = SOk (s', e) /\
  bn_of 0 5 one zero one (Op twice (Const (Tn 10 [1] [7]))) = SOk (Tn 10 [1] [Some (- (14 + 5))]) /\
  bn_of 0 e one zero one s' = SOk (Tn 10 [1] [Some (- (24 + 0))]).
Proof. eexists _, _. split; [reflexivity|]. split; vm_compute; reflexivity. Qed.

(** Two batch_norms with one constant for their variance: it gets both epsilons *)
Theorem C167_shared_refuted : exists c c' e e',
  fold_ 5 (Op half (Const (Tn 10 [1] [7]))) = SOk (Op half (Const c), e) /\
  fold_ 5 (Op half (Const c)) = SOk (Op half (Const c'), e') /\
  bn_of 0 5 one zero one (Op half (Const (Tn 10 [1] [7]))) = SOk (Tn 10 [1] [Some (- (7 + 5))]) /\
  bn_of 0 e one zero one (Op half (Const c')) = SOk (Tn 10 [1] [Some (- (7 + 5 + 5))]).
Proof. eexists _, _, _, _. split; [reflexivity|]. split; [reflexivity|]. split; vm_compute; reflexivity. Qed.

(** The module that is compiled keeps its epsilon and has the changed constant *)
Theorem C167_module_refuted : exists c e, fold_ 5 (Op half (Const (Tn 10 [1] [7]))) = SOk (Op half (Const c), e) /\
  bn_of 0 5 one zero one (Const (Tn 10 [1] [7])) = SOk (Tn 10 [1] [Some (- (7 + 5))]) /\
  bn_of 0 5 one zero one (Const c) = SOk (Tn 10 [1] [Some (- (7 + 5 + 5))]).
Proof. eexists _, _. split; [reflexivity|]. split; vm_compute; reflexivity. Qed.

(** A case of the hypotheses *)
Example C167_example : casts (Op half (Const (Tn 10 [1] [7]))) /\
  fold_ 5 (Op half (Const (Tn 10 [1] [7]))) = SOk (Op half (Const (Tn 10 [1] [12])), 0) /\
  bn_of 0 0 one zero one (Op half (Const (Tn 10 [1] [12]))) = SOk (Tn 10 [1] [Some (- 12)]).
Proof. split; [split; [exists 10; reflexivity|exact I]|]. split; vm_compute; reflexivity. Qed.
End Refuted.

Print Assumptions C167_same_answer_partial.
Print Assumptions C167_operator_refuted.
Print Assumptions C167_shared_refuted.
Print Assumptions C167_module_refuted.
Print Assumptions C167_example.
