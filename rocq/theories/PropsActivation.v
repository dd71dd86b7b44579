(** Properties of the activations and of the operators with a parameter for
    each channel. *)
From Coq Require Import List ZArith Lia Bool Ring_theory Setoid.
From Verif Require Import ShapeModel ShapeSpec ShapeProofs KernelBase KernelSpec KernelProofs TileModel EltwiseModel ActivationModel ActivationSpec ActivationProofs.
Import ListNotations.
Local Open Scope Z_scope.

Lemma pointwise_intro {R} (f : R -> R) (x : tensor R) supports run : wf x -> supports (t_dtype x) = true ->
  run (t_dtype x) (t_data x) (Z.of_nat (length (t_data x))) = SOk (map Some (map f (t_data x))) ->
  pointwise f x (active supports run x).
Proof.
  intros W S H. exists (Tn (t_dtype x) (t_shape x) (map f (t_data x))). split.
  { unfold active. rewrite S. cbn [negb]. rewrite prod_elements, <- (proj2 W), H. reflexivity. }
  split; [split; [exact (proj1 W)|cbn; rewrite map_length; exact (proj2 W)]|]. split; [reflexivity|]. split; [reflexivity|].
  intros c Hc. unfold elt. cbn. apply nth_error_map.
Qed.

Lemma by_four_is {A} (d : A) (f4 f g : A -> A) (x : list A) : (forall v, f4 v = g v) -> (forall v, f v = g v) ->
  by_four f4 f x (Z.of_nat (length x)) = SOk (map Some (map g x)).
Proof. intros H4 H. rewrite (by_four_ok d); [|reflexivity|congruence]. now rewrite (map_ext f g). Qed.
Lemma in_turn_is {A} (d : A) (f g : A -> A) (x : list A) : (forall v, f v = g v) -> in_turn f x (Z.of_nat (length x)) = SOk (map Some (map g x)).
Proof. intros H. rewrite (in_turn_ok d); [|reflexivity]. now rewrite (map_ext f g). Qed.
Lemma in_place_is {A} (d : A) (f g : A -> A) (x : list A) : (forall v, f v = g v) -> in_place f x (Z.of_nat (length x)) = SOk (map Some (map g x)).
Proof. intros H. rewrite (in_place_ok d); [|reflexivity]. now rewrite (map_ext f g). Qed.

Section Props.
Context {R : Type} (rO rI : R) (radd rmul rsub rdiv : R -> R -> R) (ropp : R -> R).
Hypothesis Rth : semi_ring_theory rO rI radd rmul (@eq R).
Variable ltb : R -> R -> bool.
Hypothesis Order : strict_order ltb.
Variable conv : Z -> R -> R.
Variables fsqrt fexp flog fceil ffloor : R -> R.
Add Ring RR : Rth.

Lemma lt_asym a b : ltb a b = true -> ltb b a = false.
Proof using Order. exact (proj1 Order a b). Qed.
Lemma lt_total a b : ltb a b = false -> ltb b a = false -> a = b.
Proof using Order. exact (proj2 (proj2 Order) a b). Qed.
Lemma lt_trans a b c : ltb a b = true -> ltb b c = true -> ltb a c = true.
Proof using Order. exact (proj1 (proj2 Order) a b c). Qed.
Ltac order := repeat match goal with
  | |- context [ltb ?a ?b] => let E := fresh in destruct (ltb a b) eqn:E
  end; repeat match goal with
  | H1 : ltb ?a ?b = false, H2 : ltb ?b ?a = false |- _ => pose proof (lt_total _ _ H1 H2); clear H1 H2; subst
  | H1 : ltb ?a ?b = true |- _ => lazymatch goal with
      | H : ltb b a = false |- _ => fail
      | _ => pose proof (lt_asym _ _ H1)
      end
  end; try congruence.

Lemma lt_irrefl a : ltb a a = false.
Proof using Order. destruct (ltb a a) eqn:E; [|reflexivity]. pose proof (lt_asym _ _ E). congruence. Qed.
Lemma smax_0 v : smax ltb v rO = if ltb rO v then v else rO.
Proof using Order. unfold smax. order. Qed.
Lemma vmax_0 v : vmax ltb v rO = if ltb rO v then v else rO.
Proof using Order. reflexivity. Qed.
Lemma smin_vmin a b : smin ltb a b = vmin ltb a b.
Proof using Order. unfold smin, vmin. order. Qed.
Lemma smax_vmax a b : smax ltb a b = vmax ltb a b.
Proof using Order. unfold smax, vmax. order. Qed.

Ltac loops := first [apply (by_four_is rO)|apply (in_turn_is rO)|apply (in_place_is rO)].

(** ** C106: the activations compute, at every element and for every type they
    accept, the function in their name, whichever of the loops runs. *)
Theorem C106_relu (x : tensor R) : wf x -> tile_supports (t_dtype x) = true ->
  pointwise (fun v => if ltb rO v then v else rO) x (relu rO ltb x).
Proof using Order.
  intros W S. apply pointwise_intro; auto. cbv beta. destruct (is_float (t_dtype x)); loops; auto using smax_0, vmax_0.
Qed.

Theorem C106_relu_max (max : R) (x : tensor R) : wf x -> tile_supports (t_dtype x) = true -> ltb rO (conv (t_dtype x) max) = true ->
  pointwise (fun v => if ltb rO v then (if ltb v (conv (t_dtype x) max) then v else conv (t_dtype x) max) else rO) x (relu_max rO ltb conv max x).
Proof using Order.
  intros W S M. apply pointwise_intro; auto. cbv beta.
  assert (E : forall v, smin ltb (smax ltb v rO) (conv (t_dtype x) max) = if ltb rO v then (if ltb v (conv (t_dtype x) max) then v else conv (t_dtype x) max) else rO).
  { intros v. rewrite smin_vmin, smax_0. unfold vmin. destruct (ltb rO v); [reflexivity|]. now rewrite M. }
  assert (E' : forall v, vmin ltb (vmax ltb v rO) (conv (t_dtype x) max) = if ltb rO v then (if ltb v (conv (t_dtype x) max) then v else conv (t_dtype x) max) else rO).
  { intros v. now rewrite <- E, smin_vmin, smax_vmax. }
  destruct (is_float (t_dtype x)); loops; auto.
Qed.

Theorem C106_leaky_relu (scale : R) (x : tensor R) : wf x -> tile_supports (t_dtype x) = true ->
  pointwise (fun v => if ltb rO v then v else rmul v (conv (t_dtype x) scale)) x (leaky_relu rO radd rmul ltb conv scale x).
Proof using Order Rth.
  intros W S. apply pointwise_intro; auto. cbv beta zeta.
  assert (E : forall v, radd (vmax ltb v rO) (rmul (conv (t_dtype x) scale) (vmin ltb v rO)) = if ltb rO v then v else rmul v (conv (t_dtype x) scale)).
  { intros v. unfold vmax, vmin. destruct (ltb rO v) eqn:E1.
    - rewrite (lt_asym _ _ E1). ring.
    - destruct (ltb v rO) eqn:E2; [ring|]. rewrite <- (lt_total _ _ E1 E2). ring. }
  destruct (is_float (t_dtype x)); loops; auto.
Qed.

Theorem C106_hard_sigmoid (alpha beta : R) (x : tensor R) : wf x -> floats (t_dtype x) = true -> ltb rO rI = true ->
  pointwise (fun v => let w := radd (rmul alpha v) beta in if ltb w rO then rO else if ltb rI w then rI else w) x (hard_sigmoid rO rI radd rmul ltb alpha beta x).
Proof using Order.
  intros W S M. apply pointwise_intro; auto. cbv beta zeta.
  assert (E : forall w, vmax ltb rO (vmin ltb rI w) = if ltb w rO then rO else if ltb rI w then rI else w).
  { intros w. unfold vmax, vmin. pose proof (lt_asym _ _ M) as M'. destruct (ltb rI w) eqn:E1.
    - rewrite M'. rewrite (lt_asym _ _ (lt_trans _ _ _ M E1)). reflexivity.
    - destruct (ltb w rO); reflexivity. }
  destruct (is_float (t_dtype x)); loops; auto. all: intros v; rewrite ?smax_vmax, ?smin_vmin; apply E.
Qed.

Theorem C106_square (x : tensor R) : wf x -> tile_supports (t_dtype x) = true -> pointwise (fun v => rmul v v) x (square rmul x).
Proof using rO. intros W S. apply pointwise_intro; auto. cbv beta. loops. reflexivity. Qed.
Theorem C106_sqrt (x : tensor R) : wf x -> tile_supports (t_dtype x) = true -> pointwise (fun v => conv (t_dtype x) (fsqrt v)) x (sqrt_ conv fsqrt x).
Proof using rO. intros W S. apply pointwise_intro; auto. cbv beta. loops. reflexivity. Qed.
Theorem C106_rsqrt (x : tensor R) : wf x -> tile_supports (t_dtype x) = true ->
  pointwise (fun v => conv (t_dtype x) (rdiv rI (fsqrt v))) x (rsqrt rI rdiv conv fsqrt x).
Proof using rO. intros W S. apply pointwise_intro; auto. cbv beta. loops. reflexivity. Qed.
Theorem C106_exp (x : tensor R) : wf x -> tile_supports (t_dtype x) = true -> pointwise (fun v => conv (t_dtype x) (fexp v)) x (exp_ conv fexp x).
Proof using rO. intros W S. apply pointwise_intro; auto. cbv beta. loops. reflexivity. Qed.
Theorem C106_tanh (x : tensor R) : wf x -> floats (t_dtype x) = true ->
  pointwise (fun v => rsub (rmul (radd rI rI) (rdiv rI (radd rI (fexp (ropp (rmul (radd rI rI) v)))))) rI) x (tanh_ rI radd rmul rsub rdiv ropp fexp x).
Proof using rO. intros W S. apply pointwise_intro; auto. cbv beta. loops. reflexivity. Qed.

(** ceil and floor leave integers as they are. *)
Theorem C106_ceil (x : tensor R) : wf x -> tile_supports (t_dtype x) = true ->
  pointwise (fun v => if floats (t_dtype x) then fceil v else v) x (ceil fceil x).
Proof using rO.
  intros W S. apply pointwise_intro; auto. cbv beta. destruct (floats (t_dtype x)); [loops; reflexivity|]. now rewrite map_id.
Qed.
Theorem C106_floor (x : tensor R) : wf x -> tile_supports (t_dtype x) = true ->
  pointwise (fun v => if floats (t_dtype x) then ffloor v else v) x (floor ffloor x).
Proof using rO.
  intros W S. apply pointwise_intro; auto. cbv beta. destruct (floats (t_dtype x)); [loops; reflexivity|]. now rewrite map_id.
Qed.

(** sigmoid: signed types only *)
Theorem C106_sigmoid_partial (x : tensor R) : wf x -> tile_supports (t_dtype x) = true -> is_unsigned (t_dtype x) = false ->
  pointwise (fun v => conv (t_dtype x) (rdiv rI (radd rI (fexp (ropp v))))) x (sigmoid rI radd rdiv ropp conv fexp x).
Proof using rO. intros W S U. apply pointwise_intro; auto. cbv beta. rewrite U. loops. reflexivity. Qed.
(** of an unsigned number the sign is not changed: the result falls where the
    sigmoid rises *)
Theorem C106_sigmoid_unsigned (x : tensor R) : wf x -> is_unsigned (t_dtype x) = true ->
  pointwise (fun v => conv (t_dtype x) (rdiv rI (radd rI (fexp v)))) x (sigmoid rI radd rdiv ropp conv fexp x).
Proof using rO.
  intros W U. assert (S : tile_supports (t_dtype x) = true).
  { unfold is_unsigned in U. rewrite !orb_true_iff, !Z.eqb_eq in U. destruct U as [[[->| ->]| ->]| ->]; reflexivity. }
  apply pointwise_intro; auto. cbv beta. rewrite U. loops. reflexivity.
Qed.

(** softplus: float only *)
Theorem C106_softplus_partial (x : tensor R) : wf x -> t_dtype x = 10 ->
  pointwise (fun v => flog (radd (fexp v) rI)) x (softplus rI radd conv fexp flog x).
Proof using rO. intros W U. apply pointwise_intro; rewrite ?U; auto. cbv beta. change (is_float 10) with true. loops. reflexivity. Qed.
(** of every other type, the function of the first element everywhere *)
Theorem C106_softplus_first (x : tensor R) first : wf x -> tile_supports (t_dtype x) = true -> t_dtype x <> 10 -> load (t_data x) 0 = SOk first ->
  pointwise (fun _ => conv (t_dtype x) (flog (radd (fexp first) rI))) x (softplus rI radd conv fexp flog x).
Proof using rO.
  intros W S D F. apply pointwise_intro; auto. cbv beta. unfold is_float. destruct (Z.eqb_spec (t_dtype x) 10) as [E|_]; [contradiction|].
  rewrite F. cbn [lift1].
  set (n := Z.of_nat (length (t_data x))). set (w := conv (t_dtype x) _).
  pose proof (EltwiseKernelProofs.puts_compute n (fun i => nth (Z.to_nat i) (t_data x) rO) (upto n) (load (t_data x)) (In_upto n)) as H.
  unfold EltwiseKernelProofs.computes in H. unfold copy.
  rewrite (EltwiseKernelProofs.exec_instrs_app _ _ _ _ (H ltac:(intros i Hi; now apply load_nth))). clear H.
  rewrite (map_upto_nth rO). fold n.
  replace (map (fun i => Put i (SOk w)) (upto n)) with (map (fun e : event R => Put (fst e) (snd e)) (map (fun i => (i, SOk w)) (upto n))) by now rewrite map_map.
  etransitivity; [apply EltwiseKernelProofs.exec_puts; (intros d v Hin; apply in_map_iff in Hin; destruct Hin as (k & [= _ <-] & _); discriminate)|].
  destruct (exec_spec (fun _ => w) (map (fun i => (i, SOk w)) (upto n)) (map Some (t_data x))) as (m' & -> & L & N).
  { intros d v Hin. apply in_map_iff in Hin. destruct Hin as (k & [= <- <-] & Hk). apply In_upto in Hk. rewrite map_length. auto. }
  f_equal. apply nth_error_ext. intros i. rewrite map_length in L, N. destruct (Nat.lt_ge_cases i (length (t_data x))) as [Hi|Hi].
  - rewrite (proj1 (N i Hi)) by (rewrite map_map; cbn [fst]; rewrite map_id; apply In_upto; unfold n; lia).
    rewrite map_map, nth_error_map. destruct (nth_error (t_data x) i) eqn:En; [reflexivity|]. apply nth_error_None in En. lia.
  - rewrite (proj2 (nth_error_None m' i)) by lia. symmetry. apply nth_error_None. rewrite !map_length. lia.
Qed.

(** Other types are refused. *)
Theorem C106_types (x : tensor R) (a b : R) : tile_supports (t_dtype x) = false ->
  relu rO ltb x = SErr /\ relu_max rO ltb conv a x = SErr /\ leaky_relu rO radd rmul ltb conv a x = SErr /\
  hard_sigmoid rO rI radd rmul ltb a b x = SErr /\ square rmul x = SErr /\ sqrt_ conv fsqrt x = SErr /\
  rsqrt rI rdiv conv fsqrt x = SErr /\ exp_ conv fexp x = SErr /\ sigmoid rI radd rdiv ropp conv fexp x = SErr /\
  tanh_ rI radd rmul rsub rdiv ropp fexp x = SErr /\ softplus rI radd conv fexp flog x = SErr /\
  ceil fceil x = SErr /\ floor ffloor x = SErr.
Proof.
  intros H. assert (F : floats (t_dtype x) = false).
  { unfold floats. destruct (Z.eqb_spec (t_dtype x) 10) as [E|_]; [rewrite E in H; discriminate|].
    destruct (Z.eqb_spec (t_dtype x) 11) as [E|_]; [rewrite E in H; discriminate|reflexivity]. }
  unfold relu, relu_max, leaky_relu, hard_sigmoid, square, sqrt_, rsqrt, exp_, sigmoid, tanh_, softplus, ceil, floor, active.
  rewrite H, F. cbn [negb]. repeat split.
Qed.
(** hard_sigmoid and tanh of integers too *)
Theorem C106_integers (x : tensor R) (a b : R) : floats (t_dtype x) = false ->
  hard_sigmoid rO rI radd rmul ltb a b x = SErr /\ tanh_ rI radd rmul rsub rdiv ropp fexp x = SErr.
Proof. intros H. unfold hard_sigmoid, tanh_, active. now rewrite H. Qed.

(** ** C107: the operators with parameters for each channel use, for each
    element, the parameters of its index along the axis. *)
Lemma param_entry dim (x : tensor R) ps c p : 0 <= dim -> nth_error (t_shape x) (Z.to_nat dim) = Some c ->
  Forall (fun p => wf p /\ t_shape p = [c] /\ t_dtype p = t_dtype x) ps -> In p ps ->
  forall k, 0 <= k < c -> param p k = SOk (entry rO p k).
Proof using rO.
  intros _ _ F Hp k Hk. rewrite Forall_forall in F. destruct (F p Hp) as ([_ L] & Sh & _). unfold param, entry, elt.
  rewrite Sh in L |- *. cbn in L |- *. replace (Z.to_nat (k * 1 + 0)) with (Z.to_nat k) by lia.
  destruct (load_ok (t_data p) k) as (a & -> & ->); [lia|reflexivity].
Qed.
Lemma per_channel_intro dim params ip f g (x : tensor R) : wf x -> tile_supports (t_dtype x) = true -> channel_params dim x params ->
  (forall k, (forall p, In p params -> param p k = SOk (entry rO p k)) -> f (t_dtype x) k = SOk (g k)) ->
  per_channel dim g x (channel_op dim params ip f x).
Proof using rO.
  intros W S (Hd & c & Ec & F) Hf. apply (channel_ok rO) with (c := c); auto.
  - eapply Forall_impl; [|exact F]. cbv beta. intros p (_ & H1 & H2). split; assumption.
  - intros k Hk. apply Hf. intros p Hp. eapply param_entry; eauto.
Qed.

Theorem C107_add_bias dim (x b : tensor R) : wf x -> tile_supports (t_dtype x) = true -> channel_params dim x [b] ->
  per_channel dim (fun k v => radd v (entry rO b k)) x (add_bias radd dim x b).
Proof.
  intros W S P. apply per_channel_intro; auto. intros k H. rewrite (H b) by (now left). reflexivity.
Qed.
Theorem C107_batch_scale dim (x scale bias : tensor R) : wf x -> tile_supports (t_dtype x) = true -> channel_params dim x [scale; bias] ->
  per_channel dim (fun k v => radd (rmul v (entry rO scale k)) (entry rO bias k)) x (batch_scale radd rmul dim x scale bias).
Proof.
  intros W S P. apply per_channel_intro; auto. intros k H. rewrite (H scale), (H bias) by (cbn [In]; auto 6). reflexivity.
Qed.
Theorem C107_batch_norm dim epsilon (x mean variance : tensor R) : wf x -> tile_supports (t_dtype x) = true -> channel_params dim x [mean; variance] ->
  per_channel dim (fun k v => rmul (rsub v (entry rO mean k)) (conv (t_dtype x) (rdiv rI (fsqrt (radd (entry rO variance k) (conv (t_dtype x) epsilon)))))) x
    (batch_norm rI radd rmul rsub rdiv conv fsqrt dim epsilon x mean variance).
Proof.
  intros W S P. apply per_channel_intro; auto. intros k H. rewrite (H mean), (H variance) by (cbn [In]; auto 6). reflexivity.
Qed.
Theorem C107_prelu dim (x slope : tensor R) : wf x -> tile_supports (t_dtype x) = true -> channel_params dim x [slope] ->
  per_channel dim (fun k v => if ltb rO v then v else rmul (entry rO slope k) v) x (prelu rO radd rmul ltb dim x slope).
Proof using Rth Order.
  intros W S P.
  assert (E : forall s v, radd (vmax ltb v rO) (rmul s (vmin ltb v rO)) = if ltb rO v then v else rmul s v).
  { intros s v. unfold vmax, vmin. destruct (ltb rO v) eqn:E1.
    - rewrite (lt_asym _ _ E1). ring.
    - destruct (ltb v rO) eqn:E2; [ring|]. rewrite <- (lt_total _ _ E1 E2). ring. }
  destruct (per_channel_intro dim [slope] true (fun t k => lift1 (fun sk v =>
    if is_float t then radd (vmax ltb v rO) (rmul sk (vmin ltb v rO)) else radd (smax ltb v rO) (rmul sk (smin ltb v rO))) (param slope k))
    (fun k v => if is_float (t_dtype x) then radd (vmax ltb v rO) (rmul (entry rO slope k) (vmin ltb v rO)) else radd (smax ltb v rO) (rmul (entry rO slope k) (smin ltb v rO))) x W S P)
    as (out & Ho & Wo & Do & So & El).
  { intros k H. rewrite (H slope) by (now left). reflexivity. }
  exists out. split; [exact Ho|]. split; [exact Wo|]. split; [exact Do|]. split; [exact So|].
  intros c Hc. rewrite (El c Hc). destruct (elt x c); [|reflexivity]. cbn [option_map]. f_equal.
  destruct (is_float (t_dtype x)); rewrite ?smax_vmax, ?smin_vmin; apply E.
Qed.
Theorem C107_fused dim epsilon (x mean variance scale bias : tensor R) : wf x -> tile_supports (t_dtype x) = true ->
  channel_params dim x [mean; variance; scale; bias] ->
  per_channel dim (fun k v => radd (rmul (rmul (rsub v (entry rO mean k)) (conv (t_dtype x) (rdiv rI (fsqrt (radd (entry rO variance k) (conv (t_dtype x) epsilon))))))
      (entry rO scale k)) (entry rO bias k)) x
    (fused_batch_norm rI radd rmul rsub rdiv conv fsqrt dim epsilon x mean variance scale bias).
Proof.
  intros W S P. apply per_channel_intro; auto. intros k H. rewrite (H mean), (H variance), (H scale), (H bias) by (cbn [In]; auto 6). reflexivity.
Qed.

(** The fused operator is batch_norm followed by batch_scale. *)
Theorem C107_fused_is_norm_then_scale dim epsilon (x mean variance scale bias : tensor R) : wf x -> tile_supports (t_dtype x) = true ->
  channel_params dim x [mean; variance; scale; bias] ->
  exists y, batch_norm rI radd rmul rsub rdiv conv fsqrt dim epsilon x mean variance = SOk (filled y) /\
    fused_batch_norm rI radd rmul rsub rdiv conv fsqrt dim epsilon x mean variance scale bias = batch_scale radd rmul dim y scale bias.
Proof.
  intros W S P.
  assert (P1 : channel_params dim x [mean; variance]).
  { destruct P as (Hd & c & Ec & F). split; [exact Hd|]. exists c. split; [exact Ec|]. inversion F as [|? ? F1 F']. inversion F'. auto. }
  destruct (C107_batch_norm dim epsilon x mean variance W S P1) as (y & Ey & Wy & Dy & Sy & Ely).
  exists y. split; [exact Ey|].
  assert (P2 : channel_params dim y [scale; bias]).
  { destruct P as (Hd & c & Ec & F). split; [exact Hd|]. exists c. rewrite Sy, Dy. split; [exact Ec|].
    inversion F as [|? ? F1 F']. inversion F' as [|? ? F2 F'']. exact F''. }
  destruct (C107_batch_scale dim y scale bias Wy ltac:(now rewrite Dy) P2) as (z & Ez & Wz & Dz & Sz & Elz).
  destruct (C107_fused dim epsilon x mean variance scale bias W S P) as (z' & Ez' & Wz' & Dz' & Sz' & Elz').
  rewrite Ez, Ez'. do 2 f_equal. apply tensor_ext; auto; [congruence|congruence|].
  intros c Hc. rewrite Sz' in Hc. rewrite (Elz' c Hc), Elz by (now rewrite Sy). rewrite (Ely c Hc). destruct (elt x c); reflexivity.
Qed.

(** What is refused: an axis that [x] does not have, parameters that are not
    vectors of its size or of another type, other types. *)
Theorem C107_refused dim epsilon (x a b c d : tensor R) :
  (dim < 0 \/ Z.of_nat (length (t_shape x)) <= dim \/ tile_supports (t_dtype x) = false ->
   add_bias radd dim x a = SErr /\ prelu rO radd rmul ltb dim x a = SErr /\ batch_scale radd rmul dim x a b = SErr /\
   batch_norm rI radd rmul rsub rdiv conv fsqrt dim epsilon x a b = SErr /\
   fused_batch_norm rI radd rmul rsub rdiv conv fsqrt dim epsilon x a b c d = SErr) /\
  (t_shape a <> [nth (Z.to_nat dim) (t_shape x) 0] \/ t_dtype a <> t_dtype x ->
   add_bias radd dim x a = SErr /\ prelu rO radd rmul ltb dim x a = SErr /\ batch_scale radd rmul dim x a b = SErr /\ batch_scale radd rmul dim x b a = SErr /\
   batch_norm rI radd rmul rsub rdiv conv fsqrt dim epsilon x a b = SErr /\ batch_norm rI radd rmul rsub rdiv conv fsqrt dim epsilon x b a = SErr /\
   fused_batch_norm rI radd rmul rsub rdiv conv fsqrt dim epsilon x a b c d = SErr /\
   fused_batch_norm rI radd rmul rsub rdiv conv fsqrt dim epsilon x b a c d = SErr /\
   fused_batch_norm rI radd rmul rsub rdiv conv fsqrt dim epsilon x b c a d = SErr /\
   fused_batch_norm rI radd rmul rsub rdiv conv fsqrt dim epsilon x b c d a = SErr).
Proof.
  split; intros H; repeat split; apply channel_err; first [destruct H as [H|[H|H]]; auto; fail|right; right; left; exists a; (split; [cbn [In]; auto 6|exact H])].
Qed.
End Props.
Print Assumptions C106_relu.
Print Assumptions C106_relu_max.
Print Assumptions C106_leaky_relu.
Print Assumptions C106_hard_sigmoid.
Print Assumptions C106_square.
Print Assumptions C106_sqrt.
Print Assumptions C106_rsqrt.
Print Assumptions C106_exp.
Print Assumptions C106_tanh.
Print Assumptions C106_ceil.
Print Assumptions C106_floor.
Print Assumptions C106_sigmoid_partial.
Print Assumptions C106_sigmoid_unsigned.
Print Assumptions C106_softplus_partial.
Print Assumptions C106_softplus_first.
Print Assumptions C106_types.
Print Assumptions C106_integers.
Print Assumptions C107_add_bias.
Print Assumptions C107_batch_scale.
Print Assumptions C107_batch_norm.
Print Assumptions C107_prelu.
Print Assumptions C107_fused.
Print Assumptions C107_fused_is_norm_then_scale.
Print Assumptions C107_refused.

(** Numbers for the examples: the integers. *)
Example C106_order : strict_order Z.ltb.
Proof.
  split; [|split]; intros a b; [|intros c|]; rewrite ?Z.ltb_lt, ?Z.ltb_ge; lia.
Qed.
Definition ex_x := Tn 10 [2; 3; 1] [-2; 5; 7; 0; -1; 3].
Example C106_example : wf ex_x /\ tile_supports (t_dtype ex_x) = true /\ Z.ltb 0 1 = true /\
  relu 0 Z.ltb ex_x = SOk (Tn 10 [2; 3; 1] (map Some [0; 5; 7; 0; 0; 3])) /\
  relu_max 0 Z.ltb (fun _ v => v) 6 ex_x = SOk (Tn 10 [2; 3; 1] (map Some [0; 5; 6; 0; 0; 3])) /\
  leaky_relu 0 Z.add Z.mul Z.ltb (fun _ v => v) 10 ex_x = SOk (Tn 10 [2; 3; 1] (map Some [-20; 5; 7; 0; -10; 3])) /\
  hard_sigmoid 0 1 Z.add Z.mul Z.ltb 1 0 ex_x = SOk (Tn 10 [2; 3; 1] (map Some [0; 1; 1; 0; 0; 1])).
Proof. split; [split; [repeat constructor; lia|reflexivity]|]. repeat split. Qed.
(** with 2^v for the exponential and log2 for the logarithm: softplus of a
    double tensor repeats the first element *)
Example C106_softplus_example :
  softplus 1 Z.add (fun _ v => v) (Z.pow 2) Z.log2 (Tn 11 [3] [1; 2; 9]) = SOk (Tn 11 [3] (map Some [1; 1; 1])) /\
  softplus 1 Z.add (fun _ v => v) (Z.pow 2) Z.log2 (Tn 10 [3] [1; 2; 9]) = SOk (Tn 10 [3] (map Some [1; 2; 9])).
Proof. split; vm_compute; reflexivity. Qed.
(** and the sigmoid of 9 is 1 for a signed type, 0 for an unsigned one (here
    1 / (1 + 2^-9) in units that keep the quotient: the division rounds up) *)
Example C106_sigmoid_example :
  sigmoid 1 Z.add (fun a b => (a + b - 1) / b) Z.opp (fun _ v => v) (fun v => if v <? 0 then 0 else 2 ^ v) (Tn 1 [1] [9]) = SOk (Tn 1 [1] [Some 1]) /\
  sigmoid 1 Z.add Z.div Z.opp (fun _ v => v) (fun v => if v <? 0 then 0 else 2 ^ v) (Tn 2 [1] [9]) = SOk (Tn 2 [1] [Some 0]).
Proof. split; vm_compute; reflexivity. Qed.

Definition ex_p (v : list Z) := Tn 10 [3] v.
Example C107_example : channel_params 1 ex_x [ex_p [1; 2; 3]; ex_p [10; 20; 30]] /\
  add_bias Z.add 1 ex_x (ex_p [1; 2; 3]) = SOk (Tn 10 [2; 3; 1] (map Some [-1; 7; 10; 1; 1; 6])) /\
  batch_scale Z.add Z.mul 1 ex_x (ex_p [1; 2; 3]) (ex_p [10; 20; 30]) = SOk (Tn 10 [2; 3; 1] (map Some [8; 30; 51; 10; 18; 39])) /\
  prelu 0 Z.add Z.mul Z.ltb 1 ex_x (ex_p [1; 2; 3]) = SOk (Tn 10 [2; 3; 1] (map Some [-2; 5; 7; 0; -2; 3])) /\
  add_bias Z.add 2 ex_x (ex_p [1; 2; 3]) = SErr.
Proof.
  split.
  { split; [lia|]. exists 3. split; [reflexivity|]. repeat constructor; cbn; lia. }
  repeat split; vm_compute; reflexivity.
Qed.

Theorem C106_softplus_refuted : exists x : tensor Z, wf x /\ tile_supports (t_dtype x) = true /\
  ~ pointwise (fun v => Z.log2 (Z.add (Z.pow 2 v) 1)) x (softplus 1 Z.add (fun _ v => v) (Z.pow 2) Z.log2 x).
Proof.
  exists (Tn 11 [3] [1; 2; 9]). split; [split; [repeat constructor; lia|reflexivity]|]. split; [reflexivity|].
  intros (out & E & W & D & S & El).
  rewrite (proj1 C106_softplus_example) in E. destruct out as [dt sh da]. unfold filled in E. cbn in E. injection E as E1 E2 E3.
  cbn in D, S. subst dt sh.
  assert (I : inside [3] [2]) by (repeat constructor; lia). specialize (El [2] I).
  change (nth_error da 2 = Some 9) in El.
  do 4 (destruct da as [|? da]; try discriminate). cbn in El, E3. congruence.
Qed.
Print Assumptions C106_softplus_refuted.
Theorem C106_sigmoid_refuted : exists x : tensor Z, wf x /\ tile_supports (t_dtype x) = true /\
  let e v := if v <? 0 then 0 else 2 ^ v in
  ~ pointwise (fun v => Z.div 1 (Z.add 1 (e (Z.opp v)))) x (sigmoid 1 Z.add Z.div Z.opp (fun _ v => v) e x).
Proof.
  exists (Tn 2 [1] [9]). split; [split; [repeat constructor; lia|reflexivity]|]. split; [reflexivity|].
  intros e (out & E & W & D & S & El). unfold e in *.
  rewrite (proj2 C106_sigmoid_example) in E. destruct out as [dt sh da]. unfold filled in E. cbn in E. injection E as E1 E2 E3.
  cbn in D, S. subst dt sh.
  assert (I : inside [1] [0]) by (repeat constructor; lia). specialize (El [0] I).
  change (nth_error da 0 = Some 1) in El.
  do 2 (destruct da as [|? da]; try discriminate). cbn in El, E3. congruence.
Qed.
Print Assumptions C106_sigmoid_refuted.
