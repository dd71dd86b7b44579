(** C170: building a graph by calling functions named like operators. *)
From Coq Require Import ZArith Bool String List Lia QArith.
From Verif Require Import ShapeModel KernelBase KernelSpec ConcatModel GatherModel TileModel ResizeModel AffineModel AffineSpec PropsAffine SymbolModel SymbolSpec.
Import ListNotations.
Local Open Scope Z_scope.
Local Open Scope string_scope.
Local Open Scope list_scope.

(** the nodes a call is given *)
Definition given {F} (c : call F) : list nat :=
  match c with
  | Pad a b _ | Resize2D a b _ | Add a b | Sub a b | Mul a b | Div a b | Gather a b _ | Matmul a b _ | Broadcast a b => [a; b]
  | Transpose a _ | Sigmoid a | Softmax a _ _ | Cast a _ => [a]
  | Concat l _ => l
  | AffineSample2D a b c _ _ _ | AffineOnSample2D a b c _ _ => [a; b; c]
  end.

Section Calls.
Context {F V : Type}.
Variable layer : string -> list (string * param F) -> list V -> option V.

Lemma run_app g n : run layer (g ++ [n]) = step layer (run layer g) n.
Proof. unfold run. now rewrite fold_left_app. Qed.
Lemma run_length g : List.length (run layer g) = List.length g.
Proof.
  induction g as [|n g IH] using rev_ind; [reflexivity|]. rewrite run_app. unfold step. rewrite !app_length. cbn [List.length]. now rewrite IH.
Qed.
Lemma all_many (l : list (option V)) : all l = many l.
Proof. induction l as [|[a|] l IH]; cbn; [reflexivity| |reflexivity]. rewrite IH. reflexivity. Qed.

(** Every function but concat and broadcast appends one node with the name given,
    whose value, in every graph and whatever the operators compute, is what its
    operator computes of the nodes given, in order; the values of all nodes before
    stay what they were. *)
Theorem C170_symbol_partial (g : graph F) name (c : call F) : (forall l d, c <> Concat l d) -> (forall a b, c <> Broadcast a b) ->
  run layer (symbol g name c) = run layer g ++ [promised layer (fun i => nth i (run layer g) None) c] /\
  exists n, symbol g name c = g ++ [n] /\ n_name n = name /\ n_inputs n = given c.
Proof.
  intros H1 H2. destruct c; try (exfalso; now eapply H1); try (exfalso; now eapply H2); cbn [symbol append];
    (split; [|eexists; split; [reflexivity|split; reflexivity]]); unfold append; rewrite run_app; unfold step; do 2 f_equal; cbn [n_inputs n_op n_params map fst snd promised all one two three];
    repeat match goal with |- context [match nth ?i ?r None with _ => _ end] => destruct (nth i r None); cbn [all] end; reflexivity.
Qed.

(** The names, the inputs and the rest of the graph are right for those two as well. *)
Theorem C170_linked (g : graph F) name (c : call F) : exists n, symbol g name c = g ++ [n] /\ n_name n = name /\ n_inputs n = given c.
Proof. destruct c; eexists; (split; [reflexivity|split; reflexivity]). Qed.

(** Every node has the fields its operator requires and none it does not declare. *)
Theorem C170_fields (g : graph F) name (c : call F) : exists n, symbol g name c = g ++ [n] /\
  incl (fst (fields (n_op n))) (map fst (n_params n)) /\ incl (map fst (n_params n)) (fst (fields (n_op n)) ++ snd (fields (n_op n))).
Proof.
  destruct c; eexists; (split; [reflexivity|]); cbn [n_op n_params map fst snd]; vm_compute; split; intros s H; cbn in H |- *; tauto.
Qed.

(** concat builds a gather, so its value is that of a gather of what was to be concatenated. *)
Theorem C170_concat_is_gather (g : graph F) name l d : run layer (symbol g name (Concat l d)) =
  run layer g ++ [match many (map (fun i => nth i (run layer g) None) l) with Some vs => layer "gather" [("axis", PInt d)] vs | None => None end].
Proof. cbn [symbol]. unfold append. rewrite run_app. unfold step. cbn [n_inputs n_op n_params fst snd d_gather]. now rewrite all_many. Qed.
(** broadcast builds a matrix product with the shape. *)
Theorem C170_broadcast_is_matmul (g : graph F) name x s : run layer (symbol g name (Broadcast x s)) =
  run layer g ++ [two (fun a b => layer "inner_prod" [("transpose", PBool false)] [a; b]) (nth x (run layer g) None) (nth s (run layer g) None)].
Proof.
  cbn [symbol]. unfold append. rewrite run_app. unfold step. cbn [n_inputs n_op n_params fst snd d_matmul map].
  do 2 f_equal. destruct (nth x (run layer g) None), (nth s (run layer g) None); reflexivity.
Qed.
End Calls.
Print Assumptions C170_symbol_partial.
Print Assumptions C170_linked.
Print Assumptions C170_fields.
Print Assumptions C170_concat_is_gather.
Print Assumptions C170_broadcast_is_matmul.

(** Concatenating and gathering as they are (the kernels of ConcatModel and
    GatherModel), the other operators out of the picture; two inputs. *)
Definition as_tensor (r : sres (raw_tensor Z)) : option (tensor Z) :=
  match r with
  | SOk t => match fold_right (fun o acc => match o, acc with Some v, Some l => Some (v :: l) | _, _ => None end) (Some []) (t_data t) with
             | Some l => Some (Tn (t_dtype t) (t_shape t) l)
             | None => None
             end
  | _ => None
  end.
Definition kernels (inputs : list (string * tensor Z)) (op : string) (params : list (string * param Z)) (vs : list (tensor Z)) : option (tensor Z) :=
  if string_dec op "concat" then match params with [("dim", PInt d)] => as_tensor (concat_run d vs) | _ => None end else
  if string_dec op "gather" then match params, vs with [("axis", PInt d)], [x; i] => as_tensor (gather_run d x i) | _, _ => None end else
  option_map snd (find (fun p => if string_dec (fst p) op then true else false) inputs).
Definition demo_inputs : list (string * tensor Z) := [("a", Tn 5 [3] [5; 6; 7]%Z); ("b", Tn 5 [2] [2; 0]%Z)].
Definition demo_graph : graph Z := [Node "a" "a" [] []; Node "b" "b" [] []].
(** (5, 6, 7) and (2, 0) give (7, 5), not (5, 6, 7, 2, 0); three inputs give nothing. *)
Theorem C170_concat_refuted :
  run (kernels demo_inputs) demo_graph = [Some (Tn 5 [3] [5; 6; 7]%Z); Some (Tn 5 [2] [2; 0]%Z)] /\
  promised (kernels demo_inputs) (fun i => nth i (run (kernels demo_inputs) demo_graph) None) (Concat [0; 1]%nat 0) = Some (Tn 5 [5] [5; 6; 7; 2; 0]%Z) /\
  run (kernels demo_inputs) (symbol demo_graph "c" (Concat [0; 1]%nat 0)) = [Some (Tn 5 [3] [5; 6; 7]%Z); Some (Tn 5 [2] [2; 0]%Z); Some (Tn 5 [2] [7; 5]%Z)] /\
  promised (kernels demo_inputs) (fun i => nth i (run (kernels demo_inputs) demo_graph) None) (Concat [0; 1; 0]%nat 0) = Some (Tn 5 [8] [5; 6; 7; 2; 0; 5; 6; 7]%Z) /\
  nth 2 (run (kernels demo_inputs) (symbol demo_graph "c" (Concat [0; 1; 0]%nat 0))) None = None.
Proof. repeat match goal with |- _ /\ _ => split end; vm_compute; reflexivity. Qed.
(** broadcast is not what the operator of that name computes *)
Theorem C170_broadcast_refuted : exists (layer : string -> list (string * param Z) -> list Z -> option Z) (g : graph Z),
  promised layer (fun i => nth i (run layer g) None) (Broadcast 0 1) = Some 7%Z /\ nth 2 (run layer (symbol g "c" (Broadcast 0 1))) None = Some 6%Z.
Proof.
  exists (fun op _ _ => Some (if string_dec op "broadcast" then 7 else if string_dec op "inner_prod" then 6 else 1)%Z), [Node "a" "a" [] []; Node "b" "b" [] []].
  split; reflexivity.
Qed.
(** With its default axis affine sampling is refused for every input. *)
Theorem C170_default_dim_refuted {A} (to_q : A -> Q) cast type outer size affine (x : tensor A) :
  affine_sample2d to_q cast type default_dim outer size affine x = SErr.
Proof. apply C126_refused. unfold default_dim. lia. Qed.
Print Assumptions C170_concat_refuted.
Print Assumptions C170_broadcast_refuted.
Print Assumptions C170_default_dim_refuted.
(** gather, as asked for *)
Example C170_example :
  run (kernels demo_inputs) (symbol demo_graph "c" (Gather 0 1 0)) = [Some (Tn 5 [3] [5; 6; 7]%Z); Some (Tn 5 [2] [2; 0]%Z); Some (Tn 5 [2] [7; 5]%Z)] /\
  (forall l d, (Gather 0 1 0 : call Z) <> Concat l d) /\ (forall a b, (Gather 0 1 0 : call Z) <> Broadcast a b).
Proof. split; [vm_compute; reflexivity|]. split; intros; discriminate. Qed.
