(** Properties of serialisation and of modules: C13-C16, C29, C58, C59. *)
From Coq Require Import String.
From Coq Require Import List ZArith Bool Lia.
From Verif Require Import ShapeSpec StackModel GraphSpec TensorModel SerialModel SerialSpec SerialProofs
  ModuleModel ModuleSpec ModuleProofs ModuleProofs2.
Import ListNotations.

(** ** C13 *)

(** A well-formed tensor (plain, or packed from plain ones) written to a stream
    and read back into any tensor object is the same tensor, and exactly the
    written bytes are consumed.  Missing: tensors packed from packed tensors,
    see below. *)
Theorem C13_tensor_round_trip_partial (t this : tensor plain) (rest : stream) :
  well_formed_tensor t -> flat t ->
  exists s, serialize_tensor t = Some s /\ externalize_tensor this (s ++ rest) = ROk t rest.
Proof. apply tensor_round_trip. Qed.
Print Assumptions C13_tensor_round_trip_partial.

(** A field that is packed itself loses its own fields. *)
Theorem C13_nested_pack_refuted :
  exists t s t', well_formed_tensor t /\ serialize_tensor t = Some s /\
    externalize_tensor (simple void_plain) s = ROk t' [] /\ t' <> t.
Proof.
  set (b := mkPlain 2 [1%Z] [7%Z]).
  exists (T b [T b [simple b]]).
  assert (W : well_formed b).
  { apply wf_one_size; [lia | unfold int_max; lia | reflexivity]. }
  assert (WT : well_formed_tensor (T b [T b [simple b]])).
  { split; [exact W|]. split; [intros f [<-|[]]; exact W | reflexivity]. }
  eexists; eexists. split; [exact WT|]. split; [reflexivity|]. split; [reflexivity|]. discriminate.
Qed.
Print Assumptions C13_nested_pack_refuted.

(** In general what survives is the list of fields without their own fields. *)
Theorem C13_fields_survive (t this : tensor plain) s rest :
  well_formed_tensor t -> serialize_tensor t = Some s ->
  externalize_tensor this (s ++ rest) = ROk (T (t_head t) (map simple (map t_head (t_fields t)))) rest.
Proof. apply tensor_reads_heads. Qed.
Print Assumptions C13_fields_survive.

Example C13_example :
  let t := T (mkPlain 10 [2; 1]%Z [1; 2; 3; 4; 5; 6; 7; 8]%Z) [simple (mkPlain 13 [3]%Z [97; 98; 99]%Z)] in
  well_formed_tensor t /\ flat t /\
  exists s, serialize_tensor t = Some s /\ length s = 37%nat /\
    externalize_tensor (simple void_plain) (s ++ [42%Z]) = ROk t [42%Z].
Proof.
  assert (W1 : well_formed (mkPlain 10 [2; 1]%Z [1; 2; 3; 4; 5; 6; 7; 8]%Z)).
  { split; cbn [p_dtype p_sizes p_data]; unfold int_max; [lia | simpl; lia | repeat constructor; lia | | reflexivity].
    intros [|[|[|k]]]; simpl; lia. }
  assert (W2 : well_formed (mkPlain 13 [3]%Z [97; 98; 99]%Z)).
  { apply wf_one_size; [lia | unfold int_max; lia | reflexivity]. }
  split; [|split].
  - split; [exact W1|]. split; [intros f [<-|[]]; exact W2 | reflexivity].
  - intros f [<-|[]]. reflexivity.
  - eexists. split; [reflexivity|]. split; reflexivity.
Qed.

(** ** C14 *)

(** Attributes built by a constructor and any calls of set, clear,
    clear_params, op, name, shape and dtype (arguments that fit the format,
    reserved '#' parameters not written directly) are read back exactly:
    operator, name, shape and every parameter.  Missing: objects that were
    moved, see below, and writing the reserved parameters directly. *)
Theorem C14_bubble_round_trip_partial cast_other to_int op name shape calls rest :
  string_ok op -> string_ok name -> shape_ok shape -> Forall call_ok calls ->
  (Z.of_nat (length calls) <= int_max)%Z ->
  exists s, serialize_bubble (bbuild op name shape calls) = Some s /\
    externalize_bubble cast_other to_int [] (s ++ rest) = ROk (bbuild op name shape calls) rest.
Proof. apply bubble_round_trip. Qed.
Print Assumptions C14_bubble_round_trip_partial.

(** Moving a Bubble drops its shape but not the parameter it is saved as: the
    reloaded node has a different shape. *)
Theorem C14_moved_refuted cast_other to_int :
  exists op name shape s b', let b := bbuild op name shape [BMove] in
    string_ok op /\ string_ok name /\ shape_ok shape /\
    serialize_bubble b = Some s /\
    externalize_bubble cast_other to_int [] s = ROk b' [] /\
    b_shape b = [] /\ b_shape b' = shape /\ b_shape b' <> b_shape b.
Proof.
  exists (lit "conv2d"), (lit "c1"), [1; 3; 8; 8]%Z.
  eexists; eexists. cbv zeta.
  split; [vm_compute; discriminate|]. split; [vm_compute; discriminate|].
  split. { split; [simpl; lia|]. repeat constructor; unfold int_max; lia. }
  split; [vm_compute; reflexivity|]. split; [vm_compute; reflexivity|].
  split; [reflexivity|]. split; [reflexivity|]. discriminate.
Qed.
Print Assumptions C14_moved_refuted.

Example C14_example :
  let calls := [BSet (lit "stride") (simple (mkPlain 5 [1]%Z [2; 0; 0; 0]%Z)); BName (lit "c2");
                BDtype 10; BClearParams; BSet (lit "w") (simple (mkPlain 2 [2]%Z [8; 9]%Z)); BShape [4; -1]%Z] in
  string_ok (lit "conv2d") /\ shape_ok [1; 3]%Z /\ Forall call_ok calls /\
  b_name (bbuild (lit "conv2d") (lit "c1") [1; 3]%Z calls) = lit "c2" /\
  length (b_params (bbuild (lit "conv2d") (lit "c1") [1; 3]%Z calls)) = 5%nat.
Proof.
  cbv zeta. split; [vm_compute; discriminate|].
  split. { split; [simpl; lia|]. repeat constructor; unfold int_max; lia. }
  split.
  { assert (WF1 : forall d n data, (0 <= d <= 32)%Z -> (0 <= n <= int_max)%Z ->
      Z.of_nat (length data) = (n * sizeof d)%Z ->
      well_formed_tensor (simple (mkPlain d [n] data)) /\ flat (simple (mkPlain d [n] data))).
    { intros d n data A B C. split; [|intros f []]. split; [now apply wf_one_size|].
      split; [intros f []|reflexivity]. }
    assert (I : (0 <= 1 <= int_max)%Z) by (unfold int_max; lia).
    assert (I2 : (0 <= 2 <= int_max)%Z) by (unfold int_max; lia).
    constructor. { split; [reflexivity|]. split; [vm_compute; discriminate|]. apply WF1; [lia|exact I|reflexivity]. }
    constructor. { vm_compute; discriminate. }
    constructor. { cbn [call_ok]. lia. }
    constructor. { exact Logic.I. }
    constructor. { split; [reflexivity|]. split; [vm_compute; discriminate|]. apply WF1; [lia|exact I2|reflexivity]. }
    constructor. { split; [simpl; lia|]. constructor; [unfold int_max; lia|]. constructor; [unfold int_max; lia|]. constructor. }
    constructor. }
  split; vm_compute; reflexivity.
Qed.

(** ** C15 *)

(** A module obtained by loading a graph and setting its inputs, all of whose
    nodes are as in C14, is saved and loaded back as the same module up to the
    numbering of nodes: same attributes, same ordered edges, same ordered
    inputs and outputs, nothing more; and it computes the same function,
    whatever the operators mean.  Missing: what C13 and C14 exclude. *)
Theorem C15_save_load_round_trip_partial cast_other to_int (g : mgraph) outputs inputs m0 m :
  module_load g outputs = Some m0 -> sort_nodes m0 inputs = Some m ->
  acyclic_graph g ->
  (forall n, part_of m n -> built (mg_bub g n)) ->
  (forall i, In i inputs -> mg_ins g i = []) ->
  (* sizes fit the 32 bit fields of the format *)
  (forall n, part_of m n -> (Z.of_nat (length (mg_ins g n)) < 4294967296)%Z) ->
  (Z.of_nat (length inputs) < 4294967296)%Z -> (Z.of_nat (length outputs) < 4294967296)%Z ->
  (forall l, NoDup l -> (forall n, In n l -> part_of m n) -> (Z.of_nat (length l) < 4294967296)%Z) ->
  exists N, forall fuel, N <= fuel -> forall rest,
  exists bytes f m', save fuel m = Some bytes /\
    load_file cast_other to_int (bytes ++ rest) = ROk m' rest /\
    renamed f m m' /\
    forall V Opr packV fieldV (oprun : Opr -> list V -> opres V) interp args vs,
      dens packV fieldV oprun (meaning interp g) (bind inputs args) outputs vs <->
      dens packV fieldV oprun (meaning interp (m_graph m')) (bind (m_inputs m') args) (m_outputs m') vs.
Proof.
  intros H1 H2 H3 H4 H5 H6 H7 H8 H9.
  apply sort_nodes_iff in H2 as [H2 ->]. unfold module_load in H1.
  destruct (graph_walker g outputs) as [params| |] eqn:W; try discriminate. injection H1 as <-.
  cbn [m_graph m_inputs m_outputs] in *.
  destruct (module_round_trip cast_other to_int (mkModule g inputs outputs) H3 H4 H5 H6 H7 H8 H9 params W H2)
    as [N HN].
  exists N. intros fuel Hf rest. destruct (HN fuel Hf rest) as (bytes & f & m' & A & B & C).
  exists bytes, f, m'. split; [auto|]. split; [auto|]. split; [auto|].
  intros. exact (meaning_renamed packV fieldV oprun interp (mkModule g inputs outputs) m' f args vs C H5).
Qed.
Print Assumptions C15_save_load_round_trip_partial.

(** A graph y = add(x, mul(c, x)) with an unused second input. *)
Definition ex_graph : mgraph :=
  mkMG [0; 1; 2; 3; 4]
    (fun n => match n with
              | 0 => make_bubble op_param (lit "x") [] | 1 => make_bubble op_const (lit "c") []
              | 2 => make_bubble (lit "mul") (lit "m") [] | 3 => make_bubble (lit "add") (lit "y") [2]%Z
              | _ => make_bubble op_param (lit "z") [] end)
    (fun n => match n with 2 => [1; 0] | 3 => [0; 2] | _ => [] end).

Example C15_example :
  let m := mkModule ex_graph [4; 0] [3; 2] in
  (exists m0, module_load ex_graph [3; 2] = Some m0 /\ m_inputs m0 = [0] /\ sort_nodes m0 [4; 0] = Some m) /\
  acyclic_graph ex_graph /\
  (forall n, built (mg_bub ex_graph n)) /\
  exists bytes m', save 20 m = Some bytes /\
    load_file (fun _ => None) (fun _ => None) (bytes ++ [1%Z]) = ROk m' [1%Z] /\
    mg_nodes (m_graph m') = [0; 1; 2; 3; 4] /\ m_inputs m' = [4; 1] /\ m_outputs m' = [3; 2] /\
    map (mg_ins (m_graph m')) [0; 1; 2; 3; 4] = [[]; []; [0; 1]; [1; 2]; []].
Proof.
  cbv zeta. split. { eexists. split; [vm_compute; reflexivity|]. split; reflexivity. }
  split. { exists (fun n => match n with 2 => 1 | 3 => 2 | _ => 0 end).
    intros n i H. destruct n as [|[|[|[|n]]]]; simpl in H; try contradiction; repeat (destruct H as [<-|H]; [lia|]); contradiction. }
  split. { intros n.
    assert (MK : forall op name shape, string_ok op -> string_ok name -> shape_ok shape -> built (make_bubble op name shape)).
    { intros op name shape A B C. exists op, name, shape, []. split; [exact A|]. split; [exact B|]. split; [exact C|].
      split; [constructor|]. split; [vm_compute; discriminate|reflexivity]. }
    assert (S0 : shape_ok []) by (split; [simpl; lia|constructor]).
    assert (S2 : shape_ok [2]%Z) by (split; [simpl; lia|constructor; [unfold int_max; lia|constructor]]).
    destruct n as [|[|[|[|n]]]]; apply MK; auto; vm_compute; discriminate. }
  do 2 eexists. split; [vm_compute; reflexivity|]. split; [vm_compute; reflexivity|].
  vm_compute. repeat (split; [reflexivity|]). reflexivity.
Qed.

(** ** C16 *)

(** Whatever loads as a module carries the format code in bytes 4 to 7 (a
    shorter file never does).  Nothing else about the contents is checked,
    see below. *)
Theorem C16_format_code_checked_partial cast_other to_int s m rest :
  Forall (fun b => (0 <= b < 256)%Z) s ->
  load_file cast_other to_int s = ROk m rest -> firstn 4 (skipn 4 s) = [41; 9; 145; 25]%Z.
Proof. intros H1 H2. exact (load_needs_code cast_other to_int s m rest H1 H2). Qed.
Print Assumptions C16_format_code_checked_partial.

(** Every saved file cut right after its header loads without an error, as a
    module without inputs, outputs and nodes. *)
Theorem C16_truncated_after_header_refuted cast_other to_int fuel m bytes :
  save fuel m = Some bytes ->
  exists m', firstn 128 bytes = header_bytes /\
    load_file cast_other to_int (firstn 128 bytes) = ROk m' [] /\
    mg_nodes (m_graph m') = [] /\ m_inputs m' = [] /\ m_outputs m' = [].
Proof.
  intro E. unfold save in E.
  destruct (GraphModel.list_reference_nodes _ _ _); [|discriminate].
  destruct (indices _ (m_inputs m)); [|discriminate].
  destruct (indices _ (m_outputs m)); [|discriminate].
  destruct (serialize_nodes _ _) as [body|]; [|discriminate].
  match type of E with Some ?x = Some _ => assert (EB : bytes = x) by congruence end. subst bytes. clear E.
  assert (F : forall r, firstn 128 (header_bytes ++ r) = header_bytes) by (intro r; reflexivity).
  rewrite F. eexists. split; [reflexivity|]. split; [vm_compute; reflexivity|]. auto.
Qed.
Print Assumptions C16_truncated_after_header_refuted.

(** A file cut inside a node reads an indeterminate value. *)
Theorem C16_truncated_in_node_refuted cast_other to_int :
  exists bytes k, save 20 (mkModule ex_graph [4; 0] [3; 2]) = Some bytes /\ k < length bytes /\
    load_file cast_other to_int (firstn k bytes) = RUndef.
Proof.
  eexists. exists 170. split; [vm_compute; reflexivity|]. split; [vm_compute; lia|]. vm_compute. reflexivity.
Qed.
Print Assumptions C16_truncated_in_node_refuted.

(** A reference to a node that is not in the file reads outside the table:
    the output index 3 of a saved file is replaced by 200. *)
Theorem C16_bad_index_refuted cast_other to_int :
  exists bytes bytes', save 20 (mkModule ex_graph [4; 0] [3; 2]) = Some bytes /\
    length bytes' = length bytes /\ firstn 144 bytes' = firstn 144 bytes /\ skipn 145 bytes' = skipn 145 bytes /\
    load_file cast_other to_int bytes' = RUndef.
Proof.
  eexists. eexists (_ ++ 200%Z :: _). split; [vm_compute; reflexivity|].
  match goal with |- context [firstn 144 ?b] =>
    let x := eval vm_compute in (firstn 144 b) in let y := eval vm_compute in (skipn 145 b) in
    instantiate (1 := y); instantiate (1 := x) end.
  split; [vm_compute; reflexivity|]. split; [vm_compute; reflexivity|]. split; vm_compute; reflexivity.
Qed.
Print Assumptions C16_bad_index_refuted.

(** ** C29 *)

(** sort_inputs(nodes) succeeds exactly when every input of the module is
    among the given nodes, and then only the inputs change. *)
Theorem C29_sort_inputs_nodes m l m' :
  sort_nodes m l = Some m' <->
  (forall p, In p (m_inputs m) -> In p l) /\ m' = mkModule (m_graph m) l (m_outputs m).
Proof. apply sort_nodes_iff. Qed.
Print Assumptions C29_sort_inputs_nodes.

(** sort_inputs(names) succeeds exactly when the inputs have different names,
    every given name is the name of an input, and every input is named; then
    the inputs are the named nodes in the given order. *)
Theorem C29_sort_inputs_names m names m' :
  sort_names m names = Some m' <->
  NoDup (map (name_of m) (m_inputs m)) /\
  exists l, Forall2 (fun k n => In n (m_inputs m) /\ name_of m n = k) names l /\
            (forall p, In p (m_inputs m) -> In p l) /\
            m' = mkModule (m_graph m) l (m_outputs m).
Proof. apply sort_names_iff. Qed.
Print Assumptions C29_sort_inputs_names.

(** The result need not be a permutation of the parameters: a name or node
    may be given twice, and foreign nodes are accepted. *)
Theorem C29_permutation_refuted :
  exists m m1 m2, module_load ex_graph [3] = Some m /\ m_inputs m = [0] /\
    sort_names m [lit "x"; lit "x"] = Some m1 /\ m_inputs m1 = [0; 0] /\
    sort_nodes m [0; 2] = Some m2 /\ m_inputs m2 = [0; 2].
Proof.
  do 3 eexists. split; [vm_compute; reflexivity|]. split; [reflexivity|].
  split; [vm_compute; reflexivity|]. split; [reflexivity|]. split; [vm_compute; reflexivity|]. reflexivity.
Qed.
Print Assumptions C29_permutation_refuted.

Example C29_example :
  exists m, module_load (mkMG [0; 4; 3] (mg_bub ex_graph) (fun n => match n with 3 => [0; 4] | _ => [] end)) [3] = Some m /\
    sort_names m [lit "z"; lit "x"] <> None /\ sort_names m [lit "z"] = None /\ sort_names m [lit "z"; lit "q"; lit "x"] = None.
Proof.
  eexists. split; [vm_compute; reflexivity|]. split; [vm_compute; discriminate|]. split; vm_compute; reflexivity.
Qed.

(** ** C58 *)

(** Loading a graph by output names succeeds exactly when every name belongs
    to exactly one node and loading those nodes in that order does. *)
Theorem C58_load_by_names g names m : NoDup (mg_nodes g) ->
  (module_load_names g names = Some m <->
   exists outs, Forall2 (only_named g) names outs /\ module_load g outs = Some m).
Proof. apply load_names_iff. Qed.
Print Assumptions C58_load_by_names.

Example C58_example :
  NoDup (mg_nodes ex_graph) /\
  (exists m, module_load_names ex_graph [lit "m"; lit "y"; lit "m"] = Some m /\ m_outputs m = [2; 3; 2]) /\
  module_load_names ex_graph [lit "m"; lit "w"] = None.
Proof.
  split. { repeat constructor; simpl; lia. }
  split; [eexists; split; vm_compute; reflexivity | vm_compute; reflexivity].
Qed.

(** ** C59 *)

(** Module::load finds exactly the parameters that evaluating the outputs
    visits, each once, and fails exactly when the outputs need a node that is
    not in the graph or an operator without inputs; it terminates on every
    graph, also a cyclic one. *)
Theorem C59_load_finds_parameters g outputs :
  (forall m, module_load g outputs = Some m ->
     m_graph m = g /\ m_outputs m = outputs /\ NoDup (m_inputs m) /\
     forall p, In p (m_inputs m) <-> needed g outputs p /\ is_param g p) /\
  ((exists m, module_load g outputs = Some m) <-> forall n, needed g outputs n -> ~ unusable g n) /\
  graph_walker g outputs <> WFuel.
Proof.
  destruct (module_load_iff g outputs) as [A B]. split; [exact A|]. split; [exact B|].
  apply graph_walker_total.
Qed.
Print Assumptions C59_load_finds_parameters.

Example C59_example :
  (exists m, module_load ex_graph [3] = Some m /\ m_inputs m = [0]) /\
  module_load (mkMG [0; 2; 3] (mg_bub ex_graph) (mg_ins ex_graph)) [3] = None /\
  (exists m, module_load (mkMG [0; 2; 3] (mg_bub ex_graph) (fun n => match n with 2 => [3; 0] | 3 => [2] | _ => [] end)) [3]
     = Some m /\ m_inputs m = [0]).
Proof.
  split; [eexists; split; vm_compute; reflexivity|]. split; [vm_compute; reflexivity|].
  eexists; split; vm_compute; reflexivity.
Qed.
