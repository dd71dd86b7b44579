(** Properties C01, C02, C04, C05, C06, C30, C51: the compiler, the operator
    instruction and the node schedule. *)
From Coq Require Import List ZArith Bool Lia Arith.
From Verif Require Import StackModel GraphSpec GraphModel CompilerModel CompilerSpec
  GraphProofs StackProofs CompilerProofs CompilerProofs2 CompilerProofs3.
Import ListNotations.

(** ** C01 *)
(** A compiled program, run on a frame holding the arguments in input order,
    above any caller stack, either ends with exactly the output values in the
    frame and the caller's part untouched, or stops with an error, again
    leaving the caller's part untouched; the latter happens only if some
    output has no value (an operator failed). *)
Theorem C01_compile_correct :
  forall (V Opr : Type) (supported : Opr -> bool) (output_count : Opr -> Z)
         (g : graph V Opr) (inputs outputs : list node)
         (packV : list V -> V) (fieldV : V -> Z -> option V) (oprun : Opr -> list V -> opres V)
         (fuel : nat) (b : block V Opr),
  acyclic g -> leaves_ok g -> ops_have_inputs g outputs -> NoDup inputs ->
  (inputs = [] \/ exists p, kind g p = KParam /\ used g outputs p) ->
  compile supported output_count fuel g inputs outputs = COk b ->
  b_nargs b = length inputs /\ b_nresults b = length outputs /\
  forall args lo bs, length args = length inputs ->
  (exists outs, dens packV fieldV oprun g (bind inputs args) outputs outs /\
     run_list packV fieldV oprun (b_data b) (b_insts b) (frame_stack lo args bs)
     = Done tt (frame_stack lo outs bs)) \/
  (exists fr, run_list packV fieldV oprun (b_data b) (b_insts b) (frame_stack lo args bs)
     = Throw (frame_stack lo fr bs) /\
     forall outs, ~ dens packV fieldV oprun g (bind inputs args) outputs outs).
Proof. exact @compile_correct. Qed.
Print Assumptions C01_compile_correct.

(** ** C51 *)
(** The computing instructions of the compiled program are, one for one, the
    used operator nodes, each exactly once and after its operands. *)
Theorem C51_each_operator_once :
  forall (V Opr : Type) (supported : Opr -> bool) (output_count : Opr -> Z)
         (g : graph V Opr) (inputs outputs : list node) (fuel : nat) (b : block V Opr),
  acyclic g -> leaves_ok g ->
  compile supported output_count fuel g inputs outputs = COk b ->
  exists order,
    NoDup order /\
    (forall n, In n order <-> used g outputs n /\ is_operator g n) /\
    Forall2 (evaluates g) order (filter computes (b_insts b)) /\
    dependency_order g order.
Proof. exact @compile_once. Qed.
Print Assumptions C51_each_operator_once.

(** ** C02 *)
Theorem C02_compile_terminates :
  forall (V Opr : Type) (supported : Opr -> bool) (output_count : Opr -> Z)
         (g : graph V Opr) (inputs outputs : list node),
  acyclic g -> leaves_ok g ->
  exists N, forall fuel, N <= fuel -> compile supported output_count fuel g inputs outputs <> CFuel.
Proof. exact @compile_terminates. Qed.
Print Assumptions C02_compile_terminates.

(** It succeeds on exactly the acceptable graphs. *)
Theorem C02_compile_succeeds_iff_acceptable :
  forall (V Opr : Type) (supported : Opr -> bool) (output_count : Opr -> Z)
         (g : graph V Opr) (inputs outputs : list node),
  acyclic g -> leaves_ok g ->
  exists N, forall fuel, N <= fuel ->
    (acceptable supported output_count g inputs outputs <->
     exists b, compile supported output_count fuel g inputs outputs = COk b).
Proof. exact @compile_complete. Qed.
Print Assumptions C02_compile_succeeds_iff_acceptable.

(** ** C04 *)
Theorem C04_operator_instruction :
  forall (V : Type) (f : list V -> opres V) (lo pre args : list V) (bs : list nat) (m : nat),
  1 <= length args -> 1 <= m ->
  op_instruction f (Z.of_nat (length args)) (Z.of_nat m) (frame_stack lo (pre ++ args) bs) =
  match f args with
  | ORet fr k =>
      if ((k =? Z.of_nat m)%Z && (m <=? length fr))%bool
      then Done tt (frame_stack lo (pre ++ last_values m fr) bs)
      else Throw (frame_stack lo (pre ++ fr) bs)
  | OThrow fr => Throw (frame_stack lo (pre ++ fr) bs)
  end.
Proof. exact @op_instruction_fs. Qed.
Print Assumptions C04_operator_instruction.

(** Too few values in the frame: an error and nothing is touched. *)
Theorem C04_operator_instruction_too_few :
  forall (V : Type) (f : list V -> opres V) (lo fr : list V) (bs : list nat) (n : nat) (m : Z),
  length fr < n ->
  op_instruction f (Z.of_nat n) m (frame_stack lo fr bs) = Throw (frame_stack lo fr bs).
Proof. exact @op_instruction_too_few. Qed.
Print Assumptions C04_operator_instruction_too_few.

(** ** C05: refuted.  An operator with no inputs is run with a frame that
    still contains the caller's values, and these are erased afterwards. *)
Theorem C05_nullary_operator_refuted :
  exists (f : list Z -> opres Z) (fr : list Z),
    (forall args, f args = ORet (args ++ [7%Z]) 1%Z) /\
    op_instruction f 0 1 (frame_stack [] fr []) <> Done tt (frame_stack [] (fr ++ [7%Z]) []) /\
    op_instruction f 0 1 (frame_stack [] fr []) = Done tt (frame_stack [] [7%Z] []).
Proof.
  exists (fun args => ORet (args ++ [7%Z]) 1%Z), [1; 2]%Z.
  split; [reflexivity|]. split; [vm_compute; discriminate|vm_compute; reflexivity].
Qed.
Print Assumptions C05_nullary_operator_refuted.

(** What does hold: in an empty frame it works as expected. *)
Theorem C05_nullary_operator_partial :
  forall (V : Type) (f : list V -> opres V) (lo : list V) (bs : list nat) (m : nat),
  1 <= m ->
  op_instruction f 0 (Z.of_nat m) (frame_stack lo [] bs) =
  match f [] with
  | ORet fr k =>
      if ((k =? Z.of_nat m)%Z && (m <=? length fr))%bool
      then Done tt (frame_stack lo (last_values m fr) bs)
      else Throw (frame_stack lo fr bs)
  | OThrow fr => Throw (frame_stack lo fr bs)
  end.
Proof. exact @op_instruction_nullary. Qed.
Print Assumptions C05_nullary_operator_partial.

(** ** C30 *)
Theorem C30_reference_nodes_topological :
  forall (V Opr : Type) (g : graph V Opr) (fuel : nat) (roots : list node) (sched : list (node * nat)),
  list_reference_nodes fuel g roots = Some sched ->
  (forall n, In n (map fst sched) <-> used g roots n) /\
  NoDup (map fst sched) /\
  (forall pre n post, map fst sched = pre ++ n :: post -> forall i, In i (ins g n) -> In i pre).
Proof. intros. destruct (list_reference_nodes_ok g fuel roots sched H). auto. Qed.
Print Assumptions C30_reference_nodes_topological.

Theorem C30_reference_nodes_terminates :
  forall (V Opr : Type) (g : graph V Opr) (roots : list node),
  acyclic g ->
  exists N, forall fuel, N <= fuel -> exists sched, list_reference_nodes fuel g roots = Some sched.
Proof.
  intros V Opr g roots [rank HR]. exists (Ws g rank roots). intros fuel Hf.
  exact (list_reference_nodes_terminates g rank roots fuel HR Hf).
Qed.
Print Assumptions C30_reference_nodes_terminates.

(** The reference sets used to schedule are exactly the dependencies. *)
Theorem C30_node_refs_exact :
  forall (V Opr : Type) (g : graph V Opr) (fuel : nat) (roots : list node) (sched : list (node * nat)),
  list_reference_nodes fuel g roots = Some sched ->
  forall n, used g roots n ->
  forall m, In m (refs_of (build_refs g sched []) n) <-> depends g n m.
Proof.
  intros. exact (build_node_refs_exact g roots sched (list_reference_nodes_ok g fuel roots sched H) n H0 m).
Qed.
Print Assumptions C30_node_refs_exact.

(** ** A concrete graph meeting all the hypotheses *)
Module Example1.
  (** operators: 0 adds, 1 multiplies two integers *)
  Definition oprun (o : nat) (args : list Z) : opres Z :=
    match o, args with
    | 0, [a; b] => ORet (args ++ [a + b]%Z) 1
    | 1, [a; b] => ORet [a * b]%Z 1
    | _, _ => OThrow args
    end.
  Definition packV (l : list Z) : Z := fold_right Z.add 0%Z l.
  Definition fieldV (v i : Z) : option Z := Some v.
  (** node 0, 1: parameters; 2: constant 5; 3 = 0 + 2; 4 = 3 * 1; 5 = pack 4 3 4 *)
  Definition g : graph Z nat := {|
    kind := fun n => match n with
                     | 0 | 1 => KParam | 2 => KConst 5%Z | 3 => KOp 0 | 4 => KOp 1 | 5 => KPack
                     | _ => KVariable end;
    ins := fun n => match n with 3 => [0; 2] | 4 => [3; 1] | 5 => [4; 3; 4] | _ => [] end |}.
  Definition supported (o : nat) := true.
  Definition output_count (o : nat) := 1%Z.
  Definition inputs := [1; 0].
  Definition outputs := [3; 5; 4].
  Definition b := match compile supported output_count 100 g inputs outputs with
                  | COk b => b | _ => mkBlock 0 0 [] [] end.

  Example compiles : compile supported output_count 100 g inputs outputs = COk b.
  Proof. vm_compute. reflexivity. Qed.
  Example is_acyclic : acyclic g.
  Proof.
    exists (fun n => n). intros n m. do 6 (destruct n as [|n]; simpl; [intuition lia|]). simpl. tauto.
  Qed.
  Example leaves : leaves_ok g.
  Proof.
    intros n. unfold is_operator.
    do 6 (destruct n as [|n]; simpl; [try (intros H; exfalso; apply H; exact I); auto|]). auto.
  Qed.
  Example op_inputs : ops_have_inputs g outputs.
  Proof.
    intros n o _. do 6 (destruct n as [|n]; simpl; [try discriminate|]); discriminate.
  Qed.
  Example nodup : NoDup inputs.
  Proof. repeat constructor; simpl; intuition discriminate. Qed.
  Example param_used : exists p, kind g p = KParam /\ used g outputs p.
  Proof. exists 0. split; [reflexivity|]. exists 3. split; [now left|].
    apply reach_step with (m := 0); [now left|constructor]. Qed.
  (** with node 1 := 2 and node 0 := 10 (input order is 1, 0): 15, 75, 30 *)
  Example runs : run_list packV fieldV oprun (b_data b) (b_insts b) (frame_stack [77%Z] [2; 10]%Z [0])
                 = Done tt (frame_stack [77%Z] [15; 75; 30]%Z [0]).
  Proof. vm_compute. reflexivity. Qed.
  Example computing_instructions : filter computes (b_insts b) = [IOp 0 2 1; IOp 1 2 1; IPack 3].
  Proof. vm_compute. reflexivity. Qed.
  Example is_acceptable : acceptable supported output_count g inputs outputs.
  Proof.
    intros n (o & Ho & Hr).
    assert (Hle : n <= o).
    { clear Ho. induction Hr; auto.
      assert (m < a).
      { revert H. do 6 (destruct a as [|a]; simpl; [intuition lia|]). simpl. tauto. }
      lia. }
    assert (Hn : n <= 5) by (simpl in Ho; intuition lia).
    do 6 (destruct n as [|n]; [simpl; auto|]). lia.
  Qed.
End Example1.

(** ** C06: refuted.  Inputs exist, but no output uses them: the input values
    stay in the frame below the outputs. *)
Theorem C06_all_constant_outputs_refuted :
  exists (g : graph Z nat) (inputs outputs : list node) (b : block Z nat) (args outs : list Z),
    acyclic g /\ leaves_ok g /\ NoDup inputs /\ ops_have_inputs g outputs /\
    compile (fun _ => true) (fun _ => 1%Z) 100 g inputs outputs = COk b /\
    length args = length inputs /\
    dens Example1.packV Example1.fieldV Example1.oprun g (bind inputs args) outputs outs /\
    run_list Example1.packV Example1.fieldV Example1.oprun (b_data b) (b_insts b)
      (frame_stack [] args []) = Done tt (frame_stack [] (args ++ outs) []) /\
    args ++ outs <> outs.
Proof.
  exists {| kind := fun n => match n with 0 => KParam | 1 => KConst 5%Z | _ => KVariable end;
            ins := fun n => [] |}, [0], [1].
  eexists. exists [3%Z], [5%Z].
  split; [exists (fun n => n); simpl; tauto|].
  split; [intros n _; reflexivity|].
  split; [repeat constructor; simpl; tauto|].
  split; [intros n o _; do 2 (destruct n as [|n]; simpl; [discriminate|]); discriminate|].
  split; [vm_compute; reflexivity|].
  split; [reflexivity|].
  split; [constructor; [now apply den_const|constructor]|].
  split; [vm_compute; reflexivity|discriminate].
Qed.
Print Assumptions C06_all_constant_outputs_refuted.

(** What does hold: without inputs, constant outputs are returned. *)
Theorem C06_all_constant_outputs_partial :
  forall (V Opr : Type) (supported : Opr -> bool) (output_count : Opr -> Z)
         (g : graph V Opr) (outputs : list node)
         (packV : list V -> V) (fieldV : V -> Z -> option V) (oprun : Opr -> list V -> opres V)
         (fuel : nat) (b : block V Opr) (outs : list V),
  acyclic g -> leaves_ok g -> ops_have_inputs g outputs ->
  compile supported output_count fuel g [] outputs = COk b ->
  Forall2 (fun n v => kind g n = KConst v) outputs outs ->
  run_list packV fieldV oprun (b_data b) (b_insts b) (frame_stack [] [] []) = Done tt (frame_stack [] outs []).
Proof. exact @compile_const_outputs. Qed.
Print Assumptions C06_all_constant_outputs_partial.
