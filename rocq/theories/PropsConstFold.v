(** Properties C03, C52, C53 and C01 for the whole pipeline: constant folding
    and running single operators outside a program. *)
From Coq Require Import List ZArith Bool Lia Arith.
From Verif Require Import StackModel GraphSpec GraphModel CompilerModel CompilerSpec
  GraphProofs StackProofs IntimeModel IntimeProofs ConstFoldModel PipelineModel ConstFoldProofs ConstFoldProofs2 PropsCompiler.
Import ListNotations.

(** ** C03 *)
(** Folding keeps every value the outputs denote, for every assignment of the
    parameters, keeps the graph acyclic, uses exactly the same parameters, and
    leaves no operator whose inputs are all constant.  Conversely (when
    operators return exactly one tensor) it adds no value that was not there. *)
Theorem C03_constant_folding_preserves_meaning :
  forall (V Opr : Type) (packV : list V -> V) (fieldV : V -> Z -> option V)
         (oprun : Opr -> list V -> opres V) (supported : Opr -> bool) (bench : stack V),
  (exists lo pre bs, bench = frame_stack lo pre bs) ->
  forall (g : graph V Opr) (fresh : node) (outputs : list node),
  (forall n i, In i (ins g n) -> n < fresh /\ i < fresh) ->
  (forall o, In o outputs -> o < fresh) ->
  acyclic g -> leaves_ok g ->
  forall (fuel : nat) (outs : list node) (g' : graph V Opr),
  const_fold packV oprun supported bench fuel g fresh outputs = FOk (outs, g') ->
  (forall env vs, dens packV fieldV oprun g env outputs vs -> dens packV fieldV oprun g' env outs vs) /\
  ((forall o args fr k, oprun o args = ORet fr k -> k = 1%Z /\ fr <> []) ->
   forall env vs, dens packV fieldV oprun g' env outs vs -> dens packV fieldV oprun g env outputs vs) /\
  acyclic g' /\ leaves_ok g' /\
  (forall p, (kind g p = KParam /\ used g outputs p) <-> (kind g' p = KParam /\ used g' outs p)) /\
  (forall n, used g' outs n -> is_operator g' n -> exists p, kind g' p = KParam /\ depends g' n p).
Proof. exact @const_fold_correct. Qed.
Print Assumptions C03_constant_folding_preserves_meaning.

Theorem C03_constant_folding_terminates :
  forall (V Opr : Type) (packV : list V -> V)
         (oprun : Opr -> list V -> opres V) (supported : Opr -> bool) (bench : stack V),
  (exists lo pre bs, bench = frame_stack lo pre bs) ->
  forall (g : graph V Opr) (fresh : node) (outputs : list node),
  (forall n i, In i (ins g n) -> n < fresh /\ i < fresh) ->
  (forall o, In o outputs -> o < fresh) ->
  acyclic g -> leaves_ok g ->
  exists N, forall fuel, N <= fuel ->
    const_fold packV oprun supported bench fuel g fresh outputs <> FFuel.
Proof. intros V Opr packV. exact (const_fold_terminates packV (fun v _ => Some v)). Qed.
Print Assumptions C03_constant_folding_terminates.

(** ** C01, folding followed by compiling: what Compiler::compile does as a
    whole.  No hypothesis on operators without inputs is needed. *)
Theorem C01_fold_and_compile_correct :
  forall (V Opr : Type) (packV : list V -> V) (fieldV : V -> Z -> option V)
         (oprun : Opr -> list V -> opres V) (supported : Opr -> bool) (bench : stack V),
  (exists lo pre bs, bench = frame_stack lo pre bs) ->
  forall (g : graph V Opr) (fresh : node) (outputs : list node),
  (forall n i, In i (ins g n) -> n < fresh /\ i < fresh) ->
  (forall o, In o outputs -> o < fresh) ->
  acyclic g -> leaves_ok g ->
  forall (output_count : Opr -> Z) (fuel : nat) (inputs : list node) (b : block V Opr),
  NoDup inputs -> (inputs = [] \/ exists p, kind g p = KParam /\ used g outputs p) ->
  fold_compile packV oprun supported bench g fresh outputs output_count fuel inputs = COk b ->
  b_nargs b = length inputs /\ b_nresults b = length outputs /\
  forall args lo bs, length args = length inputs ->
  (forall outs, dens packV fieldV oprun g (bind inputs args) outputs outs ->
     run_list packV fieldV oprun (b_data b) (b_insts b) (frame_stack lo args bs)
     = Done tt (frame_stack lo outs bs)) /\
  ((forall o args fr k, oprun o args = ORet fr k -> k = 1%Z /\ fr <> []) ->
   (forall outs, ~ dens packV fieldV oprun g (bind inputs args) outputs outs) ->
     exists fr, run_list packV fieldV oprun (b_data b) (b_insts b) (frame_stack lo args bs)
     = Throw (frame_stack lo fr bs)).
Proof. exact @fold_compile_correct. Qed.
Print Assumptions C01_fold_and_compile_correct.

Module Example2.
  (** operator 2 has no inputs and yields 9 *)
  Definition oprun (o : nat) (args : list Z) : opres Z :=
    match o, args with
    | 0, [a; b] => ORet (args ++ [a + b]%Z) 1
    | 1, [a; b] => ORet [a * b]%Z 1
    | 2, [] => ORet [9%Z] 1
    | _, _ => OThrow args
    end.
  (** 0: parameter; 1: constant 5; 2 = op2 (); 3 = 1 + 2; 4 = 0 * 3; 5 = pack 4 3 *)
  Definition g : graph Z nat := {|
    kind := fun n => match n with
                     | 0 => KParam | 1 => KConst 5%Z | 2 => KOp 2 | 3 => KOp 0 | 4 => KOp 1 | 5 => KPack
                     | _ => KVariable end;
    ins := fun n => match n with 3 => [1; 2] | 4 => [0; 3] | 5 => [4; 3] | _ => [] end |}.
  Definition bench := frame_stack [1; 2]%Z [3; 4]%Z [0].
  Definition folded := const_fold Example1.packV oprun (fun _ => true) bench 100 g 6 [5; 3].
  Definition compiled :=
    fold_compile Example1.packV oprun (fun _ => true) bench g 6 [5; 3] (fun _ => 1%Z) 100 [0].

  Example fresh_ok : forall n i, In i (ins g n) -> n < 6 /\ i < 6.
  Proof. intros n i. do 6 (destruct n as [|n]; simpl; [intuition lia|]). simpl. tauto. Qed.
  Example is_acyclic : acyclic g.
  Proof.
    exists (fun n => n). intros n m. do 6 (destruct n as [|n]; simpl; [intuition lia|]). simpl. tauto.
  Qed.
  Example leaves : leaves_ok g.
  Proof.
    intros n. unfold is_operator.
    do 6 (destruct n as [|n]; simpl; [try (intros H; exfalso; apply H; exact I); auto|]). auto.
  Qed.
  Example folds : match folded with
                  | FOk (outs, g') =>
                      outs = [9; 7] /\ kind g' 7 = KConst 14%Z /\ kind g' 9 = KPack /\ ins g' 9 = [8; 7] /\
                      kind g' 8 = KOp 1 /\ ins g' 8 = [0; 7]
                  | _ => False end.
  Proof. vm_compute. auto 10. Qed.
  Example runs : match compiled with
                 | COk b => run_list Example1.packV Example1.fieldV oprun (b_data b) (b_insts b)
                              (frame_stack [77%Z] [2]%Z [0]) = Done tt (frame_stack [77%Z] [42; 14]%Z [0])
                 | _ => False end.
  Proof. vm_compute. auto. Qed.
End Example2.

(** A limit of folding: packing tensors that are all constant is an error,
    because `_pack` cannot be run outside a program, although the graph has a
    value for every input and its unfolded form compiles. *)
Theorem C03_constant_pack_refuted :
  exists (g : graph Z nat) (fresh : node) (outputs inputs : list node),
    (forall n i, In i (ins g n) -> n < fresh /\ i < fresh) /\
    acyclic g /\ leaves_ok g /\
    (forall env, exists vs, dens Example1.packV Example1.fieldV Example1.oprun g env outputs vs) /\
    (exists b, compile (fun _ => true) (fun _ => 1%Z) 100 g inputs outputs = COk b) /\
    forall fuel, 2 <= fuel ->
      const_fold Example1.packV Example1.oprun (fun _ => true) (frame_stack [] [] []) fuel g fresh outputs = FErr.
Proof.
  exists {| kind := fun n => match n with 0 => KConst 5%Z | 1 => KPack | _ => KVariable end;
            ins := fun n => match n with 1 => [0; 0] | _ => [] end |}, 2, [1], [].
  split; [intros n i; do 2 (destruct n as [|n]; simpl; [intuition lia|]); simpl; tauto|].
  split; [exists (fun n => n); intros n m; do 2 (destruct n as [|n]; simpl; [intuition lia|]); simpl; tauto|].
  split; [intros n; unfold is_operator;
          do 2 (destruct n as [|n]; simpl; [try (intros H; exfalso; apply H; exact I); auto|]); auto|].
  split.
  { intros env. eexists. constructor; [|constructor].
    eapply den_op; [exact I| |reflexivity]. simpl.
    repeat (constructor; [now apply den_const|]). constructor. }
  split; [eexists; vm_compute; reflexivity|].
  intros fuel Hf. destruct fuel as [|[|fuel]]; [lia|lia|]. reflexivity.
Qed.
Print Assumptions C03_constant_pack_refuted.

(** ** C52: refuted.  Asking twice for an output that has a constant
    ancestor: folding makes two copies of it, so the operator is evaluated
    twice per run, although without folding it is evaluated once. *)
Theorem C52_folding_keeps_sharing_refuted :
  exists (g : graph Z nat) (inputs outputs : list node) (b b' : block Z nat),
    (forall n i, In i (ins g n) -> n < 4 /\ i < 4) /\ acyclic g /\ leaves_ok g /\
    compile (fun _ => true) (fun _ => 1%Z) 100 g inputs outputs = COk b /\
    fold_compile Example1.packV Example1.oprun (fun _ => true) (frame_stack [] [] []) g 4 outputs
      (fun _ => 1%Z) 100 inputs = COk b' /\
    filter computes (b_insts b) = [IOp 1 2 1; IOp 0 2 1] /\
    filter computes (b_insts b') = [IOp 0 2 1; IOp 0 2 1].
Proof.
  (* 3 = 0 + (1 * 1) with 1 constant, asked for twice *)
  exists {| kind := fun n => match n with 0 => KParam | 1 => KConst 5%Z | 2 => KOp 1 | 3 => KOp 0 | _ => KVariable end;
            ins := fun n => match n with 2 => [1; 1] | 3 => [0; 2] | _ => [] end |}, [0], [3; 3].
  eexists; eexists.
  split; [intros n i; do 4 (destruct n as [|n]; simpl; [intuition lia|]); simpl; tauto|].
  split; [exists (fun n => n); intros n m; do 4 (destruct n as [|n]; simpl; [intuition lia|]); simpl; tauto|].
  split; [intros n; unfold is_operator;
          do 4 (destruct n as [|n]; simpl; [try (intros H; exfalso; apply H; exact I); auto|]); auto|].
  split; [vm_compute; reflexivity|].
  split; [vm_compute; reflexivity|].
  split; vm_compute; reflexivity.
Qed.
Print Assumptions C52_folding_keeps_sharing_refuted.

(** ** C53: running one operator by itself *)
(** Workbench::offline_run gives the operator exactly the given tensors and
    returns its results; the stack is what it was, also after an error. *)
Theorem C53_offline_run_isolated :
  forall (V : Type) (f : list V -> opres V) (input fr : list V) (k : nat) (lo pre : list V) (bs : list nat),
  f input = ORet fr (Z.of_nat k) -> 1 <= k <= length fr ->
  offline_run f input (frame_stack lo pre bs) = Done (last_values k fr) (frame_stack lo pre bs).
Proof. exact @offline_run_fs. Qed.
Print Assumptions C53_offline_run_isolated.

Theorem C53_offline_run_error_restores_stack :
  forall (V : Type) (f : list V -> opres V) (input fr lo pre : list V) (bs : list nat),
  f input = OThrow fr ->
  offline_run f input (frame_stack lo pre bs) = Throw (frame_stack lo pre bs).
Proof. exact @offline_run_throw. Qed.
Print Assumptions C53_offline_run_error_restores_stack.

Theorem C53_intime_run_isolated :
  forall (V : Type) (packV : list V -> V) (f : list V -> opres V) (input fr : list V) (v : V)
         (lo pre : list V) (bs : list nat),
  f input = ORet (fr ++ [v]) 1 ->
  intime_run packV f input (frame_stack lo pre bs) = Done v (frame_stack lo pre bs).
Proof. exact @intime_run_one. Qed.
Print Assumptions C53_intime_run_isolated.

(** Workbench::online_run does not: values already in the current frame
    become leading arguments of the operator. *)
Theorem C53_online_run_isolated_refuted :
  exists (f : list Z -> opres Z) (input fr : list Z),
    (forall a b, f [a; b] = ORet [a + b]%Z 1) /\
    length input = 2 /\
    online_run f input (frame_stack [] fr []) = Throw (frame_stack [] (fr ++ input) []) /\
    online_run f input (frame_stack [] [] []) = Done 1%Z (frame_stack [] [3%Z] []).
Proof.
  exists (fun args => match args with [a; b] => ORet [a + b]%Z 1 | l => OThrow l end), [1; 2]%Z, [9%Z].
  split; [reflexivity|]. split; [reflexivity|]. split; vm_compute; reflexivity.
Qed.
Print Assumptions C53_online_run_isolated_refuted.
