(** Properties C07, C54, C55: launching programs on a workbench. *)
From Coq Require Import List ZArith Bool Lia Arith.
From Verif Require Import StackModel GraphSpec GraphModel CompilerModel CompilerSpec
  IntimeModel WorkbenchModel WorkbenchSpec StackProofs WorkbenchProofs WorkbenchProofs2 PropsCompiler.
Import ListNotations.

(** ** C07 *)
(** Launching returns exactly what filtering, casting and running the
    instructions yields, or an error if one of these fails; either way the
    stack is what it was. *)
Theorem C07_launch_offline :
  forall (V Opr : Type) (packV : list V -> V) (fieldV : V -> Z -> option V)
         (oprun : Opr -> list V -> opres V) (adjust : V -> option V)
         (p : program V Opr) (args lo pre : list V) (bs : list nat),
  well_formed packV fieldV oprun p ->
  (exists outs, launches packV fieldV oprun adjust p args outs /\
     launch_offline packV fieldV oprun adjust p args (frame_stack lo pre bs) = Done outs (frame_stack lo pre bs)) \/
  ((forall outs, ~ launches packV fieldV oprun adjust p args outs) /\
     launch_offline packV fieldV oprun adjust p args (frame_stack lo pre bs) = Throw (frame_stack lo pre bs)).
Proof. exact @launch_offline_fs. Qed.
Print Assumptions C07_launch_offline.

(** launch_online replaces the top arguments by the outputs and keeps what is
    below them, provided there is at least one argument (or nothing below). *)
Theorem C07_launch_online :
  forall (V Opr : Type) (packV : list V -> V) (fieldV : V -> Z -> option V)
         (oprun : Opr -> list V -> opres V) (adjust : V -> option V) (p : program V Opr),
  well_formed packV fieldV oprun p ->
  forall (lo pre args : list V) (bs : list nat),
  1 <= length args \/ pre = [] ->
  (exists outs, launches packV fieldV oprun adjust p args outs /\
     (forall outs', launches packV fieldV oprun adjust p args outs' -> outs' = outs) /\
     launch_online packV fieldV oprun adjust p (length args) (frame_stack lo (pre ++ args) bs)
     = Done (Z.of_nat (length outs)) (frame_stack lo (pre ++ outs) bs)) \/
  ((forall outs, ~ launches packV fieldV oprun adjust p args outs) /\
   exists fr, launch_online packV fieldV oprun adjust p (length args) (frame_stack lo (pre ++ args) bs)
     = Throw (frame_stack lo (pre ++ fr) bs)).
Proof. exact @launch_online_fs. Qed.
Print Assumptions C07_launch_online.

(** A compiled graph, launched: the outputs are the values the graph denotes. *)
Theorem C07_compiled_program_launch :
  forall (V Opr : Type) (packV : list V -> V) (fieldV : V -> Z -> option V)
         (oprun : Opr -> list V -> opres V) (adjust : V -> option V)
         (supported : Opr -> bool) (output_count : Opr -> Z)
         (g : graph V Opr) (inputs outputs : list node) (fuel : nat) (b : block V Opr)
         (args lo pre : list V) (bs : list nat),
  acyclic g -> leaves_ok g -> ops_have_inputs g outputs -> NoDup inputs ->
  (inputs = [] \/ exists p, kind g p = KParam /\ used g outputs p) ->
  compile supported output_count fuel g inputs outputs = COk b ->
  length args = length inputs ->
  let p := Program (b_insts b) (b_data b) (b_nargs b) (b_nresults b) (repeat (None, None) (length inputs)) in
  let r := launch_offline packV fieldV oprun adjust p args (frame_stack lo pre bs) in
  (forall outs, dens packV fieldV oprun g (bind inputs args) outputs outs -> r = Done outs (frame_stack lo pre bs)) /\
  ((forall outs, ~ dens packV fieldV oprun g (bind inputs args) outputs outs) -> r = Throw (frame_stack lo pre bs)).
Proof.
  intros V Opr packV fieldV oprun adjust supported output_count g inputs outputs fuel b args lo pre bs
    H1 H2 H3 H4 H5 H6 Hl p r.
  assert (Hwf : well_formed packV fieldV oprun p).
  { eapply (compiled_well_formed packV fieldV oprun supported output_count g inputs outputs fuel b); eauto.
    - apply repeat_length.
    - intros flt c Hin. apply repeat_spec in Hin. discriminate.
    - intros q c Hin. apply repeat_spec in Hin. discriminate. }
  pose proof (fun outs => compiled_launches packV fieldV oprun adjust supported output_count g inputs outputs fuel b
    (repeat (None, None) (length inputs)) H1 H2 H3 H4 H5 H6 args outs eq_refl Hl) as HL.
  destruct (C07_launch_offline V Opr packV fieldV oprun adjust p args lo pre bs Hwf) as [(outs & L & E)|(Hno & E)].
  - split.
    + intros outs' D. apply HL in D. unfold r.
      destruct (C07_launch_online V Opr packV fieldV oprun adjust p Hwf [] [] args [] (or_intror eq_refl))
        as [(o & _ & U & _)|(Hno & _)]; [|destruct (Hno _ L)].
      rewrite (U _ D), <- (U _ L). exact E.
    + intros Hno. destruct (Hno outs). now apply HL.
  - split; [|auto]. intros outs D. destruct (Hno outs). now apply HL.
Qed.
Print Assumptions C07_compiled_program_launch.

(** launch_online of a program without inputs on a non-empty frame: the
    caller's values are counted as outputs, so a correct program is rejected. *)
Theorem C07_launch_online_no_inputs_refuted :
  exists (p : program Z nat) (fr outs : list Z),
    launches Example1.packV Example1.fieldV Example1.oprun (@Some Z) p [] outs /\
    well_formed Example1.packV Example1.fieldV Example1.oprun p /\
    launch_online Example1.packV Example1.fieldV Example1.oprun (@Some Z) p 0 (frame_stack [] fr [])
    = Throw (frame_stack [] (fr ++ outs) []).
Proof.
  exists (Program [IData 0] [5%Z] 0 1 []), [1%Z], [5%Z].
  assert (B : body Example1.packV Example1.fieldV Example1.oprun (Program [IData 0] [5%Z] 0 1 []) [] [5%Z]).
  { intros lo bs. unfold frame_stack. simpl. unfold push, with_cells. simpl. now rewrite app_nil_r. }
  split; [|split].
  - apply launches_intro with (ready := []); simpl; auto. constructor.
  - constructor; simpl; try tauto. intros args Ha. destruct args; [|discriminate]. left. exists [5%Z]. exact B.
  - vm_compute. reflexivity.
Qed.
Print Assumptions C07_launch_online_no_inputs_refuted.

(** ** C54 *)
(** For every history of calls that sets up only well-formed programs: the
    stack is as at the start, and [run] depends on the current program and the
    current inputs only; it either stores the program's outputs or reports an
    error and changes nothing. *)
Theorem C54_run_after_any_history :
  forall (V Opr : Type) (packV : list V -> V) (fieldV : V -> Z -> option V)
         (oprun : Opr -> list V -> opres V) (adjust : V -> option V) (empty : V)
         (s : stack V) (b : bench V Opr) (history : list (call V Opr)),
  (exists lo pre bs, s = frame_stack lo pre bs) ->
  b_stack b = s -> (forall p, b_desktop b = Some p -> well_formed packV fieldV oprun p) ->
  Forall (fun c => match c with CSetup (Some p) => well_formed packV fieldV oprun p | _ => True end) history ->
  let b' := steps packV fieldV oprun adjust empty b history in
  b_stack b' = s /\
  match b_desktop b' with
  | None => step packV fieldV oprun adjust empty b' CRun = (b', RErr)
  | Some p =>
      (exists outs, launches packV fieldV oprun adjust p (b_inputs b') outs /\
         step packV fieldV oprun adjust empty b' CRun = (mkBench s (Some p) (b_inputs b') outs, ROk)) \/
      ((forall outs, ~ launches packV fieldV oprun adjust p (b_inputs b') outs) /\
         step packV fieldV oprun adjust empty b' CRun = (b', RErr))
  end.
Proof.
  intros. split.
  - apply (steps_ok packV fieldV oprun adjust empty s history b); auto. split; auto.
  - apply (run_reply packV fieldV oprun adjust empty s b history); auto. split; auto.
Qed.
Print Assumptions C54_run_after_any_history.

(** Setting one input changes that input only. *)
Theorem C54_input_sets_one_slot :
  forall (V Opr : Type) (packV : list V -> V) (fieldV : V -> Z -> option V)
         (oprun : Opr -> list V -> opres V) (adjust : V -> option V) (empty : V)
         (b : bench V Opr) (slot : nat) (v : V),
  slot < length (b_inputs b) ->
  let b' := fst (step packV fieldV oprun adjust empty b (CInput (Z.of_nat slot) v)) in
  b_stack b' = b_stack b /\ b_desktop b' = b_desktop b /\ b_outputs b' = b_outputs b /\
  forall i, nth_error (b_inputs b') i = if Nat.eqb i slot then Some v else nth_error (b_inputs b) i.
Proof.
  intros V Opr packV fieldV oprun adjust empty b slot v Hs b'. unfold b', step.
  destruct (Z.ltb_spec (Z.of_nat slot) 0); [lia|].
  destruct (Z.leb_spec (Z.of_nat (length (b_inputs b))) (Z.of_nat slot)); [lia|].
  simpl. split; [auto|]. split; [auto|]. split; [auto|]. rewrite Nat2Z.id.
  clear -Hs. revert slot Hs. induction (b_inputs b) as [|a l IH]; intros slot Hs i; [simpl in Hs; lia|].
  destruct slot; destruct i; simpl; auto. apply IH. simpl in Hs. lia.
Qed.
Print Assumptions C54_input_sets_one_slot.

(** ** C55: refuted.  Setting up another program keeps inputs and outputs of
    the previous one: an output can be read before anything was run. *)
Theorem C55_setup_discards_old_values_refuted :
  exists (p q : program Z nat) (v : Z),
    let st := step Example1.packV Example1.fieldV Example1.oprun (@Some Z) 0%Z in
    let ss := steps Example1.packV Example1.fieldV Example1.oprun (@Some Z) 0%Z in
    let b := ss (mkBench (frame_stack [] [] []) None [] [])
                [CSetup (Some p); CInput 0 v; CRun; CSetup (Some q)] in
    v <> 0%Z /\ snd (st b (COutput 0)) = RVal v /\ b_inputs b = [v].
Proof.
  exists (Program [IErase 0 0] [] 1 1 [(None, None)]), (Program [IData 0; IErase 0 (-1)] [9%Z] 1 1 [(None, None)]), 4%Z.
  vm_compute. auto. split; [discriminate|auto].
Qed.
Print Assumptions C55_setup_discards_old_values_refuted.

(** ** An example with a filter and a cast *)
Module ExampleBench.
  Definition filter_prog : program Z nat := Program [IData 0; IOp 0 2 1] [100%Z] 1 1 [(None, None)].
  Definition cast (l : list Z) : opres Z := match l with [v] => ORet [v; 2 * v]%Z 1 | l => OThrow l end.
  Definition p : program Z nat :=
    Program [IOp 1 2 1] [] 2 1 [(Some filter_prog, Some cast); (None, None)].
  Definition adjust (v : Z) : option Z := if (v <? 0)%Z then None else Some v.
  Example launch_ok :
    launch_offline Example1.packV Example1.fieldV Example1.oprun adjust p [1; 3]%Z (frame_stack [8%Z] [9%Z] [0])
    = Done [606%Z] (frame_stack [8%Z] [9%Z] [0]).
  Proof. vm_compute. reflexivity. Qed.
  Example launch_error :
    launch_offline Example1.packV Example1.fieldV Example1.oprun adjust p [-1; 3]%Z (frame_stack [8%Z] [9%Z] [0])
    = Throw (frame_stack [8%Z] [9%Z] [0]).
  Proof. vm_compute. reflexivity. Qed.
  Lemma op2_body lo (a b : Z) bs : run_list Example1.packV Example1.fieldV Example1.oprun [] [IOp 1 2 1] (frame_stack lo [a; b] bs)
     = Done tt (frame_stack lo [a * b]%Z bs).
  Proof.
    cbn [run_list exec].
    pose proof (C04_operator_instruction Z (Example1.oprun 1) lo [] [a; b] bs 1 ltac:(simpl; lia) ltac:(lia)) as H.
    simpl app in H. change (Z.of_nat (length [a; b])) with 2%Z in H. change (Z.of_nat 1) with 1%Z in H.
    rewrite H. reflexivity.
  Qed.
  Lemma flt_body lo (a : Z) bs : run_list Example1.packV Example1.fieldV Example1.oprun [100%Z] [IData 0; IOp 0 2 1] (frame_stack lo [a] bs)
     = Done tt (frame_stack lo [a + 100]%Z bs).
  Proof.
    cbn [run_list exec nth_error].
    replace (push (frame_stack lo [a] bs) 100%Z) with (frame_stack lo [a; 100]%Z bs)
      by (unfold push, with_cells, frame_stack; simpl; now rewrite <- app_assoc).
    pose proof (C04_operator_instruction Z (Example1.oprun 0) lo [] [a; 100]%Z bs 1 ltac:(simpl; lia) ltac:(lia)) as H.
    simpl app in H. change (Z.of_nat (length [a; 100]%Z)) with 2%Z in H. change (Z.of_nat 1) with 1%Z in H.
    rewrite H. reflexivity.
  Qed.
  Example wf : well_formed Example1.packV Example1.fieldV Example1.oprun p.
  Proof.
    constructor; simpl; auto.
    - intros args Hl. destruct args as [|a [|b [|]]]; try discriminate. left. exists [a * b]%Z.
      intros lo bs. apply op2_body.
    - intros flt c [E|[E|[]]]; [|discriminate]. injection E as <- <-. simpl. intros v fr k E. now injection E.
    - intros q c [E|[E|[]]]; [|discriminate]. injection E as <- <-. simpl. split; auto. split; auto.
      constructor; simpl; auto.
      + intros args Hl. destruct args as [|a [|]]; try discriminate. left. exists [a + 100]%Z.
        intros lo bs. apply flt_body.
      + intros flt c' [E|[]]. discriminate.
      + intros q c' [E|[]]. discriminate.
  Qed.
End ExampleBench.
