(** Positive halves of claims that fail at one point only: C55 (values of the
    previous program) and C64 (tasks of a destroyed thread). *)
From Coq Require Import List ZArith Bool Lia Arith.
From Verif Require Import StackModel GraphSpec GraphModel CompilerModel CompilerSpec
  IntimeModel WorkbenchModel WorkbenchSpec StackProofs WorkbenchProofs WorkbenchProofs2 PropsCompiler PropsWorkbench.
From Verif Require ThreadLifeModel ThreadLifeProofs.
Import ListNotations.

(** ** C55 *)
Section C55.
Context {V Opr : Type} (packV : list V -> V) (fieldV : V -> Z -> option V)
  (oprun : Opr -> list V -> opres V) (adjust : V -> option V) (empty : V).
Notation step := (step packV fieldV oprun adjust empty).
Notation steps := (steps packV fieldV oprun adjust empty).

Lemma set_nth_len (l : list V) : forall n v, length (set_nth l n v) = length l.
Proof. induction l as [|a l IH]; intros [|n] v; simpl; auto. Qed.
Lemma set_nth_get (l : list V) : forall n v i, n < length l -> nth_error (set_nth l n v) i = if Nat.eqb i n then Some v else nth_error l i.
Proof. induction l as [|a l IH]; intros [|n] v [|i] H; simpl in *; auto; try lia. apply IH. lia. Qed.

Lemma resize_length (l : list V) n : length (resize empty l n) = n.
Proof. unfold resize. rewrite app_length, firstn_length, repeat_length. lia. Qed.

Definition inputs_of (values : list (nat * V)) : list (call V Opr) := map (fun p => CInput (Z.of_nat (fst p)) (snd p)) values.

Lemma inputs_agree values : forall (b1 b2 : bench V Opr) (holes : nat -> Prop),
  b_stack b1 = b_stack b2 -> b_desktop b1 = b_desktop b2 ->
  length (b_inputs b1) = length (b_inputs b2) -> (forall i, ~ holes i -> nth_error (b_inputs b1) i = nth_error (b_inputs b2) i) ->
  (forall i v, In (i, v) values -> i < length (b_inputs b1)) ->
  let c1 := steps b1 (inputs_of values) in let c2 := steps b2 (inputs_of values) in
  b_stack c1 = b_stack c2 /\ b_desktop c1 = b_desktop c2 /\ b_stack c1 = b_stack b1 /\ b_desktop c1 = b_desktop b1 /\
  length (b_inputs c1) = length (b_inputs c2) /\ length (b_inputs c1) = length (b_inputs b1) /\
  (forall i, ~ (holes i /\ forall v, ~ In (i, v) values) -> nth_error (b_inputs c1) i = nth_error (b_inputs c2) i).
Proof.
  induction values as [|[k v] values IH]; intros b1 b2 holes Hs Hd L N B.
  - repeat (split; [assumption || reflexivity|]). intros i Hi. apply N. intro. apply Hi. split; [assumption|]. intros w [].
  - assert (Hk : k < length (b_inputs b1)) by (apply (B k v); left; reflexivity).
    unfold inputs_of, WorkbenchModel.steps in *. cbn [map fold_left fst snd].
    assert (Hst : forall b : bench V Opr, length (b_inputs b) = length (b_inputs b1) ->
      fst (step b (CInput (Z.of_nat k) v)) = mkBench (b_stack b) (b_desktop b) (set_nth (b_inputs b) k v) (b_outputs b)).
    { intros b Hb. unfold WorkbenchModel.step. destruct (Z.ltb_spec (Z.of_nat k) 0); [lia|].
      destruct (Z.leb_spec (Z.of_nat (length (b_inputs b))) (Z.of_nat k)); [lia|]. cbn. now rewrite Nat2Z.id. }
    rewrite (Hst b1 eq_refl), (Hst b2 (eq_sym L)).
    destruct (IH (mkBench (b_stack b1) (b_desktop b1) (set_nth (b_inputs b1) k v) (b_outputs b1))
       (mkBench (b_stack b2) (b_desktop b2) (set_nth (b_inputs b2) k v) (b_outputs b2)) (fun i => holes i /\ i <> k)) as (A1 & A2 & A3 & A4 & A5 & A6 & A7);
      cbn [b_stack b_desktop b_inputs] in *; auto.
    + now rewrite !set_nth_len.
    + intros i Hi. rewrite !set_nth_get by lia. destruct (Nat.eqb_spec i k) as [->|Hne]; [reflexivity|]. apply N. tauto.
    + intros i w Hw. rewrite set_nth_len. apply (B i w). now right.
    + rewrite set_nth_len in A6. repeat (split; [assumption|]). intros i Hi. apply A7. intros [[H1 H2] H3]. apply Hi. split; [exact H1|].
      intros w [Hw|Hw]; [injection Hw as -> ->; now apply H2|exact (H3 w Hw)].
Qed.

(** Once every input of the new program has been given, nothing of the past is
    observable any more: two workbenches with different pasts answer [run]
    alike, and after a successful run they are equal in every respect.
    Missing: before that, old inputs and outputs remain in the slots below the
    smaller of the two counts (C55_setup_discards_old_values_refuted). *)
Theorem C55_inputs_given_partial (past1 past2 : bench V Opr) (p : program V Opr) (values : list (nat * V)) :
  b_stack past1 = b_stack past2 ->
  (forall i, (exists v, In (i, v) values) <-> i < p_nin p) ->
  let calls := CSetup (Some p) :: map (fun q => CInput (Z.of_nat (fst q)) (snd q)) values in
  let r1 := step (steps past1 calls) CRun in let r2 := step (steps past2 calls) CRun in
  snd r1 = snd r2 /\ (snd r1 = ROk -> fst r1 = fst r2).
Proof.
  intros Hs B calls. unfold calls, WorkbenchModel.steps. cbn [fold_left].
  set (b1 := fst (step past1 _)). set (b2 := fst (step past2 _)).
  destruct (inputs_agree values b1 b2 (fun i => i < p_nin p)) as (A1 & A2 & A3 & A4 & A5 & A6 & A7).
  - exact Hs.
  - reflexivity.
  - cbn. now rewrite !resize_length.
  - intros i Hi. transitivity (@None V); [|symmetry]; apply nth_error_None; cbn; rewrite resize_length; lia.
  - intros i v Hv. cbn. rewrite resize_length. apply B. now exists v.
  - unfold WorkbenchModel.steps, inputs_of in *. set (c1 := fold_left _ _ b1) in *. set (c2 := fold_left _ _ b2) in *.
    assert (Ei : b_inputs c1 = b_inputs c2).
    { clear -A5 A7 B. set (l1 := b_inputs c1) in *. set (l2 := b_inputs c2) in *. clearbody l1 l2.
      assert (E : forall i, nth_error l1 i = nth_error l2 i).
      { intro i. apply A7. intros [H1 H2]. apply B in H1. destruct H1 as [v H1]. exact (H2 v H1). }
      clear -E. revert l2 E. induction l1 as [|x l1 IH]; intros [|y l2] E; auto; try (specialize (E 0); discriminate).
      pose proof (E 0) as E0. injection E0 as ->. f_equal. apply IH. intro i. exact (E (S i)). }
    unfold WorkbenchModel.step. rewrite <- A2, A4. cbn [b_desktop]. change (b_desktop b1) with (Some p).
    rewrite <- Ei, <- A1. destruct (launch_offline _ _ _ _ p (b_inputs c1) (b_stack c1)) as [outs s|s|]; cbn; split; auto; try discriminate.
Qed.

(** Setting up no program forgets everything, and a slot above the old count is
    empty. *)
Theorem C55_slots_partial (b : bench V Opr) :
  b_inputs (fst (step b (CSetup None))) = [] /\ b_outputs (fst (step b (CSetup None))) = [] /\
  forall p i, length (b_outputs b) <= i < p_nout p ->
    snd (step (fst (step b (CSetup (Some p)))) (COutput (Z.of_nat i))) = RVal empty.
Proof.
  split; [reflexivity|]. split; [reflexivity|]. intros p i Hi. unfold WorkbenchModel.step. cbn [fst b_outputs].
  rewrite resize_length. destruct (Z.ltb_spec (Z.of_nat i) 0); [lia|]. destruct (Z.leb_spec (Z.of_nat (p_nout p)) (Z.of_nat i)); [lia|].
  cbn [orb]. rewrite Nat2Z.id. unfold resize. rewrite firstn_all2 by lia. rewrite nth_error_app2 by lia.
  destruct (nth_error (repeat empty _) _) as [v|] eqn:E.
  - apply nth_error_In, repeat_spec in E. now subst.
  - apply nth_error_None in E. rewrite repeat_length in E. lia.
Qed.
End C55.
Print Assumptions C55_inputs_given_partial.
Print Assumptions C55_slots_partial.

(** Two different pasts, one program with one input. *)
Example C55_example :
  let p : program Z nat := Program [IData 0; IOp 0 2 1] [100%Z] 1 1 [(None, None)] in
  let past1 : bench Z nat := mkBench (frame_stack [] [] []) None [7%Z; 8%Z] [3%Z] in
  let past2 : bench Z nat := mkBench (frame_stack [] [] []) (Some p) [] [5%Z; 6%Z] in
  let st := step Example1.packV Example1.fieldV Example1.oprun (@Some Z) 0%Z in
  let ss := steps Example1.packV Example1.fieldV Example1.oprun (@Some Z) 0%Z in
  (forall i, (exists v, In (i, v) [(0, 2%Z)]) <-> i < p_nin p) /\
  st (ss past1 [CSetup (Some p); CInput 0 2%Z]) CRun = (mkBench (frame_stack [] [] []) (Some p) [2%Z] [102%Z], ROk) /\
  st (ss past2 [CSetup (Some p); CInput 0 2%Z]) CRun = (mkBench (frame_stack [] [] []) (Some p) [2%Z] [102%Z], ROk).
Proof.
  split; [|split; vm_compute; reflexivity].
  intro i. cbn. split; [intros (v & [H|[]]); injection H; lia|]. intro H. exists 2%Z. left. f_equal. lia.
Qed.

(** ** C64 *)
Module Tasks.
Import ThreadLifeModel ThreadLifeProofs.

(** the thread is handed a task only when it has none (what ThreadPool does) *)
Inductive run_idle : life -> list act -> life -> Prop :=
| idle_nil s : run_idle s [] s
| idle_cons s a s1 l s2 : step s a s1 -> (forall t, a = Run t -> task s = None) -> run_idle s1 l s2 -> run_idle s (a :: l) s2.

Definition pending (s : life) : list nat := match task s with Some t => [t] | None => [] end.

Lemma kept s l s' : run_idle s l s' -> handed s = executed s ++ pending s -> handed s' = executed s' ++ pending s'.
Proof.
  induction 1 as [|s a s1 l s2 Hs Hi _ IH]; auto. intro K. apply IH. clear IH.
  destruct Hs; unfold pending, with_pc in *; cbn in *; auto.
  - match goal with E : task s = Some t |- _ => rewrite E in K end. now rewrite app_nil_r.
  - rewrite (Hi t eq_refl), app_nil_r in K. now rewrite K.
Qed.

(** Tasks are executed in the order they were handed over, and when the thread
    is destroyed at most the last one is missing. *)
Theorem C64_at_most_last_partial l s : run_idle start l s ->
  handed s = executed s ++ match task s with Some t => [t] | None => [] end.
Proof. intro H. exact (kept _ _ _ H eq_refl). Qed.
Print Assumptions C64_at_most_last_partial.

Lemma run_idle_app s l s' : run_idle s l s' -> forall l' s'', run_idle s' l' s'' -> run_idle s (l ++ l') s''.
Proof. induction 1; intros; cbn; auto. econstructor; eauto. Qed.
Lemma run_idle_run s l s' : run_idle s l s' -> run s l s'.
Proof. induction 1; econstructor; eauto. Qed.

(** once destruction has begun no task comes in *)
Lemma dying s l s' : run_idle s l s' -> dt s <> Alive -> dt s' <> Alive /\ is_running s' = is_running s /\ handed s' = handed s.
Proof.
  induction 1 as [|s a s1 l s2 Hs Hi _ IH]; auto. intro H.
  destruct Hs; cbn in *; try congruence; try (apply IH; auto; discriminate).
Qed.

(** A task the worker has begun, or has already finished, when the destructor
    is called is executed before the destructor returns: nothing is dropped. *)
Theorem C64_begun_partial l0 s s1 l s2 : run_idle start l0 s ->
  pc s = Calling \/ task s = None ->
  step s DestroyBegin s1 -> run_idle s1 l s2 -> dt s2 = Destroyed -> executed s2 = handed s.
Proof.
  intros R0 Hb Hd R Hx.
  assert (Hs1 : s1 = mkLife (pc s) Notifying false (task s) (handed s) (executed s)) by (inversion Hd; reflexivity).
  assert (K : handed s1 = executed s1 ++ pending s1).
  { subst s1. cbn. exact (kept _ _ _ R0 eq_refl). }
  pose proof (kept _ _ _ R K) as K2.
  assert (Hn1 : dt s1 <> Alive) by (subst s1; cbn; discriminate).
  destruct (dying _ _ _ R Hn1) as (_ & _ & Hh).
  (* while the worker is not done with the task it is in Calling *)
  assert (Inv : (task s2 = None \/ pc s2 = Calling) /\ (dt s2 = Destroyed -> pc s2 = Exited)).
  { assert (I1 : (task s1 = None \/ pc s1 = Calling) /\ (dt s1 = Destroyed -> pc s1 = Exited)).
    { subst s1. cbn. split; [tauto|discriminate]. }
    clear -R I1 Hn1. revert Hn1 I1. induction R as [|s a s' l s2 Hs Hi R IH]; auto. intros Hn [I1 I2]. apply IH; clear IH R.
    - destruct Hs; cbn in *; congruence.
    - destruct Hs; unfold with_pc in *; cbn in *; try congruence;
      (split; [first [left; reflexivity | destruct I1 as [I1|I1]; [left; exact I1|first [congruence|right; rewrite I1; reflexivity|right; exact I1]]]|]);
      try (intro Hd; specialize (I2 Hd); congruence); try discriminate; auto. }
  destruct Inv as [[I1|I1] I2]; [|specialize (I2 Hx); congruence].
  unfold pending in K2. rewrite I1, app_nil_r in K2. rewrite <- K2. subst s1. exact Hh.
Qed.
Print Assumptions C64_begun_partial.

(** The worker is executing task 7 when the destructor is called. *)
Example C64_example : exists s s1 s2, run_idle start [Run 7; Worker; Worker; Worker; Worker] s /\ pc s = Calling /\
  step s DestroyBegin s1 /\ run_idle s1 [DestroyGo; Worker; Worker; DestroyGo] s2 /\ dt s2 = Destroyed /\ executed s2 = [7].
Proof.
  eexists; eexists; eexists. split.
  { eapply idle_cons; [apply c_run; reflexivity|reflexivity|].
    eapply idle_cons; [apply w_enter; reflexivity|discriminate|].
    eapply idle_cons; [apply w_outer; reflexivity|discriminate|].
    eapply idle_cons; [apply w_inner; reflexivity|discriminate|].
    eapply idle_cons; [apply w_leave; reflexivity|discriminate|]. apply idle_nil. }
  split; [reflexivity|]. split; [apply d_flag; reflexivity|]. split.
  { eapply idle_cons; [apply d_notify; reflexivity|discriminate|].
    eapply idle_cons; [eapply w_call; reflexivity|discriminate|].
    eapply idle_cons; [apply w_outer; reflexivity|discriminate|].
    eapply idle_cons; [apply d_join; reflexivity|discriminate|]. apply idle_nil. }
  split; reflexivity.
Qed.
End Tasks.
