(** Compiled programs on a workbench, and histories of calls. *)
From Coq Require Import List ZArith Bool Lia Arith.
From Verif Require Import StackModel GraphSpec GraphModel CompilerModel CompilerSpec StackProofs GraphProofs CompilerProofs
  CompilerProofs3 IntimeModel IntimeProofs WorkbenchModel WorkbenchSpec WorkbenchProofs.
Import ListNotations.

Section WorkbenchProofs2.
Context {V Opr : Type}.
Variable packV : list V -> V.
Variable fieldV : V -> Z -> option V.
Variable oprun : Opr -> list V -> opres V.
Variable adjust : V -> option V.
Notation program := (program V Opr).
Notation body := (body packV fieldV oprun).
Notation launches := (launches packV fieldV oprun adjust).
Notation well_formed := (well_formed packV fieldV oprun).
Notation launch_offline := (launch_offline packV fieldV oprun adjust).
Notation dens := (dens packV fieldV oprun).

Lemma dens_det g env (rank : node -> nat) : (forall n m, In m (ins g n) -> rank m < rank n) ->
  forall ns vs vs', dens g env ns vs -> dens g env ns vs' -> vs = vs'.
Proof.
  intros HR ns vs vs' H. revert vs'. induction H; intros vs' H'; inversion H'; subst; auto.
  f_equal; auto. eapply (den_det_rank g packV fieldV oprun env rank HR (S (rank n))); eauto.
Qed.

Section Compiled.
Variable supported : Opr -> bool.
Variable output_count : Opr -> Z.
Variable g : graph V Opr.
Variable inputs outputs : list node.
Variable fuel : nat.
Variable b : block V Opr.
Variable cfg : list (option program * option (list V -> opres V)).
Hypothesis Hac : acyclic g.
Hypothesis Hleaf : leaves_ok g.
Hypothesis Hops : ops_have_inputs g outputs.
Hypothesis Hnd : NoDup inputs.
Hypothesis Hpar : inputs = [] \/ exists p, kind g p = KParam /\ used g outputs p.
Hypothesis Hb : compile supported output_count fuel g inputs outputs = COk b.

Definition prog_of : program := Program (b_insts b) (b_data b) (b_nargs b) (b_nresults b) cfg.

Lemma compiled_body : p_nin prog_of = length inputs /\ p_nout prog_of = length outputs /\
  forall args, length args = length inputs ->
  (exists outs, dens g (bind inputs args) outputs outs /\ body prog_of args outs) \/
  ((forall outs, ~ dens g (bind inputs args) outputs outs) /\ body_fails packV fieldV oprun prog_of args).
Proof.
  destruct (compile_correct supported output_count g inputs outputs packV fieldV oprun fuel b Hac Hleaf Hops Hnd Hpar Hb)
    as (H1 & H2 & H3).
  split; [exact H1|]. split; [exact H2|]. intros args Hl. destruct Hac as [rank HR].
  destruct (H3 args [] [] Hl) as [(outs & D & E)|(fr & E & Hno)].
  - left. exists outs. split; auto. intros lo bs. simpl.
    destruct (H3 args lo bs Hl) as [(outs' & D' & E')|(fr & _ & Hno)]; [|exfalso; exact (Hno _ D)].
    rewrite E'. now rewrite (dens_det g _ rank HR _ _ _ D D').
  - right. split; auto. intros lo bs. simpl.
    destruct (H3 args lo bs Hl) as [(outs' & D' & E')|(fr' & E' & _)]; [exfalso; exact (Hno _ D')|eauto].
Qed.

Lemma compiled_well_formed :
  length cfg = length inputs ->
  (forall flt c, In (flt, Some c) cfg -> forall v fr k, c [v] = ORet fr k -> k = 1%Z) ->
  (forall q c, In (Some q, c) cfg -> p_nin q = 1 /\ p_nout q = 1 /\ well_formed q) ->
  well_formed prog_of.
Proof.
  intros Hl Hc Hq. destruct compiled_body as (H1 & H2 & H3).
  constructor; simpl in *; auto; try congruence.
  intros args Ha. destruct (H3 args ltac:(congruence)) as [(outs & _ & B)|(_ & B)]; eauto.
Qed.

(** Without filters and casts *)
Lemma compiled_launches args outs : cfg = repeat (None, None) (length inputs) -> length args = length inputs ->
  (launches prog_of args outs <-> dens g (bind inputs args) outputs outs).
Proof.
  intros Hcfg Hl. destruct compiled_body as (H1 & H2 & H3).
  assert (Hp : forall ready, prepared packV fieldV oprun adjust cfg args ready -> ready = args).
  { rewrite Hcfg, <- Hl. clear. induction args as [|a args IH]; simpl; intros ready H.
    - now inversion H.
    - apply prepared_inv in H as (w & x & xs & -> & F & C & P). inversion F; subst. simpl in C. subst.
      f_equal. auto. }
  assert (Hp' : prepared packV fieldV oprun adjust cfg args args).
  { rewrite Hcfg, <- Hl. clear. induction args as [|a args IH]; simpl; [constructor|].
    apply prepared_cons with (w := a); auto; [constructor|reflexivity]. }
  destruct (H3 args Hl) as [(outs0 & D & B)|(Hno & B)].
  - assert (Hu : forall o, body prog_of args o -> o = outs0).
    { intros o Ho. specialize (Ho [] []). rewrite (B [] []) in Ho. injection Ho. auto. }
    destruct Hac as [rank HR]. split.
    + intros L. apply launches_inv in L as (rd & _ & P & B' & _). apply Hp in P. subst rd.
      apply Hu in B'. now subst.
    + intros D'. rewrite (dens_det g _ rank HR _ _ _ D' D). econstructor; eauto.
      * rewrite H1. exact Hl.
      * rewrite H2. clear -D. remember (bind inputs args) as e. clear Heqe. induction D; simpl; auto.
  - split.
    + intros L. apply launches_inv in L as (rd & _ & P & B' & _). apply Hp in P. subst rd.
      destruct (B [] []) as (fr & E). specialize (B' [] []). rewrite E in B'. discriminate.
    + intros D. destruct (Hno _ D).
Qed.
End Compiled.

Section History.
Variable empty : V.
Notation step := (step packV fieldV oprun adjust empty).
Notation steps := (steps packV fieldV oprun adjust empty).

Definition ok_call (c : call V Opr) : Prop :=
  match c with CSetup (Some p) => well_formed p | _ => True end.

Definition ok_bench (s : stack V) (b : bench V Opr) : Prop :=
  b_stack b = s /\ forall p, b_desktop b = Some p -> well_formed p.

Lemma step_ok s b c : (exists lo pre bs, s = frame_stack lo pre bs) -> ok_bench s b -> ok_call c ->
  ok_bench s (fst (step b c)) /\ snd (step b c) <> RUndef.
Proof.
  intros (lo & pre & bs & Hs) [H1 H2] Hc. unfold ok_bench.
  destruct c as [[p|]|slot v| |slot]; simpl in *.
  - split; [split; auto; intros q E; injection E as <-; auto|discriminate].
  - split; [split; auto; discriminate|discriminate].
  - destruct (_ || _)%bool; simpl; (split; [split; auto|discriminate]).
  - destruct (b_desktop b) as [p|] eqn:E; [|split; [split; simpl; auto; congruence|discriminate]].
    specialize (H2 p eq_refl). rewrite H1, Hs.
    destruct (launch_offline_fs packV fieldV oprun adjust p (b_inputs b) lo pre bs H2) as [(outs & _ & E')|(_ & E')];
      rewrite fs_frame_stack in *; rewrite E'; simpl; (split; [split; auto; intros q Eq; injection Eq as <-; auto|discriminate]).
  - destruct (_ || _)%bool; simpl; [split; [split; auto|discriminate]|].
    destruct (nth_error _ _); simpl; (split; [split; auto|discriminate]).
Qed.

Lemma steps_ok s l : forall b, (exists lo pre bs, s = frame_stack lo pre bs) -> ok_bench s b -> Forall ok_call l ->
  ok_bench s (steps b l).
Proof.
  induction l as [|c l IH]; intros b Hs Hb Hl; simpl; auto.
  inversion Hl; subst. apply IH; auto. now apply step_ok.
Qed.

Lemma run_reply s b l : (exists lo pre bs, s = frame_stack lo pre bs) -> ok_bench s b -> Forall ok_call l ->
  let b' := steps b l in
  match b_desktop b' with
  | None => step b' CRun = (b', RErr)
  | Some p =>
      (exists outs, launches p (b_inputs b') outs /\
         step b' CRun = (mkBench s (Some p) (b_inputs b') outs, ROk)) \/
      ((forall outs, ~ launches p (b_inputs b') outs) /\ step b' CRun = (b', RErr))
  end.
Proof.
  intros Hs Hb Hl b'. destruct (steps_ok s l b Hs Hb Hl) as [H1 H2]. fold b' in H1, H2. simpl.
  destruct (b_desktop b') as [p|] eqn:E; auto.
  destruct Hs as (lo & pre & bs & Hs). specialize (H2 p eq_refl). rewrite H1, Hs.
  destruct (launch_offline_fs packV fieldV oprun adjust p (b_inputs b') lo pre bs H2) as [(outs & L & E')|(Hno & E')];
    rewrite fs_frame_stack in *; rewrite E'.
  - left. eauto.
  - right. split; auto. f_equal. destruct b'; simpl in *. congruence.
Qed.
End History.
End WorkbenchProofs2.
