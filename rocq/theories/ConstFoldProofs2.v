(** Constant folding as a whole, and folding followed by compilation. *)
From Coq Require Import List ZArith Bool Lia Arith.
From Verif Require Import StackModel GraphSpec GraphModel IntimeModel ConstFoldModel CompilerModel PipelineModel CompilerSpec
  GraphProofs StackProofs IntimeProofs CompilerProofs CompilerProofs3 ConstFoldProofs.
Import ListNotations.

Section ConstFoldProofs2.
Context {V Opr : Type}.
Variable packV : list V -> V.
Variable fieldV : V -> Z -> option V.
Variable oprun : Opr -> list V -> opres V.
Variable supported : Opr -> bool.
Variable bench : stack V.
Hypothesis Hbench : exists lo pre bs, bench = frame_stack lo pre bs.
Notation graph := (graph V Opr).
Notation dens := (dens packV fieldV oprun).
Variable g : graph.
Variable fresh : node.
Variable outputs : list node.
Hypothesis Hfresh : forall n i, In i (ins g n) -> n < fresh /\ i < fresh.
Hypothesis Hout : forall o, In o outputs -> o < fresh.
Hypothesis Hac : acyclic g.
Hypothesis Hleaf : leaves_ok g.

Lemma outs_good_facts st ks cs : outs_good packV fieldV oprun g st ks cs ->
  (forall env vs, dens g env ks vs -> dens (gr st) env cs vs) /\
  (single_valued oprun -> forall env vs, dens (gr st) env cs vs -> dens g env ks vs) /\
  (forall c, In c cs -> exists k isc, In k ks /\ good packV fieldV oprun g st k c isc) /\
  (forall k, In k ks -> exists c isc, In c cs /\ good packV fieldV oprun g st k c isc).
Proof.
  intros H. induction H as [|ks cs k c isc H IH G].
  - repeat split; try (intros; inversion H; constructor); try (intros ? ? ? D; inversion D; constructor);
      try (intros ? ? D; inversion D; constructor); intros ? [].
  - destruct IH as (A & B & C & D). repeat split.
    + intros env vs Dv. apply dens_snoc_inv in Dv as (v1 & v2 & -> & D1 & D2).
      apply dens_snoc; auto. now apply (g_fwd _ _ _ _ _ _ _ _ G).
    + intros Hs env vs Dv. apply dens_snoc_inv in Dv as (v1 & v2 & -> & D1 & D2).
      apply dens_snoc; auto. now apply (g_bwd _ _ _ _ _ _ _ _ G).
    + intros c' Hc. apply in_app_iff in Hc as [Hc|[<-|[]]].
      * destruct (C c' Hc) as (k' & i & Hk & G'). exists k', i. rewrite in_app_iff. auto.
      * exists k, isc. rewrite in_app_iff. simpl. auto.
    + intros k' Hk. apply in_app_iff in Hk as [Hk|[<-|[]]].
      * destruct (D k' Hk) as (c' & i & Hc & G'). exists c', i. rewrite in_app_iff. auto.
      * exists c, isc. rewrite in_app_iff. simpl. auto.
Qed.

Lemma const_fold_correct fuel outs g' :
  const_fold packV oprun supported bench fuel g fresh outputs = FOk (outs, g') ->
  (forall env vs, dens g env outputs vs -> dens g' env outs vs) /\
  (single_valued oprun -> forall env vs, dens g' env outs vs -> dens g env outputs vs) /\
  acyclic g' /\ leaves_ok g' /\
  (forall p, (kind g p = KParam /\ used g outputs p) <-> (kind g' p = KParam /\ used g' outs p)) /\
  (forall n, used g' outs n -> is_operator g' n -> exists p, kind g' p = KParam /\ depends g' n p).
Proof.
  destruct Hbench as (blo & bpre & bbs & ->). unfold const_fold.
  change (frame_stack blo bpre bbs) with (fs blo bpre bbs).
  destruct (run_const_nodes _ _ _ _ _ _ _ _) as [[outs1 st]| |] eqn:E; try discriminate.
  intros H; injection H as <- <-.
  destruct (run_const_nodes_spec packV fieldV oprun supported blo bpre bbs g fresh Hfresh Hleaf fuel outputs [] _ []
     outs1 st Hout (init_finv packV fieldV oprun g fresh Hfresh Hac Hleaf)
     (og_nil _ _ _ _ _) E) as (HI & HO). simpl in HO.
  destruct (outs_good_facts _ _ _ HO) as (A & B & C & D).
  split; [exact A|]. split; [exact B|]. split; [apply (f_acyc _ _ _ _ _ _ HI)|].
  split; [apply (f_leaves _ _ _ _ _ _ HI)|]. split.
  - intros p. split; intros [Hp (o & Ho & Hr)].
    + destruct (D o Ho) as (c & i & Hc & G).
      destruct (proj1 (g_params _ _ _ _ _ _ _ _ G p) (conj Hp Hr)) as [Hp' Hr'].
      split; auto. exists c. auto.
    + destruct (C o Ho) as (k & i & Hk & G).
      destruct (proj2 (g_params _ _ _ _ _ _ _ _ G p) (conj Hp Hr)) as [Hp' Hr'].
      split; auto. exists k. auto.
  - intros n (c & Hc & Hr) Hop. destruct (C c Hc) as (k & i & Hk & G).
    destruct (g_folded _ _ _ _ _ _ _ _ G n Hr Hop) as (p & Hp & Hrp).
    exists p. split; auto. apply reach_cases in Hrp as [->|(m & Hm & Hmr)].
    + unfold is_operator in Hop. rewrite Hp in Hop. tauto.
    + exists m. auto.
Qed.

Lemma const_fold_terminates : exists N, forall fuel, N <= fuel ->
  const_fold packV oprun supported bench fuel g fresh outputs <> FFuel.
Proof.
  destruct Hbench as (blo & bpre & bbs & ->). destruct Hac as [rank HR].
  exists (S (lsum (map rank outputs))). intros fuel Hf. unfold const_fold.
  change (frame_stack blo bpre bbs) with (fs blo bpre bbs).
  pose proof (run_const_nodes_fuel packV fieldV oprun supported blo bpre bbs g fresh Hfresh rank Hleaf HR fuel
    outputs (mkF g fresh [] []) [] (init_finv packV fieldV oprun g fresh Hfresh Hac Hleaf)) as H.
  destruct (run_const_nodes _ _ _ _ _ _ _ _) as [[outs1 st]| |]; try discriminate.
  exfalso. apply H; [|reflexivity]. intros n Hn. split; auto.
  assert (rank n <= lsum (map rank outputs)).
  { clear -Hn. induction outputs as [|x l IH]; [destruct Hn|]. simpl.
    destruct Hn as [->|Hn]; [lia|]. specialize (IH Hn). lia. }
  lia.
Qed.

(** Folding and compiling. *)
Notation fold_compile := (fold_compile packV oprun supported bench g fresh outputs).

Lemma fold_compile_correct output_count fuel inputs b :
  NoDup inputs -> (inputs = [] \/ exists p, kind g p = KParam /\ used g outputs p) ->
  fold_compile output_count fuel inputs = COk b ->
  b_nargs b = length inputs /\ b_nresults b = length outputs /\
  forall args lo bs, length args = length inputs ->
  (forall outs, dens g (bind inputs args) outputs outs ->
     run_list packV fieldV oprun (b_data b) (b_insts b) (frame_stack lo args bs)
     = Done tt (frame_stack lo outs bs)) /\
  (single_valued oprun -> (forall outs, ~ dens g (bind inputs args) outputs outs) ->
     exists fr, run_list packV fieldV oprun (b_data b) (b_insts b) (frame_stack lo args bs)
     = Throw (frame_stack lo fr bs)).
Proof.
  intros Hnd Hpar. unfold PipelineModel.fold_compile.
  destruct (const_fold _ _ _ _ _ _ _ _) as [[outs g']| |] eqn:Ef; try discriminate. intros Hc.
  destruct (const_fold_correct _ _ _ Ef) as (A & B & C & D & E & F).
  assert (Hops : ops_have_inputs g' outs).
  { intros n o Hn Hk Hz. destruct (F n Hn) as (p & Hp & (m & Hm & _)).
    - unfold is_operator. now rewrite Hk.
    - rewrite Hz in Hm. destruct Hm. }
  assert (Hpar' : inputs = [] \/ exists p, kind g' p = KParam /\ used g' outs p).
  { destruct Hpar as [->|(p & Hp & Hu)]; auto. right. exists p. now apply E. }
  destruct (compile_correct supported output_count g' inputs outs packV fieldV oprun fuel b C D Hops Hnd Hpar' Hc)
    as (H1 & H2 & H3).
  assert (Hlen : length outs = length outputs).
  { clear -Ef. unfold const_fold in Ef.
    destruct (run_const_nodes _ _ _ _ _ _ _ _) as [[outs1 st]| |] eqn:E; try discriminate.
    injection Ef as <- <-.
    assert (G : forall nodes st acc outs st', run_const_nodes packV oprun supported bench fuel nodes st acc = FOk (outs, st') ->
       length outs = length acc + length nodes).
    { induction nodes as [|n nodes IH]; simpl; intros st0 acc outs0 st' E0.
      - injection E0 as <- <-. lia.
      - destruct (run_const_node _ _ _ _ _ _ _ _) as [[[c i] st1]| |]; try discriminate.
        apply IH in E0. rewrite app_length in E0. simpl in E0. lia. }
    apply G in E. simpl in E. exact E. }
  split; [auto|]. split; [congruence|]. intros args lo bs Hl. split.
  - intros vs Hv. apply A in Hv.
    destruct (H3 args lo bs Hl) as [(vs' & Hv' & Er)|(fr & _ & Hno)].
    + rewrite Er. f_equal. f_equal. destruct C as [rank HR].
      clear -Hv Hv' HR. revert vs' Hv'. induction Hv; intros vs' Hv'; inversion Hv'; subst; auto.
      f_equal; auto. eapply (den_det_rank g' packV fieldV oprun (bind inputs args) rank HR (S (rank n))); eauto.
    + exfalso. exact (Hno _ Hv).
  - intros Hs Hno. destruct (H3 args lo bs Hl) as [(vs' & Hv' & Er)|(fr & Er & _)].
    + exfalso. apply (Hno vs'). auto.
    + eauto.
Qed.
End ConstFoldProofs2.
