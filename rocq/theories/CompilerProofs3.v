(** Compiler: the results for [compile] as a whole. *)
From Coq Require Import List ZArith Bool Lia Arith Permutation.
From Verif Require Import StackModel GraphSpec GraphModel CompilerModel CompilerSpec
  GraphProofs StackProofs CompilerProofs CompilerProofs2.
Import ListNotations.

Section CompilerProofs3.
Context {V Opr : Type}.
Notation graph := (graph V Opr).
Variable supported : Opr -> bool.
Variable output_count : Opr -> Z.
Notation compile := (@CompilerModel.compile V Opr supported output_count).
Variable g : graph.
Variables inputs outputs : list node.

Lemma compile_inv fuel b : acyclic g ->
  compile fuel g inputs outputs = COk b ->
  exists refs st,
    (forall n, reachable g outputs n -> refs_exact g refs n) /\
    loop supported output_count fuel g refs (init_state g outputs) = COk st /\
    epilogue inputs outputs st = COk b.
Proof.
  intros Hac. unfold CompilerModel.compile.
  destruct (list_reference_nodes fuel g outputs) as [sched|] eqn:Es; [|discriminate].
  destruct (loop _ _ _ _ _ _) as [st| |] eqn:El; try discriminate.
  intros E. exists (build_refs g sched []), st. split; [|split; auto].
  intros n Hn. eapply build_node_refs_exact; eauto. eapply list_reference_nodes_ok; eauto.
Qed.

Lemma param_reaches_self p m : leaves_ok g -> kind g m = KParam -> reach g m p -> m = p.
Proof.
  intros Hl Hk H. inversion H; subst; auto. rewrite (Hl m) in H0; [destruct H0|].
  unfold is_operator. now rewrite Hk.
Qed.

Lemma acyclic_irr : acyclic g -> forall n, ~ depends g n n.
Proof. intros [rank HR] n H. apply (depends_rank g rank _ _ HR) in H. lia. Qed.

Lemma loop_keeps fuel refs st p : acyclic g -> leaves_ok g ->
  (forall n, reachable g outputs n -> refs_exact g refs n) ->
  (kind g p = KParam \/ kind g p = KVariable) -> used g outputs p ->
  loop supported output_count fuel g refs (init_state g outputs) = COk st ->
  In p (sim st) /\ kind g p = KParam.
Proof.
  intros Hac Hleaf Hrefs Hp (o & Ho & Hr) El. pose proof (acyclic_irr Hac) as Hirr.
  destruct (init_inv g outputs) as (A & B & C & D).
  destruct (loop_ind supported output_count g outputs refs Hirr Hrefs (keeps g p)
     (keeps_step supported output_count g outputs p Hleaf Hp) fuel _ st A) as (Hcinv & (m & Hm & Hmr) & Hu); auto.
  { exists o. rewrite B. auto. }
  pose proof (unsolved_zero g outputs st Hcinv Hu m Hm) as Hkm.
  apply param_reaches_self in Hmr; auto. subst. auto.
Qed.

Lemma compile_correct packV fieldV oprun fuel b :
  acyclic g -> leaves_ok g -> ops_have_inputs g outputs -> NoDup inputs ->
  (inputs = [] \/ exists p, kind g p = KParam /\ used g outputs p) ->
  compile fuel g inputs outputs = COk b ->
  b_nargs b = length inputs /\ b_nresults b = length outputs /\
  forall args lo bs, length args = length inputs ->
  (exists outs, dens packV fieldV oprun g (bind inputs args) outputs outs /\
     run_list packV fieldV oprun (b_data b) (b_insts b) (frame_stack lo args bs)
     = Done tt (frame_stack lo outs bs)) \/
  (exists fr, run_list packV fieldV oprun (b_data b) (b_insts b) (frame_stack lo args bs)
     = Throw (frame_stack lo fr bs) /\
     forall outs, ~ dens packV fieldV oprun g (bind inputs args) outputs outs).
Proof.
  intros Hac Hleaf Hop Hnd Hpar Hc.
  destruct (compile_inv _ _ Hac Hc) as (refs & st & Hrefs & El & Ee).
  pose proof (acyclic_irr Hac) as Hirr.
  assert (Hb : b_nargs b = length inputs /\ b_nresults b = length outputs /\ b_data b = data st).
  { unfold epilogue in Ee. destruct (forallb _ _); [|discriminate]. injection Ee as <-. auto. }
  destruct Hb as (Hb1 & Hb2 & Hb3). split; [auto|split; [auto|]].
  intros args lo bs Hl.
  destruct (loop_correct supported output_count g outputs refs Hirr Hrefs packV fieldV oprun
             (bind inputs args) Hop fuel st Hac El) as (HI & [_ Hcor] & Hu).
  pose proof (unsolved_zero g outputs st HI Hu) as Hk.
  destruct (epilogue_run g outputs packV fieldV oprun inputs st b args lo bs Hnd Hl Hk Ee)
    as (vals & Hv & E1 & E2).
  change (frame_stack lo args bs) with (fs lo args bs).
  rewrite E1.
  - specialize (Hcor [] vals lo bs Hv). rewrite app_nil_r in Hcor. rewrite Hb3. exact Hcor.
  - destruct Hpar as [->|(p & Hp & Hpu)]; [now left|right].
    destruct (loop_keeps fuel refs st p Hac Hleaf Hrefs (or_introl Hp) Hpu El) as [Hin _].
    intros Hz. rewrite Hz in Hin. destruct Hin.
Qed.

Lemma compile_once fuel b :
  acyclic g -> leaves_ok g ->
  compile fuel g inputs outputs = COk b ->
  exists order,
    NoDup order /\
    (forall n, In n order <-> used g outputs n /\ is_operator g n) /\
    Forall2 (evaluates g) order (filter computes (b_insts b)) /\
    (forall pre n post, order = pre ++ n :: post ->
       forall m, In m (ins g n) -> is_operator g m -> In m pre).
Proof.
  intros Hac Hleaf Hc.
  destruct (compile_inv _ _ Hac Hc) as (refs & st & Hrefs & El & Ee).
  pose proof (acyclic_irr Hac) as Hirr. destruct Hac as [rank HR].
  destruct (init_inv g outputs) as (A & B & C & D).
  destruct (loop_ind supported output_count g outputs refs Hirr Hrefs (once supported output_count g outputs)
     (once_step supported output_count g outputs rank HR Hleaf) fuel _ st A
     (once_init supported output_count g outputs) El) as (HI & (E & Hn & Hev & Hin & Hcov & Htopo) & Hu).
  pose proof (unsolved_zero g outputs st HI Hu) as Hk.
  assert (Hf : filter computes (b_insts b) = rev (filter computes (insts st))).
  { unfold epilogue in Ee. destruct (forallb _ _); [|discriminate]. injection Ee as <-. simpl.
    assert (Hrev : forall l : list (instr Opr), filter computes (rev l) = rev (filter computes l)).
    { induction l as [|x l IH]; simpl; auto. rewrite filter_app, IH. simpl.
      destruct (computes x); simpl; auto. apply app_nil_r. }
    rewrite Hrev. f_equal. destruct (nodes_eqb _ _); auto.
    rewrite filter_app. simpl.
    assert (Hz : forall f (l : list node), filter computes (map (fun n => @IPush Opr (f n)) l) = []).
    { induction l; simpl; auto. }
    rewrite (Hz (fun n => Z.of_nat _)). apply app_nil_r. }
  exists (rev E). split; [now apply NoDup_rev|]. split; [|split].
  - intros n. rewrite <- in_rev. split.
    + intros H. destruct (Hin n H) as (? & (? & _) & _). auto.
    + intros [Hus Ho]. destruct (Hcov n Hus Ho) as [H|(m & Hm & Hmr)]; auto. exfalso.
      specialize (Hk m Hm). apply param_reaches_self in Hmr; auto. subst m.
      unfold is_operator in Ho. now rewrite Hk in Ho.
  - rewrite Hf. clear -Hev. induction Hev; simpl; auto. apply Forall2_app; auto.
  - intros pre n post Heq m Hm Hmo.
    assert (Heq' : E = rev post ++ n :: rev pre).
    { rewrite <- (rev_involutive E), Heq, rev_app_distr. simpl. now rewrite <- app_assoc. }
    assert (HnE : In n E) by (rewrite Heq'; apply in_or_app; right; now left).
    destruct (Hin n HnE) as (Hus & (Hno & _) & _).
    assert (Hmu : used g outputs m).
    { destruct Hus as (o & Ho & Hor). exists o. split; auto. eapply reach_in; eauto. }
    assert (HmE : In m E).
    { destruct (Hcov m Hmu Hmo) as [H|(k & Hk1 & Hk2)]; auto. exfalso.
      specialize (Hk k Hk1). apply param_reaches_self in Hk2; auto. subst k.
      unfold is_operator in Hmo. now rewrite Hk in Hmo. }
    rewrite Heq' in HmE. apply in_app_iff in HmE as [HmE|[->|HmE]].
    + exfalso. apply in_split in HmE as (p1 & p2 & Hp).
      assert (Hinp : In n p1).
      { apply (Htopo p1 m (p2 ++ n :: rev pre)); auto.
        - rewrite Heq', Hp, <- app_assoc. reflexivity.
        - exists m. split; auto. constructor. }
      rewrite Heq' in Hn. apply NoDup_remove_2 in Hn. apply Hn. apply in_or_app. left.
      rewrite Hp. apply in_or_app. now left.
    + exfalso. apply (Hirr m). exists m. split; auto. constructor.
    + now rewrite <- in_rev in HmE.
Qed.

Lemma compile_terminates : acyclic g -> leaves_ok g ->
  exists N, forall fuel, N <= fuel -> compile fuel g inputs outputs <> CFuel.
Proof.
  intros [rank HR] Hleaf.
  destruct (init_inv g outputs) as (A & B & C & D).
  set (M := lsum (map rank outputs)).
  exists (Ws g rank outputs + measure g rank M (init_state g outputs)).
  intros fuel Hf. unfold CompilerModel.compile.
  destruct (list_reference_nodes_terminates g rank outputs fuel HR ltac:(lia)) as [sched Hs].
  rewrite Hs.
  assert (Hl : loop supported output_count fuel g (build_refs g sched []) (init_state g outputs) <> CFuel).
  { apply (loop_terminates supported output_count g outputs (build_refs g sched []) rank HR) with (M := M); auto.
    - intros n Hn. eapply build_node_refs_exact; eauto. eapply list_reference_nodes_ok; eauto.
    - lia. }
  destruct (loop _ _ _ _ _ _); try congruence.
  unfold epilogue. destruct (forallb _ _); discriminate.
Qed.

Lemma compile_complete : acyclic g -> leaves_ok g ->
  exists N, forall fuel, N <= fuel ->
    (acceptable supported output_count g inputs outputs <-> exists b, compile fuel g inputs outputs = COk b).
Proof.
  intros Hac Hleaf. destruct (compile_terminates Hac Hleaf) as [N HN].
  exists N. intros fuel Hf. specialize (HN fuel Hf). split.
  - intros Hacc.
    assert (Hcomp : compilable supported output_count g outputs).
    { intros n Hn. specialize (Hacc n Hn). unfold is_operator, CompilerModel.convert_op.
      destruct (kind g n); split; try discriminate; try tauto.
      - intros _. destruct Hacc as [-> ->]. discriminate.
      - intros _. destruct Hacc as [-> H]. simpl. destruct (Z.leb_spec 0 off); [discriminate|lia]. }
    pose proof (acyclic_irr Hac) as Hirr. destruct Hac as [rank HR].
    destruct (init_inv g outputs) as (A & B & C & D).
    unfold CompilerModel.compile in *.
    destruct (list_reference_nodes fuel g outputs) as [sched|] eqn:Es; [|congruence].
    assert (Hrefs : forall n, reachable g outputs n -> refs_exact g (build_refs g sched []) n).
    { intros n Hn. eapply build_node_refs_exact; eauto. eapply list_reference_nodes_ok; eauto. }
    pose proof (loop_total supported output_count g outputs _ rank HR Hrefs Hcomp fuel _ A) as Hl.
    destruct (loop _ _ _ _ _ _) as [st| |] eqn:El; try congruence.
    destruct (loop_ind supported output_count g outputs _ Hirr Hrefs (fun _ => True)
                ltac:(auto) fuel _ st A I El) as (HI & _ & Hu).
    pose proof (unsolved_zero g outputs st HI Hu) as Hk.
    unfold epilogue in *. destruct (forallb _ _) eqn:Hfa; [eauto|]. exfalso.
    assert (Ht : forallb (fun n => memb n inputs) (sim st) = true).
    { apply forallb_forall. intros n Hn. apply memb_In.
      specialize (Hacc n (ci_reach _ _ _ HI n Hn)). now rewrite (Hk n Hn) in Hacc. }
    congruence.
  - intros [b Hc] n Hn.
    destruct (compile_inv _ _ Hac Hc) as (refs & st & Hrefs & El & Ee).
    pose proof (acyclic_irr Hac) as Hirr. pose proof Hac as [rank HR].
    destruct (init_inv g outputs) as (A & B & C & D).
    destruct (loop_ind supported output_count g outputs refs Hirr Hrefs (once supported output_count g outputs)
     (once_step supported output_count g outputs rank HR Hleaf) fuel _ st A
     (once_init supported output_count g outputs) El) as (HI & (E & Hnd & Hev & Hin & Hcov & Htopo) & Hu).
    pose proof (unsolved_zero g outputs st HI Hu) as Hk.
    assert (Hconv : is_operator g n -> CompilerModel.convert_op supported output_count g n <> None).
    { intros Ho. destruct (Hcov n Hn Ho) as [H|(m & Hm & Hmr)].
      - destruct (Hin n H) as (_ & (_ & Hx) & _). exact Hx.
      - exfalso. specialize (Hk m Hm). apply param_reaches_self in Hmr; auto. subst m.
        unfold is_operator in Ho. now rewrite Hk in Ho. }
    unfold is_operator, CompilerModel.convert_op in Hconv.
    destruct (kind g n) eqn:Hkn; auto.
    + destruct (loop_keeps fuel refs st n Hac Hleaf Hrefs (or_introl Hkn) Hn El) as [Hi _].
      unfold epilogue in Ee. destruct (forallb _ _) eqn:Hfa; [|discriminate].
      rewrite forallb_forall in Hfa. apply memb_In. auto.
    + destruct (loop_keeps fuel refs st n Hac Hleaf Hrefs (or_intror Hkn) Hn El) as [_ Hi]. congruence.
    + specialize (Hconv I). destruct (supported o); simpl in Hconv; [|tauto].
      destruct (Z.eqb_spec (output_count o) 1); tauto.
    + specialize (Hconv I). destruct (Nat.eqb_spec (length (ins g n)) 1); simpl in Hconv; [|tauto].
      destruct (Z.leb_spec 0 off); tauto.
Qed.

End CompilerProofs3.

Lemma den_const_det {V Opr} packV fieldV oprun (g : graph V Opr) env outputs outs outs' :
  Forall2 (fun n v => kind g n = KConst v) outputs outs ->
  dens packV fieldV oprun g env outputs outs' -> outs' = outs.
Proof.
  intros H. revert outs'. induction H as [|n v ns vs Hk _ IH]; intros outs' D; inversion D; subst; auto.
  f_equal; auto. apply den_inv in H1 as [[K _]|[K|[K _]]]; try congruence. rewrite Hk in K. tauto.
Qed.

Lemma compile_const_outputs :
  forall (V Opr : Type) (supported : Opr -> bool) (output_count : Opr -> Z)
         (g : graph V Opr) (outputs : list node)
         (packV : list V -> V) (fieldV : V -> Z -> option V) (oprun : Opr -> list V -> opres V)
         (fuel : nat) (b : block V Opr) (outs : list V),
  acyclic g -> leaves_ok g -> ops_have_inputs g outputs ->
  compile supported output_count fuel g [] outputs = COk b ->
  Forall2 (fun n v => kind g n = KConst v) outputs outs ->
  run_list packV fieldV oprun (b_data b) (b_insts b) (frame_stack [] [] []) = Done tt (frame_stack [] outs []).
Proof.
  intros V Opr supported output_count g outputs packV fieldV oprun fuel b outs Hac Hl Ho Hc Hk.
  destruct (compile_correct supported output_count g [] outputs packV fieldV oprun fuel b Hac Hl Ho
     (NoDup_nil _) (or_introl eq_refl) Hc) as (_ & _ & H).
  destruct (H [] [] [] eq_refl) as [(outs' & D & E)|(fr & E & Hno)].
  - rewrite E. now rewrite (den_const_det _ _ _ _ _ _ _ _ Hk D).
  - exfalso. apply (Hno outs). clear -Hk. induction Hk; constructor; auto. now apply den_const.
Qed.

