(** Launching programs. *)
From Coq Require Import List ZArith Bool Lia Arith.
From Verif Require Import StackModel StackProofs CompilerSpec IntimeModel IntimeProofs WorkbenchModel WorkbenchSpec.
Import ListNotations.

Section WorkbenchProofs.
Context {V Opr : Type}.
Variable packV : list V -> V.
Variable fieldV : V -> Z -> option V.
Variable oprun : Opr -> list V -> opres V.
Variable adjust : V -> option V.
Notation program := (program V Opr).
Notation body := (body packV fieldV oprun).
Notation body_fails := (body_fails packV fieldV oprun).
Notation launches := (launches packV fieldV oprun adjust).
Notation prepared := (prepared packV fieldV oprun adjust).
Notation filtered := (filtered packV fieldV oprun adjust).
Notation well_formed := (well_formed packV fieldV oprun).
Notation launch_online := (launch_online packV fieldV oprun adjust).
Notation launch_offline := (launch_offline packV fieldV oprun adjust).
Notation prepare := (prepare adjust).
Notation run_filter := (run_filter adjust).

Lemma fs_frame_stack (lo fr : list V) bs : frame_stack lo fr bs = fs lo fr bs.
Proof. reflexivity. Qed.

Lemma push_fs (lo fr : list V) bs v : push (fs lo fr bs) v = fs lo (fr ++ [v]) bs.
Proof. unfold push, with_cells, fs. simpl. now rewrite app_assoc. Qed.

Lemma index_neg_fs (lo a b : list V) x bs n : n = length (x :: b) ->
  index (fs lo (a ++ x :: b) bs) (- Z.of_nat n) = Some x.
Proof.
  intros ->. unfold index, rel2abs, fs. simpl cells.
  destruct (Z.leb_spec 0 (- Z.of_nat (length (x :: b)))); [simpl in *; lia|].
  rewrite !app_length. simpl length.
  destruct (Z.ltb_spec (Z.of_nat (length lo + (length a + S (length b))) + - Z.of_nat (S (length b))) 0); [lia|].
  replace (Z.to_nat _) with (length (lo ++ a) + 0) by (rewrite app_length; lia).
  rewrite app_assoc, nth_error_app2 by lia.
  replace (length (lo ++ a) + 0 - length (lo ++ a)) with 0 by lia. reflexivity.
Qed.

Lemma erase1_m2_fs (lo a : list V) x y bs :
  erase1 (fs lo (a ++ [x; y]) bs) (-2) = Done tt (fs lo (a ++ [y]) bs).
Proof.
  unfold erase1, rel2abs, fs. simpl cells. change (0 <=? -2)%Z with false. cbv iota.
  rewrite !app_length. simpl length.
  destruct (Z.leb_spec 0 (Z.of_nat (length lo + (length a + 2)) + -2)); [|lia].
  destruct (Z.ltb_spec (Z.of_nat (length lo + (length a + 2)) + -2) (Z.of_nat (length lo + (length a + 2)))); [|lia].
  cbn [andb]. unfold with_cells. cbn [base bases]. f_equal. f_equal.
  replace (Z.to_nat _) with (length (lo ++ a)) by (rewrite app_length; lia).
  replace (firstn (length (lo ++ a)) (lo ++ a ++ [x; y])) with (lo ++ a).
  - replace (S (length (lo ++ a))) with (length ((lo ++ a) ++ [x])) by (rewrite !app_length; simpl; lia).
    replace (lo ++ a ++ [x; y]) with (((lo ++ a) ++ [x]) ++ [y]) by now rewrite <- !app_assoc.
    rewrite skipn_app, skipn_all, Nat.sub_diag. simpl. now rewrite <- app_assoc.
  - rewrite app_assoc. replace (length (lo ++ a)) with (length (lo ++ a) + 0) by lia.
    rewrite firstn_app_2. simpl. now rewrite app_nil_r.
Qed.

Lemma erase_front_fs (lo a b : list V) bs :
  erase (fs lo (a ++ b) bs) 0 (Z.of_nat (length a)) = Done tt (fs lo b bs).
Proof.
  unfold erase, rel2abs, fs. simpl cells. simpl base. change (0 <=? 0)%Z with true. cbv iota.
  destruct (Z.leb_spec 0 (Z.of_nat (length a))); [|lia].
  rewrite !app_length.
  destruct (Z.leb_spec 0 (Z.of_nat (length lo) + 0)); [|lia].
  destruct (Z.leb_spec (Z.of_nat (length lo) + 0) (Z.of_nat (length lo) + Z.of_nat (length a))); [|lia].
  destruct (Z.leb_spec (Z.of_nat (length lo) + Z.of_nat (length a)) (Z.of_nat (length lo + (length a + length b)))); [|lia].
  simpl. unfold with_cells. simpl. f_equal. f_equal.
  replace (Z.to_nat (Z.of_nat (length lo) + 0)) with (length lo + 0) by lia.
  rewrite firstn_app_2. simpl. rewrite app_nil_r. f_equal.
  replace (Z.to_nat _) with (length (lo ++ a)) by (rewrite app_length; lia).
  rewrite app_assoc, skipn_app, skipn_all, Nat.sub_diag. reflexivity.
Qed.

(** push_base(-n) when the top n values are the arguments *)
Lemma push_base_args (lo pre args : list V) bs : 1 <= length args \/ pre = [] ->
  push_base (fs lo (pre ++ args) bs) (- Z.of_nat (length args)) = Done tt (fs (lo ++ pre) args (length lo :: bs)).
Proof.
  intros H. destruct args as [|a args].
  - destruct H as [H| ->]; [simpl in H; lia|]. simpl.
    unfold push_base, rel2abs, fs. simpl.
    destruct (Z.leb_spec 0 (Z.of_nat (length lo) + 0)); [|lia].
    f_equal. rewrite !app_nil_r. f_equal. lia.
  - apply push_base_fs. simpl. lia.
Qed.

Lemma run_cast_fs c (lo pre : list V) v bs :
  (forall c0, c = Some c0 -> forall v fr k, c0 [v] = ORet fr k -> k = 1%Z) ->
  (exists w, casted c v w /\ (forall w', casted c v w' -> w' = w) /\ run_cast c (fs lo (pre ++ [v]) bs) = Done tt (fs lo (pre ++ [w]) bs)) \/
  ((forall w, ~ casted c v w) /\ exists fr, run_cast c (fs lo (pre ++ [v]) bs) = Throw (fs lo (pre ++ fr) bs)).
Proof.
  intros Hc. destruct c as [c|]; simpl.
  - specialize (Hc c eq_refl v). unfold cast_tensor, run_operator. rewrite size_fs, app_length. simpl length.
    destruct (Z.ltb_spec (Z.of_nat (length pre + 1)) 1); [lia|].
    pose proof (push_base_fs lo pre [v] bs ltac:(simpl; lia)) as Hp. simpl length in Hp.
    change (- Z.of_nat 1)%Z with (- (1))%Z in Hp. rewrite Hp.
    rewrite apply_op_fs. destruct (c [v]) as [fr k|fr] eqn:E.
    + rewrite (Hc fr k eq_refl). rewrite size_fs.
      destruct (Z.ltb_spec (Z.of_nat (length fr)) 1).
      * right. assert (fr = []) as -> by (destruct fr; [auto|simpl in *; lia]).
        split; [intros w (fr & Hw); injection Hw as Hw; destruct fr; discriminate|].
        exists []. unfold pop_base, fs. simpl. now rewrite !app_nil_r.
      * left. destruct fr as [|y fr'] using rev_ind; [simpl in *; lia|]. clear IHfr'.
        exists y. split; [now exists fr'|].
        split; [intros w' (fr2 & Hw'); injection Hw' as Hw'; now apply app_inj_tail in Hw'|].
        change (- (1))%Z with (- Z.of_nat (length [y]))%Z. rewrite erase_fs_keep by (simpl; lia). simpl.
        unfold pop_base, fs. simpl. now rewrite app_assoc.
    + right. split; [intros w (fr' & Hw); discriminate|].
      exists fr. unfold pop_base, fs. simpl. now rewrite app_assoc.
  - left. exists v. auto.
Qed.

(** What is shown of a program [q] used as a filter. *)
Definition online_ok (q : program) : Prop :=
  forall lo pre args bs, 1 <= length args \/ pre = [] ->
  (exists outs, launches q args outs /\ (forall outs', launches q args outs' -> outs' = outs) /\
     launch_online q (length args) (fs lo (pre ++ args) bs)
     = Done (Z.of_nat (length outs)) (fs lo (pre ++ outs) bs)) \/
  ((forall outs, ~ launches q args outs) /\
   exists fr, launch_online q (length args) (fs lo (pre ++ args) bs) = Throw (fs lo (pre ++ fr) bs)).

Lemma filtered_inv q v w : filtered (Some q) v w -> exists a, adjust v = Some a /\ launches q [a] [w].
Proof. intros H. inversion H; subst. eauto. Qed.

Lemma prepared_inv flt cst cfg v vs xs : prepared ((flt, cst) :: cfg) (v :: vs) xs ->
  exists w x xs', xs = x :: xs' /\ filtered flt v w /\ casted cst w x /\ prepared cfg vs xs'.
Proof. intros H. inversion H; subst. eauto 10. Qed.

Lemma prepared_length cfg : forall vs xs, prepared cfg vs xs -> length xs = length vs.
Proof.
  induction cfg as [|[flt cst] cfg IH]; intros vs xs H.
  - now inversion H.
  - inversion H; subst. simpl. f_equal. auto.
Qed.

Lemma launches_inv p args outs : launches p args outs ->
  exists ready, length args = p_nin p /\ prepared (p_cfg p) args ready /\ body p ready outs /\ length outs = p_nout p.
Proof. intros H. inversion H; subst. eauto 10. Qed.

Lemma launches_nout q args outs : launches q args outs -> length outs = p_nout q.
Proof. intros H. inversion H; auto. Qed.

Lemma run_filter_fs flt (lo pre : list V) v bs :
  (forall q, flt = Some q -> p_nout q = 1 /\ online_ok q) ->
  (exists w, filtered flt v w /\ (forall w', filtered flt v w' -> w' = w) /\ run_filter launch_online flt v (fs lo (pre ++ [v]) bs) = Done tt (fs lo (pre ++ [w]) bs)) \/
  ((forall w, ~ filtered flt v w) /\
   exists fr, run_filter launch_online flt v (fs lo (pre ++ [v]) bs) = Throw (fs lo (pre ++ fr) bs)).
Proof.
  intros Hq. destruct flt as [q|]; simpl.
  - destruct (Hq q eq_refl) as [Hn Hok]. clear Hq.
    destruct (adjust v) as [a|] eqn:Ea.
    + rewrite push_fs. rewrite <- app_assoc. simpl app. rewrite erase1_m2_fs.
      destruct (Hok lo pre [a] bs ltac:(simpl; lia)) as [(outs & Hl & Hu & E)|(Hno & fr & E)]; simpl length in E; rewrite E.
      * left. pose proof (launches_nout _ _ _ Hl) as H1. rewrite Hn in H1.
        destruct outs as [|w [|]]; try discriminate. exists w. split; [econstructor; eauto|]. split; auto.
        intros w' Hw'. apply filtered_inv in Hw' as (a' & Ha & Hw'). rewrite Ea in Ha. injection Ha as <-. apply Hu in Hw'. now injection Hw'.
      * right. split; [|eauto]. intros w Hw. apply filtered_inv in Hw as (a' & Ha & Hw). rewrite Ea in Ha. injection Ha as <-.
        now apply (Hno [w]).
    + right. split; [intros w Hw; apply filtered_inv in Hw as (a' & Ha & Hw); congruence|]. exists [v]. reflexivity.
  - left. exists v. split; [constructor|]. split; [intros w' Hw'; now inversion Hw'|reflexivity].
Qed.

Lemma prepare_fs nargs cfg : forall args done ready (lo : list V) bs,
  nargs = length done + length args -> length ready = length done ->
  length cfg = length args ->
  (forall flt c, In (flt, Some c) cfg -> forall v fr k, c [v] = ORet fr k -> k = 1%Z) ->
  (forall q c, In (Some q, c) cfg -> p_nout q = 1 /\ online_ok q) ->
  (exists xs, prepared cfg args xs /\ (forall xs', prepared cfg args xs' -> xs' = xs) /\
     prepare launch_online nargs cfg (length args) (fs lo (done ++ args ++ ready) bs)
     = Done tt (fs lo (done ++ args ++ ready ++ xs) bs)) \/
  ((forall xs, ~ prepared cfg args xs) /\
   exists fr, prepare launch_online nargs cfg (length args) (fs lo (done ++ args ++ ready) bs) = Throw (fs lo fr bs)).
Proof.
  induction cfg as [|[flt cst] cfg IH]; intros args done ready lo bs Hn Hr Hl Hc Hq.
  - destruct args; [|discriminate]. left. exists []. split; [constructor|].
    split; [intros xs' Hx; now inversion Hx|]. simpl. now rewrite app_nil_r.
  - destruct args as [|v args]; [discriminate|]. simpl in Hl. simpl prepare. simpl app.
    rewrite index_neg_fs by (simpl in *; rewrite app_length; lia). rewrite push_fs.
    replace ((done ++ v :: args ++ ready) ++ [v]) with ((done ++ v :: args ++ ready) ++ [v]) by auto.
    destruct (run_filter_fs flt lo (done ++ v :: args ++ ready) v bs) as [(w & Hw & Uw & Ew)|(Hno & fr & Ew)].
    { intros q ->. apply (Hq q cst). now left. }
    + rewrite Ew.
      destruct (run_cast_fs cst lo (done ++ v :: args ++ ready) w bs) as [(x & Hx & Ux & Ex)|(Hno & fr & Ex)].
      { intros c ->. apply (Hc flt c). now left. }
      * rewrite Ex.
        specialize (IH args (done ++ [v]) (ready ++ [x]) lo bs).
        assert (E : (done ++ [v]) ++ args ++ ready ++ [x] = (done ++ v :: args ++ ready) ++ [x]).
        { rewrite <- !app_assoc; simpl; now rewrite <- !app_assoc. }
        rewrite E in IH.
        destruct IH as [(xs & Hxs & Uxs & Exs)|(Hno & fr & Exs)].
        -- rewrite app_length. simpl in *. lia.
        -- rewrite !app_length. simpl. lia.
        -- lia.
        -- intros; eapply Hc; [right|]; eauto.
        -- intros; eapply Hq; right; eauto.
        -- left. exists (x :: xs). split; [econstructor; eauto|].
           split.
           { intros xs0 Hxs0. apply prepared_inv in Hxs0 as (w1 & x1 & xs1 & -> & H1 & H2 & H3).
             apply Uw in H1. subst. apply Ux in H2. subst. f_equal. now apply Uxs. }
           rewrite Exs. f_equal. f_equal.
           now rewrite <- !app_assoc.
        -- right. split; [|eauto]. intros xs Hxs. apply prepared_inv in Hxs as (w1 & x1 & xs1 & -> & H1 & H2 & H3). eapply Hno; eauto.
      * rewrite Ex. right. split; [|eauto]. intros xs Hxs. apply prepared_inv in Hxs as (w1 & x1 & xs1 & -> & H1 & H2 & H3).
        apply Uw in H1. subst. now apply (Hno x1).
    + rewrite Ew. right. split; [|eauto]. intros xs Hxs.
      apply prepared_inv in Hxs as (w1 & x1 & xs1 & -> & H1 & H2 & H3). eapply Hno; eauto.
Qed.

Lemma program_ind' (P : program -> Prop) :
  (forall insts data nin nout cfg,
     (forall q c, In (Some q, c) cfg -> P q) -> P (Program insts data nin nout cfg)) ->
  forall p, P p.
Proof.
  intros H. fix IH 1. intros [insts data nin nout cfg]. apply H.
  induction cfg as [|[flt cst] cfg IHc]; [intros ? ? []|].
  intros q c [E|Hin].
  - destruct flt as [q'|]; [|discriminate]. injection E as <- _. apply IH.
  - eapply IHc; eauto.
Qed.

Lemma launch_online_fs p : well_formed p -> online_ok p.
Proof.
  induction p as [insts data nin nout cfg IH] using program_ind'. intros Hwf.
  inversion Hwf as [p0 Hcfg Hbody Hcast Hflt]; subst p0. simpl in *.
  intros lo pre args bs Hargs. set (p := Program insts data nin nout cfg) in *. simpl.
  destruct (Nat.eqb_spec nin (length args)) as [Hn|Hn].
  2:{ right. split; [intros outs Ho; apply launches_inv in Ho as (rd & H1 & _); simpl in *; congruence|].
      exists args. reflexivity. }
  cbn [negb]. rewrite size_fs, app_length.
  destruct (Z.ltb_spec (Z.of_nat (length pre + length args)) (Z.of_nat (length args))); [lia|].
  rewrite push_base_args by auto.
  destruct (prepare_fs (length args) cfg args [] [] (lo ++ pre) (length lo :: bs)) as [(xs & Hx & Ux & E)|(Hno & fr & E)];
    try (simpl; lia); try congruence; auto.
  { intros q c Hin. destruct (Hflt q c Hin) as (H1 & H2 & H3). split; auto. eapply IH; eauto. }
  - simpl in E. rewrite app_nil_r in E. rewrite E. unfold finish. rewrite erase_front_fs.
    assert (Hlx : length xs = length args).
    { eapply prepared_length; eauto. }
    destruct (Hbody xs ltac:(congruence)) as [(outs & Hb)|Hf].
    + pose proof (Hb (lo ++ pre) (length lo :: bs)) as Hr. simpl in Hr. rewrite fs_frame_stack in Hr. rewrite Hr.
      rewrite fs_frame_stack, size_fs.
      assert (Hlau : forall outs', launches p args outs' -> outs' = outs).
      { intros outs' Ho. apply launches_inv in Ho as (rd & _ & H1 & H2 & _). apply Ux in H1. subst.
        specialize (H2 [] []). rewrite (Hb [] []) in H2. injection H2. auto. }
      destruct (Z.eqb_spec (Z.of_nat (length outs)) (Z.of_nat nout)) as [Ho|Ho]; cbn [negb base_guard].
      * left. exists outs. split; [|split; auto].
        { econstructor; eauto; simpl; auto; lia. }
        unfold pop_base, fs. simpl. now rewrite app_assoc.
      * right. split.
        { intros outs' Ho'. pose proof (Hlau _ Ho') as ->. inversion Ho'; subst. simpl in *. lia. }
        exists outs. unfold pop_base, fs. simpl. now rewrite app_assoc.
    + right. split.
      { intros outs' Ho. apply launches_inv in Ho as (rd & _ & H1 & H2 & _). apply Ux in H1. subst. destruct (Hf [] []) as (fr & Hfr).
        specialize (H2 [] []). rewrite Hfr in H2. discriminate. }
      destruct (Hf (lo ++ pre) (length lo :: bs)) as (fr & Hfr). simpl in Hfr. rewrite fs_frame_stack in Hfr. rewrite Hfr.
      exists fr. unfold base_guard, pop_base, frame_stack, fs. simpl. now rewrite app_assoc.
  - right. split.
    { intros outs' Ho. apply launches_inv in Ho as (rd & _ & H1 & H2 & _). eapply Hno; eauto. }
    simpl in E. rewrite app_nil_r in E. rewrite E. exists fr. unfold base_guard, pop_base, fs. simpl. now rewrite app_assoc.
Qed.

Lemma launch_offline_fs p args lo pre bs : well_formed p ->
  (exists outs, launches p args outs /\ launch_offline p args (fs lo pre bs) = Done outs (fs lo pre bs)) \/
  ((forall outs, ~ launches p args outs) /\ launch_offline p args (fs lo pre bs) = Throw (fs lo pre bs)).
Proof.
  intros Hwf. unfold WorkbenchModel.launch_offline. rewrite push_base_size_fs, push_all_fs.
  destruct (launch_online_fs p Hwf (lo ++ pre) [] args (length lo :: bs) (or_intror eq_refl))
    as [(outs & Hl & _ & E)|(Hno & fr & E)]; rewrite E.
  - left. exists outs. split; auto. unfold guarded. rewrite frame_fs, leave_fs, Nat2Z.id. simpl app.
    now rewrite firstn_all.
  - right. split; auto. unfold guarded. now rewrite leave_fs.
Qed.
End WorkbenchProofs.
