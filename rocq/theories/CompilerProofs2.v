(** Compiler: single evaluation, termination, completeness, prologue. *)
From Coq Require Import List ZArith Bool Lia Arith Permutation.
From Verif Require Import StackModel GraphSpec GraphModel CompilerModel CompilerSpec
  GraphProofs StackProofs CompilerProofs.
Import ListNotations.

Ltac split5 := split; [|split; [|split; [|split]]].

Section CompilerProofs2.
Context {V Opr : Type}.
Notation graph := (graph V Opr).
Notation instr := (instr Opr).
Notation cstate := (cstate V Opr).
Variable supported : Opr -> bool.
Variable output_count : Opr -> Z.
Variable g : graph.
Notation step := (@CompilerModel.step V Opr supported output_count g).
Notation convert_op := (@CompilerModel.convert_op V Opr supported output_count g).
Notation loop := (@CompilerModel.loop V Opr supported output_count).
Notation compile := (@CompilerModel.compile V Opr supported output_count).
Notation stepR := (stepR supported output_count g).
Variable outputs : list node.
Variable refs : list (node * list node).
Variable rank : node -> nat.
Hypothesis HR : forall n m, In m (ins g n) -> rank m < rank n.
Hypothesis Hrefs : forall n, reachable g outputs n -> refs_exact g refs n.

Lemma irr : forall n, ~ depends g n n.
Proof. intros n H. apply (depends_rank g rank _ _ HR) in H. lia. Qed.

Lemma reach_inv a b : reach g a b -> a = b \/ depends g a b.
Proof. intros H. inversion H; subst; [now left|right]. exists m; auto. Qed.

Lemma convert_op_operator n is : convert_op n = Some is ->
  is_operator g n /\ exists i, is = [i] /\ evaluates g n i /\ computes i = true.
Proof.
  intros H. unfold is_operator, evaluates.
  apply convert_op_cases in H as [(o & -> & ->)|[(off & -> & -> & _)|(-> & ->)]]; split; eauto.
Qed.

(** *** each used operator evaluated exactly once, in dependency order *)
Definition once (st : cstate) : Prop :=
  exists E, NoDup E /\
    Forall2 (evaluates g) E (filter computes (insts st)) /\
    (forall e, In e E -> used g outputs e /\ (is_operator g e /\ convert_op e <> None) /\ forall m, In m (sim st) -> ~ reach g m e) /\
    (forall r, used g outputs r -> is_operator g r ->
        In r E \/ exists m, In m (sim st) /\ reach g m r) /\
    (forall pre n post, E = pre ++ n :: post ->
        forall r, used g outputs r -> is_operator g r -> depends g r n -> In r pre).

Lemma once_step : leaves_ok g -> forall st st' s n is,
  cinv g outputs st -> cinv g outputs st' -> once st -> sim st = s ++ [n] -> insts st' = insts st ++ is ->
  (exists ext, data st' = data st ++ ext) -> stepR (data st') s n is (sim st') -> once st'.
Proof.
  intros Hleaf st st' s n is HI HI' (E & Hnd & Hev & Hin & Hcov & Htopo) Hsim Hins _ HS.
  assert (Hn : used g outputs n).
  { apply (ci_reach _ _ _ HI). rewrite Hsim. apply in_or_app; right; now left. }
  assert (Hs : forall m, In m s -> In m (sim st)) by (intros; rewrite Hsim; apply in_or_app; now left).
  assert (Hns : In n (sim st)) by (rewrite Hsim; apply in_or_app; right; now left).
  unfold once. rewrite Hins, filter_app. remember (sim st') as s' eqn:Es.
  destruct HS as [p Hp|v k Hk Hd Hnin|a x b Hab Hnin Hxb Hor|is0 Hconv Hnin Hdep].
  - exists E. simpl. rewrite app_nil_r. split5; auto.
    + intros e He. destruct (Hin e He) as (A & B & C). auto.
    + intros r Hr Hop. destruct (Hcov r Hr Hop) as [H|(m & Hm & Hmr)]; auto. right.
      rewrite Hsim in Hm. apply in_app_iff in Hm as [Hm|[<-|[]]]; eauto.
      exists n. split; auto. eapply nth_error_In; eauto.
  - exists E. simpl. rewrite app_nil_r. split5; auto.
    + intros e He. destruct (Hin e He) as (A & B & C). auto.
    + intros r Hr Hop. destruct (Hcov r Hr Hop) as [H|(m & Hm & Hmr)]; auto. right.
      rewrite Hsim in Hm. apply in_app_iff in Hm as [Hm|[<-|[]]]; eauto.
      exfalso. assert (Hl : ins g n = []).
      { apply Hleaf. unfold is_operator. rewrite Hk. auto. }
      apply reach_inv in Hmr as [<-|(m & Hm & _)].
      * unfold is_operator in Hop. now rewrite Hk in Hop.
      * rewrite Hl in Hm. destruct Hm.
  - assert (Heq : forall m, In m (a ++ n :: b ++ [x]) <-> In m (sim st)).
    { intros m. rewrite Hsim, Hab. repeat first [rewrite in_app_iff | progress simpl]. tauto. }
    exists E. simpl. rewrite app_nil_r. split5; auto.
    + intros e He. destruct (Hin e He) as (A & B & C). split; [auto|split; auto].
      intros m Hm. apply Heq in Hm. auto.
    + intros r Hr Hop. destruct (Hcov r Hr Hop) as [H|(m & Hm & Hmr)]; auto. right.
      exists m. split; auto. now apply Heq.
  - destruct (convert_op_operator _ _ Hconv) as (Hop & i & -> & Hi & Hci).
    simpl. rewrite Hci.
    exists (E ++ [n]). split5.
    + apply (Permutation_NoDup (Permutation_app_comm [n] E)). simpl. constructor; auto.
      intros He. destruct (Hin n He) as (_ & _ & C). apply (C n Hns). constructor.
    + apply Forall2_app; auto.
    + intros e He. apply in_app_iff in He as [He|[<-|[]]].
      * destruct (Hin e He) as (A & B & C). split; [auto|split; auto]. intros m Hm.
        apply in_app_iff in Hm as [Hm|Hm]; auto.
        intros Hr. apply (C n Hns). econstructor; eauto.
      * split; [auto|split; [split; congruence||auto|]]. intros m Hm Hr. apply in_app_iff in Hm as [Hm|Hm].
        -- apply reach_inv in Hr as [->|Hr]; [tauto|]. exact (Hdep _ Hm Hr).
        -- apply (irr n). exists m. auto.
    + intros r Hr Hopr. rewrite in_app_iff. destruct (Hcov r Hr Hopr) as [H|(m & Hm & Hmr)]; auto.
      rewrite Hsim in Hm. apply in_app_iff in Hm as [Hm|[<-|[]]].
      * right. exists m. split; auto. apply in_or_app; now left.
      * apply reach_inv in Hmr as [->|(m & Hm & Hmr)]; [left; right; now left|].
        right. exists m. split; auto. apply in_or_app; now right.
    + intros pre n0 post Heq r Hr Hopr Hdr.
      destruct post as [|y post] using rev_ind.
      * apply app_inj_tail in Heq as [<- <-].
        destruct (Hcov r Hr Hopr) as [H|(m & Hm & Hmr)]; auto. exfalso.
        rewrite Hsim in Hm. apply in_app_iff in Hm as [Hm|[<-|[]]].
        -- apply (Hdep m Hm). apply reach_inv in Hmr as [->|(k & Hk & Hkr)]; auto.
           exists k. split; auto. eapply reach_trans; eauto. now apply depends_reach.
        -- destruct Hdr as (k & Hk & Hkr).
           apply reach_inv in Hmr as [->|(k' & Hk' & Hkr')].
           ++ apply (irr r). exists k; auto.
           ++ apply (irr n). exists k'. split; auto. eapply reach_trans; eauto. econstructor; eauto.
      * clear IHpost. rewrite app_comm_cons, app_assoc in Heq.
        apply app_inj_tail in Heq as [Heq <-]. eapply Htopo; eauto.
Qed.

Lemma once_init : once (init_state g outputs).
Proof.
  destruct (init_inv g outputs) as (A & B & C & D).
  exists []. rewrite B, D. simpl. split5.
  - constructor.
  - constructor.
  - intros e [].
  - intros r (o & Ho & Hr) _. right. eauto.
  - intros pre n post H. destruct pre; discriminate.
Qed.

(** *** a used parameter stays on the simulated stack *)
Definition keeps (p : node) (st : cstate) : Prop := exists m, In m (sim st) /\ reach g m p.

Lemma keeps_step p : leaves_ok g -> (kind g p = KParam \/ kind g p = KVariable) -> forall st st' s n is,
  cinv g outputs st -> cinv g outputs st' -> keeps p st -> sim st = s ++ [n] -> insts st' = insts st ++ is ->
  (exists ext, data st' = data st ++ ext) -> stepR (data st') s n is (sim st') -> keeps p st'.
Proof.
  intros Hleaf Hp st st' s n is _ _ (m & Hm & Hmr) Hsim _ _ HS. unfold keeps.
  rewrite Hsim in Hm. remember (sim st') as s' eqn:Es.
  destruct HS as [q Hq|v k Hk Hd Hnin|a x b Hab Hnin Hxb Hor|is0 Hconv Hnin Hdep].
  - apply in_app_iff in Hm as [Hm|[<-|[]]]; eauto. exists n. split; auto. eapply nth_error_In; eauto.
  - apply in_app_iff in Hm as [Hm|[<-|[]]]; eauto.
    exfalso. apply reach_inv in Hmr as [->|(m & Hm & _)]; [destruct Hp; congruence|].
    rewrite (Hleaf n) in Hm; [destruct Hm|]. unfold is_operator. rewrite Hk. auto.
  - exists m. split; auto. rewrite Hab in Hm.
    repeat first [rewrite in_app_iff in Hm | progress simpl in Hm].
    repeat first [rewrite in_app_iff | progress simpl]. tauto.
  - apply in_app_iff in Hm as [Hm|[<-|[]]].
    + exists m. split; auto. apply in_or_app; now left.
    + destruct (convert_op_operator _ _ Hconv) as (Hop & _).
      apply reach_inv in Hmr as [->|(m & Hm & Hmr)].
      * unfold is_operator in Hop. destruct Hp as [Hp|Hp]; rewrite Hp in Hop; tauto.
      * exists m. split; auto. apply in_or_app; now right.
Qed.

(** *** termination *)
Definition topmu (M : nat) (l : list node) : nat :=
  match rev l with
  | [] => 0
  | n :: _ => if is_param g n then S M else M - rank n
  end.
Definition measure (M : nat) (st : cstate) : nat :=
  Ws g rank (sim st) * (M + 2) + topmu M (sim st).

Lemma topmu_snoc M l n : topmu M (l ++ [n]) = if is_param g n then S M else M - rank n.
Proof. unfold topmu. rewrite rev_app_distr. reflexivity. Qed.

Lemma topmu_le M l : topmu M l <= S M.
Proof. unfold topmu. destruct (rev l) as [|n r]; [lia|]. destruct (is_param g n); lia. Qed.

Lemma rank_bound n : used g outputs n -> rank n <= lsum (map rank outputs).
Proof.
  intros (o & Ho & Hr). pose proof (reach_rank _ _ _ _ HR Hr).
  apply (Nat.le_trans _ (rank o)); auto. clear -Ho. induction outputs as [|x l IH]; [destruct Ho|].
  simpl. destruct Ho as [->|Ho]; [lia|]. specialize (IH Ho). lia.
Qed.

Lemma measure_step st st' s n is M :
  M = lsum (map rank outputs) -> leaves_ok g ->
  cinv g outputs st -> sim st = s ++ [n] ->
  stepR (data st') s n is (sim st') -> measure M st' < measure M st.
Proof.
  intros HM Hleaf HI Hsim HS. unfold measure.
  assert (Hw : forall a b, a < b -> a * (M + 2) + S M < b * (M + 2)).
  { intros a b Hab. assert (S a * (M + 2) <= b * (M + 2)) by (apply Nat.mul_le_mono_r; lia). simpl in H. lia. }
  assert (Hred : Ws g rank (sim st') < Ws g rank (sim st) ->
     Ws g rank (sim st') * (M + 2) + topmu M (sim st') < Ws g rank (sim st) * (M + 2) + topmu M (sim st)).
  { intros H. specialize (Hw _ _ H). pose proof (topmu_le M (sim st')). lia. }
  assert (W1 : forall m, Ws g rank [m] = W g rank m) by (intros; unfold Ws; simpl; lia).
  remember (sim st') as s' eqn:Es.
  destruct HS as [p Hp|v k Hk Hd Hnin|a x b Hab Hnin Hxb Hor|is0 Hconv Hnin Hdep].
  - apply Hred. rewrite Hsim, Ws_app, W1. pose proof (W_pos g rank n). lia.
  - apply Hred. rewrite Hsim, Ws_app, W1. pose proof (W_pos g rank n). lia.
  - assert (Hx : used g outputs x).
    { apply (ci_reach _ _ _ HI). rewrite Hsim, Hab. apply in_or_app. left. apply in_or_app; right; now left. }
    replace (Ws g rank (a ++ n :: b ++ [x])) with (Ws g rank (sim st)).
    2:{ rewrite Hsim, Hab. change (n :: b ++ [x]) with ([n] ++ b ++ [x]).
        change (x :: b) with ([x] ++ b). rewrite !Ws_app. lia. }
    apply Nat.add_lt_mono_l. rewrite Hsim, topmu_snoc.
    replace (a ++ n :: b ++ [x]) with ((a ++ n :: b) ++ [x]) by (rewrite <- app_assoc; reflexivity).
    rewrite topmu_snoc. pose proof (rank_bound _ Hx).
    destruct Hor as [[-> ->]|[-> Hd]]; [lia|].
    pose proof (depends_rank g rank _ _ HR Hd).
    destruct (is_param g x) eqn:Hpx; [|lia].
    exfalso. destruct Hd as (m & Hm & _). rewrite (Hleaf x) in Hm; [destruct Hm|].
    unfold is_operator, is_param in *. destruct (kind g x); try discriminate; auto.
  - apply Hred. rewrite Hsim, !Ws_app, W1, (W_unfold g rank HR n). lia.
Qed.

Lemma loop_terminates M : M = lsum (map rank outputs) -> leaves_ok g ->
  forall fuel st, cinv g outputs st -> measure M st <= fuel -> loop fuel g refs st <> CFuel.
Proof.
  intros HM Hleaf. induction fuel as [|fuel IH]; intros st HI Hm; simpl;
    destruct (unsolved st) eqn:Hu; try discriminate.
  - exfalso. assert (Hz : sim st = []).
    { destruct (sim st) as [|x l] eqn:E; auto. exfalso. unfold measure in Hm. rewrite E in Hm.
      pose proof (W_pos g rank x). unfold Ws in Hm. simpl in Hm. lia. }
    destruct HI as [_ I2 _ _]. rewrite Hz in I2. simpl in I2. congruence.
  - destruct (step refs st) as [st1|] eqn:Es; [|discriminate].
    destruct (step_spec _ _ _ _ _ _ _ irr Hrefs HI Es) as (s & m & is & A & B & C & D & F).
    apply IH; auto. pose proof (measure_step st st1 s m is M HM Hleaf HI A F). lia.
Qed.

(** *** completeness *)
Definition compilable : Prop :=
  forall n, used g outputs n -> kind g n <> KVariable /\
    (is_operator g n -> convert_op n <> None).

Lemma step_total st : compilable -> cinv g outputs st -> unsolved st <> 0 -> step refs st <> None.
Proof.
  intros Hc HI Hu. unfold CompilerModel.step. pose proof HI as [I1 I2 I3 I4].
  destruct (rev (sim st)) as [|n r] eqn:Hrev.
  { apply (f_equal (@rev node)) in Hrev. rewrite rev_involutive in Hrev. simpl in Hrev.
    rewrite Hrev in I2. simpl in I2. congruence. }
  apply rev_snoc_inv in Hrev.
  set (i := length (sim st) - 1).
  destruct (match lookup (working st) n with
            | Some p => if p <? i then Some p else None | None => None end);
    [discriminate|].
  assert (Hn : used g outputs n) by (apply I3; rewrite Hrev; apply in_or_app; right; now left).
  destruct (Hc n Hn) as [Hv Hop].
  assert (Hfin : is_operator g n -> match find_last (fun m => memb n (refs_of refs m)) (sim st) with
              | Some j => Some (sim_swap (emit st [ISwap (Z.of_nat i) (Z.of_nat j)]) i j)
              | None => match convert_op n with
                  | None => None
                  | Some is => Some (fold_left (sim_push g) (ins g n) (sim_pop g (emit st (rev is))))
                  end
              end <> None).
  { intros H. specialize (Hop H). destruct (find_last _ _); [discriminate|].
    destruct (convert_op n); [discriminate|tauto]. }
  unfold is_operator in Hfin.
  destruct (kind g n) eqn:Hk; try (apply Hfin; exact I).
  - destruct (find_last (fun m => negb (is_param g m)) (sim st)) eqn:Ef; [discriminate|].
    exfalso. apply Hu. rewrite I2.
    assert (filter (fun n => negb (is_param g n)) (sim st) = []).
    { pose proof (find_last_None _ _ Ef) as H. clear -H. induction (sim st) as [|x l IH]; simpl; auto.
      rewrite (H x (or_introl eq_refl)). apply IH. intros; apply H; now right. }
    now rewrite H.
  - destruct (push_data st n v). discriminate.
  - tauto.
Qed.

Lemma loop_total : compilable -> forall fuel st,
  cinv g outputs st -> loop fuel g refs st <> CErr.
Proof.
  intros Hc. induction fuel as [|fuel IH]; intros st HI; simpl;
    destruct (unsolved st) eqn:Hu; try discriminate.
  destruct (step refs st) as [st1|] eqn:Es.
  - destruct (step_spec _ _ _ _ _ _ _ irr Hrefs HI Es) as (s & m & is & A & B & C & D & F). auto.
  - exfalso. apply (step_total st Hc HI); congruence.
Qed.

(** *** the input prologue *)
Lemma input_index_spec : forall inputs m,
  NoDup inputs -> (forall n, In n inputs -> lookup m n = None) ->
  forall n, lookup (input_index inputs m) n =
    match lookup m n with
    | Some k => Some k
    | None => option_map (fun i => length m + i) (findex n inputs)
    end.
Proof.
  induction inputs as [|i inputs IH]; intros m Hnd Hm n; simpl.
  - destruct (lookup m n); auto.
  - inversion Hnd as [|? ? Hni Hnd']; subst.
    assert (Hi : map_insert m i (length m) = (i, length m) :: m).
    { unfold map_insert. now rewrite (Hm i (or_introl eq_refl)). }
    rewrite Hi, IH; auto.
    + simpl. destruct (Nat.eqb_spec n i) as [->|Hn].
      * rewrite (Hm i (or_introl eq_refl)). simpl. f_equal. lia.
      * destruct (lookup m n); auto. destruct (findex n inputs); simpl; auto; try (f_equal; lia).
    + intros k Hk. simpl. destruct (Nat.eqb_spec k i) as [->|]; [tauto|]. apply Hm. now right.
Qed.

Lemma bind_findex inputs : forall (args : list V) n i,
  length args = length inputs -> findex n inputs = Some i -> bind inputs args n = nth_error args i.
Proof.
  induction inputs as [|x inputs IH]; intros args n i Hl; simpl; [discriminate|].
  destruct args as [|a args]; simpl in *; [lia|].
  destruct (Nat.eqb_spec n x).
  - intros E; injection E as <-. reflexivity.
  - destruct (findex n inputs) eqn:E; simpl; [|discriminate]. intros E2; injection E2 as <-.
    simpl. apply IH; auto.
Qed.

Section Sem.
Variable packV : list V -> V.
Variable fieldV : V -> Z -> option V.
Variable oprun : Opr -> list V -> opres V.
Notation run := (run_list packV fieldV oprun).

Lemma bind_dens inputs (args : list V) : NoDup inputs -> length args = length inputs ->
  (forall n, In n inputs -> kind g n = KParam) ->
  dens packV fieldV oprun g (bind inputs args) inputs args.
Proof.
  intros Hnd Hl Hk.
  assert (G : forall pre pargs ns vs, inputs = pre ++ ns -> args = pargs ++ vs -> length pargs = length pre ->
     dens packV fieldV oprun g (bind inputs args) ns vs).
  { intros pre pargs ns. revert pre pargs. induction ns as [|n ns IH]; intros pre pargs vs Hi Ha Hlp.
    - assert (vs = []).
      { subst. rewrite !app_length in Hl. simpl in Hl. destruct vs; auto. simpl in Hl. lia. }
      subst vs. constructor.
    - destruct vs as [|v vs].
      { exfalso. subst. rewrite !app_length in Hl. simpl in Hl. lia. }
      constructor.
      + apply den_param.
        * apply Hk. rewrite Hi. apply in_or_app; right; now left.
        * rewrite bind_findex with (i := length pre); auto.
          -- rewrite Ha, <- Hlp, nth_error_app2, Nat.sub_diag by lia. reflexivity.
          -- rewrite Hi, findex_app. rewrite Hi in Hnd. apply NoDup_remove_2 in Hnd.
             assert (Hn : ~ In n pre) by (intro; apply Hnd; apply in_or_app; now left).
             apply findex_None in Hn. rewrite Hn. simpl. rewrite Nat.eqb_refl. simpl. f_equal; lia.
      + apply (IH (pre ++ [n]) (pargs ++ [v])); rewrite <- ?app_assoc; auto.
        rewrite !app_length. simpl. lia. }
  apply (G [] []); auto.
Qed.

Lemma pushes_run dat inputs (args : list V) lo bs : NoDup inputs -> length args = length inputs ->
  forall l acc, (forall n, In n l -> In n inputs /\ kind g n = KParam) ->
  exists vs, dens packV fieldV oprun g (bind inputs args) l vs /\
  run dat (map (fun n => IPush (Z.of_nat (match lookup (input_index inputs []) n with Some k => k | None => 0 end))) l)
      (fs lo (args ++ acc) bs) = Done tt (fs lo (args ++ acc ++ vs) bs).
Proof.
  intros Hnd Hl. induction l as [|n l IH]; intros acc Hin.
  - exists []. split; [constructor|]. simpl. now rewrite app_nil_r.
  - destruct (Hin n (or_introl eq_refl)) as [Hn Hk].
    destruct (findex n inputs) as [i|] eqn:Ei.
    2:{ apply findex_None in Ei. tauto. }
    assert (Hil : i < length args) by (rewrite Hl; eapply findex_lt; eauto).
    destruct (nth_error args i) as [v|] eqn:Ev; [|apply nth_error_None in Ev; lia].
    destruct (IH (acc ++ [v])) as (vs & Hvs & E); [intros; apply Hin; now right|].
    exists (v :: vs). split.
    + constructor; auto. apply den_param; auto. now rewrite (bind_findex _ _ _ i).
    + cbn [map run_list exec]. rewrite input_index_spec; auto. simpl lookup. rewrite Ei. simpl.
      rewrite push_at_fs with (v := v) by (rewrite nth_error_app1; auto).
      rewrite <- !app_assoc in *. simpl in *. rewrite E. reflexivity.
Qed.

Lemma epilogue_run inputs st b (args : list V) lo bs :
  NoDup inputs -> length args = length inputs ->
  (forall n, In n (sim st) -> kind g n = KParam) ->
  epilogue inputs outputs st = COk b ->
  exists vals, dens packV fieldV oprun g (bind inputs args) (sim st) vals /\
   (inputs = [] \/ sim st <> [] ->
    run (b_data b) (b_insts b) (fs lo args bs) = run (b_data b) (rev (insts st)) (fs lo vals bs)) /\
   (sim st = [] -> 
    run (b_data b) (b_insts b) (fs lo args bs) = run (b_data b) (rev (insts st)) (fs (lo) args bs)).
Proof.
  intros Hnd Hl Hp. unfold epilogue.
  destruct (forallb _ _) eqn:Hf; [|discriminate].
  rewrite forallb_forall in Hf.
  unfold nodes_eqb. destruct (list_eq_dec Nat.eq_dec (sim st) inputs) as [He|He];
    intros E; injection E as <-; cbn [b_insts b_data].
  - exists args. rewrite He. repeat split; auto. apply bind_dens; auto. now rewrite <- He.
  - destruct (pushes_run (data st) inputs args lo bs Hnd Hl (sim st) []) as (vs & Hvs & E).
    { intros n Hn. split; auto. apply memb_In. auto. }
    exists vs. split; auto.
    assert (Hrv : forall f e, rev (insts st ++ e :: map f (rev (sim st))) =
                    map f (sim st) ++ e :: rev (insts st)).
    { intros. rewrite rev_app_distr. simpl. rewrite map_rev, rev_involutive. simpl. rewrite <- app_assoc. reflexivity. }
    cbv zeta. rewrite Hrv, run_app. simpl in E. rewrite app_nil_r in E. rewrite E. cbn [run_list exec].
    pose proof (dens_length _ _ _ _ _ _ _ Hvs) as Hlv.
    split.
    + intros [->|Hne].
      * exfalso. apply He. destruct (sim st) as [|x l]; auto. exfalso.
        specialize (Hf x (or_introl eq_refl)). apply memb_In in Hf. destruct Hf.
      * rewrite <- Hlv, erase_fs_keep; auto. rewrite Hlv. destruct (sim st); [tauto|simpl; lia].
    + intros Hz. rewrite Hz in *. simpl. inversion Hvs; subst. simpl. rewrite app_nil_r, erase_fs_zero. reflexivity.
Qed.
End Sem.
End CompilerProofs2.
