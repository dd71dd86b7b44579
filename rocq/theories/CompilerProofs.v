(** Proofs about the instruction-generating loop of the compiler. *)
From Coq Require Import List ZArith Bool Lia Arith Permutation.
From Verif Require Import StackModel GraphSpec GraphModel CompilerModel GraphProofs StackProofs.
Import ListNotations.

(** ** first index of a node *)
Fixpoint findex (n : node) (l : list node) : option nat :=
  match l with
  | [] => None
  | h :: t => if Nat.eqb n h then Some 0 else option_map S (findex n t)
  end.

Lemma findex_None n l : findex n l = None <-> ~ In n l.
Proof.
  induction l as [|h t IH]; simpl; [tauto|].
  destruct (Nat.eqb_spec n h) as [->|H].
  - split; [discriminate|]. tauto.
  - destruct (findex n t); simpl; split; try discriminate; intuition (congruence || discriminate).
Qed.

Lemma findex_app n a b :
  findex n (a ++ b) = match findex n a with
                      | Some i => Some i
                      | None => option_map (Nat.add (length a)) (findex n b)
                      end.
Proof.
  induction a as [|h t IH]; simpl.
  - destruct (findex n b); reflexivity.
  - destruct (Nat.eqb_spec n h); auto. rewrite IH.
    destruct (findex n t); simpl; auto. destruct (findex n b); reflexivity.
Qed.

Lemma findex_lt n l i : findex n l = Some i -> i < length l.
Proof.
  revert i; induction l as [|h t IH]; simpl; intros i; [discriminate|].
  destruct (Nat.eqb_spec n h); intros E.
  - injection E as <-. lia.
  - destruct (findex n t) as [j|]; [|discriminate]. injection E as <-. specialize (IH j eq_refl). lia.
Qed.

Lemma findex_nth n l i : findex n l = Some i -> nth_error l i = Some n.
Proof.
  revert i; induction l as [|h t IH]; simpl; intros i; [discriminate|].
  destruct (Nat.eqb_spec n h) as [->|]; intros E.
  - injection E as <-. reflexivity.
  - destruct (findex n t) as [j|]; [|discriminate]. injection E as <-. simpl. auto.
Qed.

Lemma rev_snoc_inv {A} (l : list A) x t : rev l = x :: t -> l = rev t ++ [x].
Proof. intros H. rewrite <- (rev_involutive l), H. reflexivity. Qed.

Lemma nth_app_mid {A} (a : list A) x b d : nth (length a) (a ++ x :: b) d = x.
Proof. rewrite app_nth2, Nat.sub_diag by lia. reflexivity. Qed.

Lemma find_last_from_spec p l : forall i j,
  i <= length l -> find_last_from p l i = Some j ->
  exists a x b c, l = a ++ x :: b ++ c /\ length (a ++ x :: b) = i /\ length a = j /\
    p x = true /\ forall y, In y b -> p y = false.
Proof.
  induction i as [|i IH]; intros j Hi E; simpl in E; [discriminate|].
  destruct (p (nth i l 0)) eqn:Hp.
  - injection E as <-.
    destruct (nth_split l 0 (n := i)) as (a & c & Hl & Ha); [lia|].
    exists a, (nth i l 0), [], c. simpl. repeat split; auto.
    + rewrite app_length. simpl. lia.
    + intros y [].
  - destruct (IH j ltac:(lia) E) as (a & x & b & c & Hl & Hlen & Hj & Hpx & Hb).
    assert (Hc : c <> []).
    { intros ->. rewrite app_nil_r in Hl. rewrite Hl in Hi. lia. }
    destruct c as [|y c]; [tauto|].
    assert (Hy : nth i l 0 = y).
    { rewrite Hl, <- Hlen. replace (a ++ x :: b ++ y :: c) with ((a ++ x :: b) ++ y :: c)
        by (rewrite <- app_assoc; reflexivity). apply nth_app_mid. }
    exists a, x, (b ++ [y]), c. repeat split; auto.
    + now rewrite <- app_assoc.
    + rewrite app_length in *. simpl in *. rewrite app_length. simpl. lia.
    + intros z Hz. apply in_app_iff in Hz as [Hz|[<-|[]]]; auto. now rewrite <- Hy.
Qed.

Lemma find_last_spec p l j : find_last p l = Some j ->
  exists a x b, l = a ++ x :: b /\ length a = j /\ p x = true /\ forall y, In y b -> p y = false.
Proof.
  unfold find_last. intros H. apply find_last_from_spec in H as (a & x & b & c & Hl & Hlen & Hj & Hp & Hb); auto.
  assert (c = []).
  { apply (f_equal (@length node)) in Hl. rewrite !app_length in *. simpl in *. rewrite app_length in Hl.
    destruct c; simpl in *; [reflexivity|lia]. }
  subst c. rewrite app_nil_r in Hl. exists a, x, b. auto.
Qed.

Lemma find_last_None p l : find_last p l = None -> forall x, In x l -> p x = false.
Proof.
  unfold find_last. intros H x Hx.
  assert (G : forall i, find_last_from p l i = None -> forall k, k < i -> p (nth k l 0) = false).
  { induction i; simpl; intros E k Hk; [lia|].
    destruct (p (nth i l 0)) eqn:Hp; [discriminate|].
    destruct (Nat.eq_dec k i) as [->|]; auto. apply IHi; auto; lia. }
  apply (In_nth _ _ 0) in Hx as (k & Hk & <-). eauto.
Qed.

Lemma find_last_Some p l x : In x l -> p x = true -> exists j, find_last p l = Some j.
Proof.
  intros Hx Hp. destruct (find_last p l) eqn:E; eauto.
  rewrite (find_last_None _ _ E _ Hx) in Hp. discriminate.
Qed.

Lemma memb_In n l : memb n l = true <-> In n l.
Proof.
  unfold memb. rewrite existsb_exists. split.
  - intros (x & Hx & E). apply Nat.eqb_eq in E. now subst.
  - intros H. exists n. split; auto. apply Nat.eqb_refl.
Qed.

Section CompilerProofs.
Context {V Opr : Type}.
Notation graph := (graph V Opr).
Notation instr := (instr Opr).
Notation cstate := (cstate V Opr).
Variable supported : Opr -> bool.
Variable output_count : Opr -> Z.
Variable g : graph.

Notation step := (@CompilerModel.step V Opr supported output_count g).
Notation convert_op := (@CompilerModel.convert_op V Opr supported output_count g).

Definition reachable (outputs : list node) (n : node) : Prop :=
  exists o, In o outputs /\ reach g o n.

Record cinv (outputs : list node) (st : cstate) : Prop := {
  ci_work : forall n, lookup (working st) n = findex n (sim st);
  ci_unsolved : unsolved st = length (filter (fun n => negb (is_param g n)) (sim st));
  ci_reach : forall n, In n (sim st) -> reachable outputs n;
  ci_data : forall n k, lookup (datamap st) n = Some k ->
            exists v, kind g n = KConst v /\ nth_error (data st) k = Some v
}.

(** One iteration, described on the simulated stack: [stepR data s n is s']
    turns the stack [s ++ [n]] into [s'] and emits the instructions [is]. *)
Inductive stepR (dat : list V) (s : list node) (n : node) : list instr -> list node -> Prop :=
| SDup p : nth_error s p = Some n -> stepR dat s n [IPush (Z.of_nat p)] s
| SConst v k : kind g n = KConst v -> nth_error dat k = Some v -> ~ In n s ->
    stepR dat s n [IData k] s
| SSwap a x b : s = a ++ x :: b -> ~ In n s -> ~ In x b ->
    (is_param g n = true /\ is_param g x = false) \/
    (is_param g n = false /\ depends g x n) ->
    stepR dat s n [ISwap (Z.of_nat (length s)) (Z.of_nat (length a))] (a ++ n :: b ++ [x])
| SOp is : convert_op n = Some is -> ~ In n s ->
    (forall m, In m s -> ~ depends g m n) ->
    stepR dat s n (rev is) (s ++ ins g n).

Lemma sim_push_inv outputs st n :
  cinv outputs st -> reachable outputs n -> cinv outputs (sim_push g st n) /\
  sim (sim_push g st n) = sim st ++ [n] /\ data (sim_push g st n) = data st /\
  insts (sim_push g st n) = insts st.
Proof.
  intros [I1 I2 I3 I4] Hn. split; [|split; [|split]; reflexivity].
  constructor; simpl; auto.
  - intros m. rewrite findex_app. rewrite I1. destruct (findex n (sim st)) as [p|] eqn:E.
    + destruct (Nat.ltb_spec (length (sim st)) p); [apply findex_lt in E; lia|].
      rewrite I1. destruct (findex m (sim st)) eqn:E2; auto. simpl.
      destruct (Nat.eqb_spec m n) as [->|]; auto. congruence.
    + simpl. destruct (Nat.eqb_spec m n) as [->|].
      * rewrite E. simpl. f_equal. lia.
      * rewrite I1. simpl. destruct (findex m (sim st)); auto.
  - rewrite filter_app, app_length, I2. simpl. destruct (is_param g n); simpl; lia.
  - intros m Hm. apply in_app_iff in Hm as [Hm|[<-|[]]]; auto.
Qed.

Lemma sim_push_list_inv outputs : forall l st,
  cinv outputs st -> (forall n, In n l -> reachable outputs n) ->
  let st' := fold_left (sim_push g) l st in
  cinv outputs st' /\ sim st' = sim st ++ l /\ data st' = data st /\ insts st' = insts st.
Proof.
  induction l as [|n l IH]; intros st H Hl; cbv zeta; cbn [fold_left].
  - rewrite app_nil_r. auto.
  - destruct (sim_push_inv _ _ _ H (Hl n (or_introl eq_refl))) as (A & B & C & D).
    destruct (IH (sim_push g st n) A) as (A' & B' & C' & D').
    { intros; apply Hl; now right. }
    split; [exact A'|]. split; [|split; congruence].
    rewrite B', B, <- app_assoc. reflexivity.
Qed.

Lemma lookup_remove_key m k n : lookup (remove_key m k) n = if Nat.eqb n k then None else lookup m n.
Proof.
  unfold remove_key. induction m as [|[a b] t IH]; simpl.
  - now destruct (Nat.eqb n k).
  - destruct (Nat.eqb_spec k a) as [->|H]; simpl; rewrite IH.
    + destruct (Nat.eqb_spec n a); auto.
    + destruct (Nat.eqb_spec n a) as [->|]; auto.
      destruct (Nat.eqb_spec a k); [congruence|auto].
Qed.

Lemma sim_pop_inv outputs st s n :
  cinv outputs st -> sim st = s ++ [n] ->
  cinv outputs (sim_pop g st) /\ sim (sim_pop g st) = s /\ data (sim_pop g st) = data st /\
  insts (sim_pop g st) = insts st.
Proof.
  intros [I1 I2 I3 I4] Hs. unfold sim_pop. rewrite Hs, rev_app_distr. simpl.
  rewrite removelast_last. split; [|split; [|split]; reflexivity].
  rewrite app_length. simpl. replace (length s + 1 - 1) with (length s) by lia.
  constructor; simpl; auto.
  - intros m. rewrite I1, Hs, findex_app. simpl. rewrite Nat.eqb_refl. simpl.
    rewrite Nat.add_0_r.
    assert (Hm : forall m, findex m (s ++ [n]) = match findex m s with Some i => Some i | None =>
               if Nat.eqb m n then Some (length s) else None end).
    { intros k. rewrite findex_app. destruct (findex k s); auto. simpl.
      destruct (Nat.eqb k n); simpl; auto; try (f_equal; lia). }
    destruct (findex n s) as [p|] eqn:E.
    + destruct (Nat.eqb_spec p (length s)); [apply findex_lt in E; lia|].
      rewrite I1, Hs, Hm. destruct (findex m s) eqn:E2; auto.
      destruct (Nat.eqb_spec m n) as [->|]; auto. congruence.
    + rewrite Nat.eqb_refl, lookup_remove_key.
      destruct (Nat.eqb_spec m n) as [->|]; auto.
      rewrite I1, Hs, Hm. destruct (findex m s) eqn:E2; auto.
      destruct (Nat.eqb_spec m n); tauto.
  - rewrite I2, Hs, filter_app, app_length. simpl. destruct (is_param g n); simpl; lia.
  - intros m Hm. apply I3. rewrite Hs. apply in_or_app. now left.
Qed.

Lemma filter_swap_len (p : node -> bool) a n b x :
  length (filter p (a ++ n :: b ++ [x])) = length (filter p (a ++ x :: b ++ [n])).
Proof.
  rewrite !filter_app. simpl. rewrite !filter_app. simpl.
  destruct (p n), (p x); simpl; rewrite ?app_length; simpl; rewrite ?app_length; simpl; lia.
Qed.

Lemma sim_swap_inv outputs st a x b n :
  cinv outputs st -> sim st = (a ++ x :: b) ++ [n] -> ~ In n (a ++ x :: b) -> ~ In x b ->
  let st' := sim_swap st (length (a ++ x :: b)) (length a) in
  cinv outputs st' /\ sim st' = a ++ n :: b ++ [x] /\ data st' = data st /\ insts st' = insts st.
Proof.
  intros [I1 I2 I3 I4] Hs Hn Hx st'.
  assert (Hsim : sim st' = a ++ n :: b ++ [x]).
  { unfold st', sim_swap. simpl. rewrite Hs.
    rewrite (nth_app_mid (a ++ x :: b) n [] 0).
    rewrite <- (app_assoc a (x :: b) [n]). simpl. rewrite (nth_app_mid a x (b ++ [n]) 0).
    replace (a ++ x :: b ++ [n]) with ((a ++ x :: b) ++ n :: []) by (rewrite <- app_assoc; reflexivity).
    rewrite set_nth_app by reflexivity. rewrite <- app_assoc. simpl. now rewrite set_nth_app. }
  assert (Hna : ~ In n a) by (intro; apply Hn; apply in_or_app; now left).
  assert (Hnb : ~ In n b) by (intro; apply Hn; apply in_or_app; right; now right).
  assert (Hnx : n <> x) by (intros ->; apply Hn; apply in_or_app; right; now left).
  split; [|split; [exact Hsim|split; reflexivity]].
  constructor; auto.
  - intros m. rewrite Hsim. unfold st', sim_swap. simpl.
    rewrite Hs. rewrite (nth_app_mid (a ++ x :: b) n [] 0).
    rewrite <- (app_assoc a (x :: b) [n]). simpl. rewrite (nth_app_mid a x (b ++ [n]) 0).
    assert (F : forall k, lookup (working st) k = findex k (a ++ x :: b ++ [n])).
    { intros k. rewrite I1, Hs, <- app_assoc. reflexivity. }
    assert (Fn : lookup (working st) n = Some (length (a ++ x :: b))).
    { rewrite I1, Hs, findex_app. apply findex_None in Hn. rewrite Hn. simpl.
      rewrite Nat.eqb_refl. simpl. f_equal. lia. }
    rewrite Fn, Nat.eqb_refl. rewrite lookup_update, Fn.
    destruct (Nat.eqb_spec x n); [congruence|].
    assert (Fx : lookup (working st) x = match findex x a with Some i => Some i | None => Some (length a) end).
    { rewrite F, findex_app. simpl. rewrite Nat.eqb_refl. destruct (findex x a); auto. simpl; try (f_equal; lia). }
    rewrite Fx. rewrite findex_app. simpl.
    assert (R : findex m (b ++ [x]) = match findex m b with Some i => Some i | None => if Nat.eqb m x then Some (length b) else None end).
    { rewrite findex_app. destruct (findex m b); auto. simpl. destruct (Nat.eqb m x); simpl; auto; try (f_equal; lia). }
    assert (L : lookup (working st) m = match findex m a with Some i => Some i | None =>
          if Nat.eqb m x then Some (length a) else
          match findex m b with Some i => Some (length a + S i) | None =>
            if Nat.eqb m n then Some (length a + S (length b)) else None end end).
    { rewrite F, findex_app. destruct (findex m a); auto. simpl. destruct (Nat.eqb m x); simpl; [f_equal; lia|].
      rewrite findex_app. destruct (findex m b); simpl; auto. destruct (Nat.eqb m n); simpl; auto.
      all: try (f_equal; lia). }
    destruct (findex x a) as [p|] eqn:Ea.
    + destruct (Nat.eqb_spec p (length a)); [apply findex_lt in Ea; lia|].
      rewrite lookup_update, Fn.
      destruct (Nat.eqb_spec m n) as [->|Hm].
      * apply findex_None in Hna. rewrite Hna. simpl. f_equal; lia.
      * rewrite L, R. destruct (findex m a) eqn:Em; auto.
        destruct (Nat.eqb_spec m x) as [->|]; [congruence|].
        destruct (findex m b); simpl; auto.
    + rewrite Nat.eqb_refl, lookup_update.
      rewrite lookup_update, Fn.
      destruct (Nat.eqb_spec x n); [congruence|]. rewrite Fx.
      rewrite lookup_update, Fn.
      destruct (Nat.eqb_spec m x) as [->|Hmx].
      * rewrite Ea. destruct (Nat.eqb_spec x n); [congruence|]. rewrite R.
        apply findex_None in Hx. rewrite Hx. simpl. f_equal. rewrite app_length. simpl. lia.
      * destruct (Nat.eqb_spec m n) as [->|Hm].
        -- apply findex_None in Hna. rewrite Hna. simpl. f_equal; lia.
        -- rewrite L, R. destruct (findex m a) eqn:Em; auto.
           destruct (findex m b); simpl; auto.
  - rewrite Hsim. unfold st', sim_swap. simpl. rewrite I2, Hs, <- app_assoc. simpl.
    symmetry. apply filter_swap_len.
  - intros m Hm. apply I3. rewrite Hs. rewrite Hsim in Hm.
    repeat first [rewrite in_app_iff in Hm | progress simpl in Hm]. repeat first [rewrite in_app_iff | progress simpl]. tauto.
Qed.

Lemma push_data_spec outputs st n v k st' :
  cinv outputs st -> kind g n = KConst v -> push_data st n v = (k, st') ->
  cinv outputs st' /\ sim st' = sim st /\ insts st' = insts st /\
  (exists ext, data st' = data st ++ ext) /\ nth_error (data st') k = Some v.
Proof.
  intros [I1 I2 I3 I4] Hk. unfold push_data.
  destruct (lookup (datamap st) n) as [k0|] eqn:E; intros H; injection H as <- <-.
  - split; [constructor; auto|]. split; [auto|]. split; [auto|]. split.
    + exists []. now rewrite app_nil_r.
    + destruct (I4 _ _ E) as (v' & Hv & Hd). congruence.
  - split; [|simpl; repeat split; eauto].
    + constructor; simpl; auto. intros m j.
      destruct (Nat.eqb_spec m n) as [->|]; intros Hj.
      * injection Hj as <-. exists v. split; auto.
        rewrite nth_error_app2, Nat.sub_diag by lia. reflexivity.
      * destruct (I4 _ _ Hj) as (v' & Hv & Hd). exists v'. split; auto.
        rewrite nth_error_app1; auto. apply nth_error_Some. congruence.
    + rewrite nth_error_app2, Nat.sub_diag by lia. reflexivity.
Qed.

Lemma emit_inv outputs st is : cinv outputs st -> cinv outputs (emit st is).
Proof. intros [I1 I2 I3 I4]. constructor; auto. Qed.

Lemma kind_cases (k : nkind V Opr) :
  (exists v, k = KConst v) \/ k = KVariable \/ k = KParam \/
  (match k with KOp _ | KField _ | KPack => True | _ => False end).
Proof. destruct k; eauto. Qed.

Ltac split5 := split; [|split; [|split; [|split]]].

Lemma step_spec outputs refs st st' :
  (forall n, ~ depends g n n) ->
  (forall n, reachable outputs n -> refs_exact g refs n) ->
  cinv outputs st -> step refs st = Some st' ->
  exists s n is, sim st = s ++ [n] /\ insts st' = insts st ++ is /\ cinv outputs st' /\
    (exists ext, data st' = data st ++ ext) /\ stepR (data st') s n is (sim st').
Proof.
  intros Hirr HR HI. unfold CompilerModel.step.
  destruct (rev (sim st)) as [|n r] eqn:Hrev; [discriminate|].
  apply rev_snoc_inv in Hrev. set (s := rev r) in *. clearbody s. clear r.
  rewrite Hrev, app_length. simpl. replace (length s + 1 - 1) with (length s) by lia.
  pose proof HI as [I1 I2 I3 I4]. rewrite I1, Hrev, findex_app. simpl. rewrite Nat.eqb_refl. simpl.
  rewrite Nat.add_0_r.
  assert (Hreach : forall m, In m (s ++ [n]) -> reachable outputs m) by (rewrite <- Hrev; exact I3).
  destruct (findex n s) as [p|] eqn:Ef.
  - destruct (Nat.ltb_spec p (length s)); [|apply findex_lt in Ef; lia].
    intros E; injection E as <-.
    destruct (sim_pop_inv outputs (emit st [IPush (Z.of_nat p)]) s n) as (A & B & C & D);
      [now apply emit_inv|exact Hrev|].
    exists s, n, [IPush (Z.of_nat p)]. rewrite B, C, D. split5; auto.
    + exists []. simpl. now rewrite app_nil_r.
    + constructor. now apply findex_nth.
  - rewrite Nat.ltb_irrefl. apply findex_None in Ef.
    assert (Hswap : forall j, 
      (exists a x b, s ++ [n] = a ++ x :: b /\ length a = j /\
         x <> n /\ ~ In x b /\
         ((is_param g n = true /\ is_param g x = false) \/
          (is_param g n = false /\ depends g x n))) ->
      Some (sim_swap (emit st [ISwap (Z.of_nat (length s)) (Z.of_nat j)]) (length s) j) = Some st' ->
      exists s0 n0 is, s ++ [n] = s0 ++ [n0] /\ insts st' = insts st ++ is /\ cinv outputs st' /\
        (exists ext, data st' = data st ++ ext) /\ stepR (data st') s0 n0 is (sim st')).
    { intros j (a & x & b & Hl & Hj & Hxn & Hxb & Hc) E. injection E as <-.
      destruct b as [|y b] using rev_ind.
      { apply app_inj_tail in Hl as [_ Hl]. congruence. }
      clear IHb. rewrite app_comm_cons, app_assoc in Hl. apply app_inj_tail in Hl as [Hl <-].
      assert (Hxb' : ~ In x b) by (intro; apply Hxb; apply in_or_app; now left).
      pose proof (sim_swap_inv outputs (emit st [ISwap (Z.of_nat (length s)) (Z.of_nat j)]) a x b n) as HS.
      subst s j. destruct HS as (A & B & C & D); auto.
      { now apply emit_inv. }
      exists (a ++ x :: b), n, [ISwap (Z.of_nat (length (a ++ x :: b))) (Z.of_nat (length a))].
      rewrite B, C, D. split; [reflexivity|]. split; [reflexivity|]. split; [exact A|].
      split; [exists []; simpl; now rewrite app_nil_r|].
      econstructor; eauto. }
    destruct (kind_cases (kind g n)) as [[v Hk]|[Hk|[Hk|Hk]]].
    + rewrite Hk. destruct (push_data st n v) as [k st1] eqn:Ep. intros E; injection E as <-.
      destruct (push_data_spec _ _ _ _ _ _ HI Hk Ep) as (A & B & C & (ext & D) & F).
      destruct (sim_pop_inv outputs (emit st1 [IData k]) s n) as (A' & B' & C' & D').
      { now apply emit_inv. } { simpl. congruence. }
      exists s, n, [IData k]. rewrite B', C', D'. simpl. rewrite C, D. split5; eauto.
      apply (SConst _ _ _ v); auto. now rewrite <- D.
    + rewrite Hk. discriminate.
    + rewrite Hk. destruct (find_last _ (s ++ [n])) as [j|] eqn:Ej; [|discriminate].
      apply find_last_spec in Ej as (a & x & b & Hl & Hj & Hp & Hb).
      assert (Hpn : is_param g n = true) by (unfold is_param; now rewrite Hk).
      apply Hswap. exists a, x, b. repeat split; auto.
      * intros ->. rewrite Hpn in Hp. discriminate.
      * intros Hx. rewrite (Hb _ Hx) in Hp. discriminate.
      * left. split; auto. now apply negb_true_iff.
    + assert (Hpn : is_param g n = false) by (unfold is_param; destruct (kind g n); auto; tauto).
      assert (E' : match find_last (fun m => memb n (refs_of refs m)) (s ++ [n]) with
              | Some j =>
                  Some (sim_swap (emit st [ISwap (Z.of_nat (length s)) (Z.of_nat j)]) (length s) j)
              | None =>
                  match convert_op n with
                  | None => None
                  | Some is =>
                      Some (fold_left (sim_push g) (ins g n)
                              (sim_pop g (emit st (rev is))))
                  end
              end = Some st' ->
        exists s0 n0 is, s ++ [n] = s0 ++ [n0] /\ insts st' = insts st ++ is /\ cinv outputs st' /\
        (exists ext, data st' = data st ++ ext) /\ stepR (data st') s0 n0 is (sim st')).
      2:{ destruct (kind g n); try tauto; exact E'. }
      destruct (find_last _ (s ++ [n])) as [j|] eqn:Ej.
      * apply find_last_spec in Ej as (a & x & b & Hl & Hj & Hp & Hb).
        apply Hswap. exists a, x, b.
        assert (Hx : In x (s ++ [n])) by (rewrite Hl; apply in_or_app; right; now left).
        apply memb_In in Hp. apply (HR x) in Hp; [|auto].
        repeat split; auto.
        -- intros ->. exact (Hirr _ Hp).
        -- intros Hxb. apply Hb in Hxb.
           assert (memb n (refs_of refs x) = true) by (apply memb_In; apply HR; auto).
           congruence.
      * destruct (convert_op n) as [is|] eqn:Ec; [|discriminate]. intros E; injection E as <-.
        destruct (sim_pop_inv outputs (emit st (rev is)) s n) as (A & B & C & D);
          [now apply emit_inv|exact Hrev|].
        destruct (sim_push_list_inv outputs (ins g n) (sim_pop g (emit st (rev is))) A) as (A' & B' & C' & D').
        { intros m Hm. destruct (Hreach n) as (o & Ho & Hr); [apply in_or_app; right; now left|].
          exists o. split; auto. eapply reach_in; eauto. }
        exists s, n, (rev is). rewrite B', C', D', B, C, D. split5; auto.
        -- exists []. simpl. now rewrite app_nil_r.
        -- apply SOp; auto. intros m Hm Hd.
           apply (find_last_None _ _) with (x := m) in Ej; [|apply in_or_app; now left].
           apply (HR m) in Hd; [|apply Hreach; apply in_or_app; now left].
           apply memb_In in Hd. congruence.
Qed.

(** ** the whole loop *)
Variable outputs : list node.
Variable refs : list (node * list node).
Hypothesis Hirr : forall n, ~ depends g n n.
Hypothesis Hrefs : forall n, reachable outputs n -> refs_exact g refs n.
Notation loop := (@CompilerModel.loop V Opr supported output_count).

Lemma loop_ind (P : cstate -> Prop) :
  (forall st st' s n is,
     cinv outputs st -> cinv outputs st' -> P st -> sim st = s ++ [n] -> insts st' = insts st ++ is ->
     (exists ext, data st' = data st ++ ext) -> stepR (data st') s n is (sim st') -> P st') ->
  forall fuel st st', cinv outputs st -> P st -> loop fuel g refs st = COk st' ->
  cinv outputs st' /\ P st' /\ unsolved st' = 0.
Proof.
  intros HP. induction fuel as [|fuel IH]; intros st st' HI Hst; simpl;
    destruct (unsolved st) eqn:Hu; try discriminate.
  - intros E; injection E as <-; auto.
  - intros E; injection E as <-; auto.
  - destruct (step refs st) as [st1|] eqn:Es; [|discriminate]. intros E.
    destruct (step_spec _ _ _ _ Hirr Hrefs HI Es) as (s & m & is & A & B & C & D & F).
    eapply IH; [exact C| |exact E]. eapply (HP st st1); eauto.
Qed.

Lemma init_inv :
  cinv outputs (init_state g outputs) /\ sim (init_state g outputs) = outputs /\
  data (init_state g outputs) = [] /\ insts (init_state g outputs) = [].
Proof.
  unfold init_state. apply (sim_push_list_inv outputs outputs (mkC [] [] 0 [] [] [])).
  - constructor; simpl; auto; try tauto. intros; discriminate.
  - intros n Hn. exists n. split; auto. constructor.
Qed.

Lemma unsolved_zero st : cinv outputs st -> unsolved st = 0 -> forall n, In n (sim st) -> kind g n = KParam.
Proof.
  intros [I1 I2 I3 I4] Hu n Hn. rewrite Hu in I2.
  destruct (is_param g n) eqn:E.
  - unfold is_param in E. destruct (kind g n); congruence.
  - assert (In n (filter (fun n => negb (is_param g n)) (sim st))) by (apply filter_In; rewrite E; auto).
    destruct (filter _ _); [destruct H|discriminate].
Qed.

(** *** meaning *)
Section Semantics.
Variable packV : list V -> V.
Variable fieldV : V -> Z -> option V.
Variable oprun : Opr -> list V -> opres V.
Variable env : node -> option V.
Notation den := (den packV fieldV oprun g env).
Notation dens := (dens packV fieldV oprun g env).
Notation run := (run_list packV fieldV oprun).

Hypothesis op_has_input : forall n o, reachable outputs n -> kind g n = KOp o -> ins g n <> [].

Lemma dens_app a b vs : dens (a ++ b) vs <-> exists va vb, vs = va ++ vb /\ dens a va /\ dens b vb.
Proof.
  revert vs; induction a as [|n a IH]; intros vs; simpl; split.
  - intros H. exists [], vs. repeat split; auto. constructor.
  - intros (va & vb & -> & Ha & Hb). inversion Ha; subst. exact Hb.
  - intros H. inversion H; subst. apply IH in H4 as (va & vb & -> & Ha & Hb).
    exists (v :: va), vb. repeat split; auto. constructor; auto.
  - intros (va & vb & -> & Ha & Hb). inversion Ha; subst. simpl. constructor; auto.
    apply IH. eauto.
Qed.

Lemma dens_one n vs : dens [n] vs <-> exists v, vs = [v] /\ den n v.
Proof.
  split.
  - intros H. inversion H; subst. inversion H4; subst. eauto.
  - intros (v & -> & H). constructor; [exact H|constructor].
Qed.

Lemma dens_length ns vs : dens ns vs -> length vs = length ns.
Proof. intros H. induction H; simpl; auto. Qed.

Lemma dens_nth ns vs p n : dens ns vs -> nth_error ns p = Some n ->
  exists v, nth_error vs p = Some v /\ den n v.
Proof.
  intros H. revert p. induction H; intros p; destruct p; simpl; try discriminate; eauto.
  intros E; injection E as <-. eauto.
Qed.

Lemma dens_in ns vs n : dens ns vs -> In n ns -> exists v, den n v.
Proof. intros H Hn. apply In_nth_error in Hn as [p Hp]. destruct (dens_nth _ _ _ _ H Hp) as (v & _ & Hv). eauto. Qed.

Lemma dens_build ns : (forall n, In n ns -> exists v, den n v) -> exists vs, dens ns vs.
Proof.
  induction ns as [|n ns IH]; intros H; [exists []; constructor|].
  destruct (H n (or_introl eq_refl)) as [v Hv]. destruct IH as [vs Hvs]; [intros; apply H; now right|].
  exists (v :: vs). constructor; auto.
Qed.

Lemma den_inv n v : den n v ->
  (kind g n = KParam /\ env n = Some v) \/ kind g n = KConst v \/
  ((match kind g n with KOp _ | KField _ | KPack => True | _ => False end) /\
   exists vs, dens (ins g n) vs /\ node_value packV fieldV oprun (kind g n) vs = Some v).
Proof. intros H. inversion H; subst; eauto 6. Qed.

Lemma den_det_rank rank (HR : forall n m, In m (ins g n) -> rank m < rank n) :
  forall k n v v', rank n < k -> den n v -> den n v' -> v = v'.
Proof.
  induction k as [|k IH]; intros n v v' Hk H H'; [lia|].
  assert (HL : forall ns vs vs', (forall m, In m ns -> rank m < k) -> dens ns vs -> dens ns vs' -> vs = vs').
  { induction ns as [|m ns IHn]; intros vs vs' Hm D D'; inversion D; inversion D'; subst; auto.
    f_equal.
    - apply (IH m); auto. apply Hm. now left.
    - apply IHn; auto. intros; apply Hm; now right. }
  destruct (den_inv _ _ H) as [[K E]|[K|[K (vs & D & E)]]];
  destruct (den_inv _ _ H') as [[K' E']|[K'|[K' (vs' & D' & E')]]];
  try congruence; try (rewrite K in K'; tauto); try (rewrite K' in K; tauto).
  assert (vs = vs').
  { eapply HL; eauto. intros m Hm. pose proof (HR _ _ Hm). lia. }
  congruence.
Qed.

Lemma op_value_run o args :
  (1 <= length args) -> forall lo pre bs,
  match op_value oprun o args with
  | Some v => op_instruction (oprun o) (Z.of_nat (length args)) 1 (fs lo (pre ++ args) bs)
              = Done tt (fs lo (pre ++ [v]) bs)
  | None => exists fr, op_instruction (oprun o) (Z.of_nat (length args)) 1 (fs lo (pre ++ args) bs)
              = Throw (fs lo (pre ++ fr) bs)
  end.
Proof.
  intros Ha lo pre bs. unfold op_value.
  pose proof (op_instruction_fs (oprun o) lo pre args bs 1 Ha (le_n 1)) as E.
  change (Z.of_nat 1) with 1%Z in E. rewrite E.
  destruct (oprun o args) as [fr k|fr]; [|eauto].
  destruct (Z.eqb_spec k 1) as [Hk|Hk]; simpl.
  - subst k. destruct fr as [|x fr] using rev_ind; simpl.
    + exists []. reflexivity.
    + clear IHfr. rewrite rev_app_distr. simpl.
      replace (length (fr ++ [x])) with (S (length fr)) by (rewrite app_length; simpl; lia).
      unfold lastn. rewrite app_length. simpl. replace (length fr + 1 - 1) with (length fr) by lia.
      rewrite skipn_app, skipn_all, Nat.sub_diag. reflexivity.
  - assert (Hn : forall (A : Type) (x y : A), match k with 1%Z => x | _ => y end = y).
    { intros. destruct k as [|p|p]; auto. destruct p; auto. congruence. }
    rewrite Hn. eauto.
Qed.

Definition correct (st : cstate) : Prop :=
  ((exists outs, dens outputs outs) -> forall n, In n (sim st) -> exists v, den n v) /\
  forall extra vals lo bs, dens (sim st) vals ->
    (exists outs, dens outputs outs /\
       run (data st ++ extra) (rev (insts st)) (fs lo vals bs) = Done tt (fs lo outs bs)) \/
    (exists fr, run (data st ++ extra) (rev (insts st)) (fs lo vals bs) = Throw (fs lo fr bs) /\
       forall outs, ~ dens outputs outs).

Lemma run_app dat l1 l2 s :
  run dat (l1 ++ l2) s = match run dat l1 s with Done _ s' => run dat l2 s' | r => r end.
Proof.
  revert s; induction l1 as [|i l1 IH]; intros s; simpl; auto.
  destruct (exec packV fieldV oprun dat i s); auto.
Qed.

Lemma convert_op_cases n is : convert_op n = Some is ->
  (exists o, kind g n = KOp o /\ is = [IOp o (Z.of_nat (length (ins g n))) 1%Z]) \/
  (exists off, kind g n = KField off /\ is = [IField off] /\ length (ins g n) = 1) \/
  (kind g n = KPack /\ is = [IPack (length (ins g n))]).
Proof.
  unfold CompilerModel.convert_op. destruct (kind g n) as [| | |o|off|] eqn:E; try discriminate.
  - destruct (supported o); simpl; [|discriminate].
    destruct (Z.eqb_spec (output_count o) 1) as [->|]; [|discriminate].
    intros H; injection H as <-. eauto.
  - destruct (Nat.eqb_spec (length (ins g n)) 1); simpl; [|discriminate].
    destruct (0 <=? off)%Z; [|discriminate]. intros H; injection H as <-. eauto 6.
  - intros H; injection H as <-. auto.
Qed.

Lemma convert_op_run n is dat lo pre args bs :
  reachable outputs n -> convert_op n = Some is -> dens (ins g n) args ->
  (exists v, den n v /\ run dat is (fs lo (pre ++ args) bs) = Done tt (fs lo (pre ++ [v]) bs)) \/
  (exists fr, run dat is (fs lo (pre ++ args) bs) = Throw (fs lo (pre ++ fr) bs) /\
     node_value packV fieldV oprun (kind g n) args = None).
Proof.
  intros Hr Hc Ha. pose proof (dens_length _ _ Ha) as Hlen.
  apply convert_op_cases in Hc as [(o & Hk & ->)|[(off & Hk & -> & Hl)|(Hk & ->)]].
  - assert (1 <= length args).
    { pose proof (op_has_input _ _ Hr Hk). rewrite Hlen. destruct (ins g n); [tauto|simpl; lia]. }
    pose proof (op_value_run o args H lo pre bs) as E. rewrite Hlen in E. cbn [run_list exec].
    destruct (op_value oprun o args) as [v|] eqn:Ev.
    + left. exists v. split; [|now rewrite E].
      eapply den_op; [now rewrite Hk|exact Ha|]. now rewrite Hk.
    + right. destruct E as [fr E]. exists fr. split; [now rewrite E|]. now rewrite Hk.
  - destruct args as [|a [|b args]]; simpl in Hlen; try lia. cbn [run_list exec].
    destruct (fieldV a off) as [v|] eqn:Ev.
    + left. exists v. split; [|now rewrite field_instruction_fs with (v := v)].
      eapply den_op; [now rewrite Hk|exact Ha|]. now rewrite Hk.
    + right. exists [a]. split; [|now rewrite Hk].
      unfold field_instruction, fs. simpl.
      rewrite (app_assoc lo pre [a]), rev_app_distr. simpl. rewrite Ev. reflexivity.
  - left. exists (packV args). split.
    + eapply den_op; [now rewrite Hk|exact Ha|]. now rewrite Hk.
    + cbn [run_list exec]. rewrite <- Hlen. now rewrite pack_instruction_fs.
Qed.

Lemma rev_convert n is : convert_op n = Some is -> rev is = is.
Proof. intros H. apply convert_op_cases in H as [(o & _ & ->)|[(off & _ & -> & _)|(_ & ->)]]; reflexivity. Qed.

Lemma correct_step st st' s n is :
  cinv outputs st -> cinv outputs st' -> acyclic g ->
  correct st -> sim st = s ++ [n] -> insts st' = insts st ++ is ->
  (exists ext, data st' = data st ++ ext) -> stepR (data st') s n is (sim st') -> correct st'.
Proof.
  intros HI HI' [rank Hac] [Hc1 Hc2] Hsim Hins [ext Hdat] HS.
  assert (Hn : reachable outputs n) by (apply (ci_reach _ _ HI); rewrite Hsim; apply in_or_app; right; now left).
  (* it suffices to run the emitted instructions *)
  assert (Hkey : forall extra vals' lo bs, dens (sim st') vals' ->
     (exists vals, dens (s ++ [n]) vals /\
        run (data st' ++ extra) (rev is) (fs lo vals' bs) = Done tt (fs lo vals bs)) \/
     (exists fr, run (data st' ++ extra) (rev is) (fs lo vals' bs) = Throw (fs lo fr bs) /\
        forall v, ~ den n v)).
  { intros extra vals' lo bs Hv.
    remember (sim st') as s' eqn:Es.
    destruct HS as [p Hp|v k Hk Hd Hnin|a x b Hs Hnin Hxb Hor|is0 Hconv Hnin Hdep].
    - left. destruct (dens_nth _ _ _ _ Hv Hp) as (v & Hnv & Hdv).
      exists (vals' ++ [v]). split.
      + apply dens_app. exists vals', [v]. repeat split; auto. apply dens_one. eauto.
      + simpl. now rewrite push_at_fs with (v := v).
    - left. exists (vals' ++ [v]). split.
      + apply dens_app. exists vals', [v]. repeat split; auto. apply dens_one.
        exists v; split; auto. now constructor.
      + simpl. rewrite nth_error_app1 by (apply nth_error_Some; congruence). rewrite Hd.
        unfold push, with_cells, fs. simpl. now rewrite <- app_assoc.
    - left. apply dens_app in Hv as (va & vr & -> & Hva & Hvr).
      inversion Hvr as [|? ? vn vr' Hvn Hvr']; subst.
      apply dens_app in Hvr' as (vb & vx & -> & Hvb & Hvx).
      apply dens_one in Hvx as (vx' & -> & Hvx).
      exists (va ++ vx' :: vb ++ [vn]). split.
      + rewrite <- app_assoc. apply dens_app. exists va, (vx' :: vb ++ [vn]). repeat split; auto.
        simpl. constructor; auto. apply dens_app. exists vb, [vn]. repeat split; auto.
        apply dens_one; eauto.
      + simpl. rewrite swap_fs; auto.
        * rewrite !app_length. simpl. rewrite (dens_length _ _ Hva), (dens_length _ _ Hvb). lia.
        * symmetry. now apply dens_length.
    - apply dens_app in Hv as (vs & args & -> & Hvs & Hargs).
      rewrite rev_involutive.
      destruct (convert_op_run n is0 (data st' ++ extra) lo vs args bs Hn Hconv Hargs)
        as [(v & Hv & E)|(fr & E & Hnone)].
      + left. exists (vs ++ [v]). split; auto. apply dens_app. exists vs, [v]. repeat split; auto.
        apply dens_one; eauto.
      + right. exists (vs ++ fr). split; auto. intros v Hv.
        assert (Hkop : match kind g n with KOp _ | KField _ | KPack => True | _ => False end).
        { destruct (convert_op_cases _ _ Hconv) as [(? & -> & _)|[(? & -> & _)|(-> & _)]]; exact I. }
        destruct (den_inv _ _ Hv) as [[K E1]|[K|[K (vs0 & D & E1)]]]; try (rewrite K in Hkop; tauto).
        assert (vs0 = args).
        { clear - D Hargs Hac. revert D Hargs. generalize (ins g n) as ns. intros ns; revert args vs0.
          induction ns; intros args vs0 D D'; inversion D; inversion D'; subst; auto. f_equal; auto.
          eapply (den_det_rank rank Hac (S (rank a))); eauto. }
        congruence. }
  split.
  - intros Hout m Hm. specialize (Hc1 Hout).
    remember (sim st') as s' eqn:Es.
    destruct HS as [p Hp|v k Hk Hd Hnin|a x b Hs Hnin Hxb Hor|is0 Hconv Hnin Hdep].
    + apply Hc1. rewrite Hsim. apply in_or_app. now left.
    + apply Hc1. rewrite Hsim. apply in_or_app. now left.
    + apply Hc1. rewrite Hsim, Hs.
      repeat first [rewrite in_app_iff in Hm | progress simpl in Hm].
      repeat first [rewrite in_app_iff | progress simpl]. tauto.
    + apply in_app_iff in Hm as [Hm|Hm].
      * apply Hc1. rewrite Hsim. apply in_or_app. now left.
      * destruct (Hc1 n) as [v Hv]; [rewrite Hsim; apply in_or_app; right; now left|].
        destruct (convert_op_cases _ _ Hconv) as [(? & Hk & _)|[(? & Hk & _)|(Hk & _)]];
          destruct (den_inv _ _ Hv) as [[K E1]|[K|[K (vs0 & D & E1)]]]; try congruence; eapply dens_in; eauto.
  - intros extra vals' lo bs Hv.
    rewrite Hins, rev_app_distr, run_app.
    destruct (Hkey extra vals' lo bs Hv) as [(vals & Hvals & E)|(fr & E & Hno)]; rewrite E.
    + rewrite Hdat, <- app_assoc. apply Hc2. now rewrite Hsim.
    + right. exists fr. split; auto. intros outs Ho.
      destruct (Hc1 (ex_intro _ _ Ho) n) as [v Hv']; [rewrite Hsim; apply in_or_app; right; now left|].
      exact (Hno v Hv').
Qed.

Lemma loop_correct fuel st :
  acyclic g -> loop fuel g refs (init_state g outputs) = COk st ->
  cinv outputs st /\ correct st /\ unsolved st = 0.
Proof.
  intros Hac. destruct init_inv as (A & B & C & D).
  apply (loop_ind correct); auto.
  - intros st0 st' s n is H1 H2 H3 H4 H5 H6 H7.
    exact (correct_step st0 st' s n is H1 H2 Hac H3 H4 H5 H6 H7).
  - split.
    + intros [outs Ho] n Hn. rewrite B in Hn. eapply dens_in; eauto.
    + intros extra vals lo bs Hv. rewrite B in Hv. left. exists vals. split; auto.
      rewrite D. reflexivity.
Qed.

End Semantics.
End CompilerProofs.
