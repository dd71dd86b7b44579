From Coq Require Import ZArith NArith List Bool Arith Lia.
From Verif Require Import ScanModel ScanSpec.
Import ListNotations.

Section Ind.
Variable P : iteration -> Prop.
Hypothesis HN : P Null.
Hypothesis HS : forall t s, P (Step t s).
Hypothesis HI : forall t l, Forall P l -> P (Iters t l).
Fixpoint iteration_ind' (it : iteration) : P it :=
  match it with
  | Null => HN
  | Step t s => HS t s
  | Iters t l => HI t l ((fix all l := match l return Forall P l with
                                       | [] => Forall_nil P
                                       | c :: r => Forall_cons c (iteration_ind' c) (all r)
                                       end) l)
  end.
End Ind.

Lemma clone_same it : clone_iteration it = it.
Proof.
  induction it as [|t s|t l H] using iteration_ind'; try reflexivity. cbn [clone_iteration]. f_equal.
  induction H as [|c r Hc Hr IH]; [reflexivity|]. cbn [map]. now rewrite Hc, IH.
Qed.

Lemma built_iters t l : built (Iters t l) <-> Forall built l.
Proof.
  cbn [built]. induction l as [|c r IH]; [split; [constructor|trivial]|]. split.
  - intros [H1 H2]. constructor; [exact H1|]. now apply IH.
  - intros H. split; [now apply Forall_inv in H|]. apply IH. now apply Forall_inv_tail in H.
Qed.
Lemma trimmed_iters t l : trimmed (Iters t l) <-> t <> 0%N /\ l <> [] /\ Forall trimmed l.
Proof.
  cbn [trimmed]. apply and_iff_compat_l, and_iff_compat_l. induction l as [|c r IH]; [split; [constructor|trivial]|]. split.
  - intros [H1 H2]. constructor; [exact H1|]. now apply IH.
  - intros H. split; [now apply Forall_inv in H|]. apply IH. now apply Forall_inv_tail in H.
Qed.
Lemma neg_iters t l : no_empty_group (Iters t l) <-> t = 0%N \/ (concat (map unroll l) <> [] /\ Forall no_empty_group l).
Proof.
  cbn [no_empty_group]. apply or_iff_compat_l, and_iff_compat_l. induction l as [|c r IH]; [split; [constructor|trivial]|]. split.
  - intros [H1 H2]. constructor; [exact H1|]. now apply IH.
  - intros H. split; [now apply Forall_inv in H|]. apply IH. now apply Forall_inv_tail in H.
Qed.

(** ** what is left to run *)
Definition rest1 (s : status) : list Z :=
  let '(it, c) := s in
  match it with
  | Null => []
  | Step _ z => repeat z (N.to_nat c)
  | Iters _ l => concat (repeat (concat (map unroll l)) (N.to_nat c))
  end.
Definition rest (st : list status) : list Z := concat (map rest1 st).

(** work until the next step *)
Fixpoint cost (it : iteration) : nat :=
  match it with
  | Null => 1
  | Step t _ => 1 + N.to_nat t
  | Iters t l => 1 + N.to_nat t * (1 + list_sum (map cost l))
  end.
Definition cost1 (s : status) : nat :=
  let '(it, c) := s in
  match it with
  | Iters _ l => 1 + N.to_nat c * (1 + list_sum (map cost l))
  | _ => 1 + N.to_nat c
  end.
Definition costs (st : list status) : nat := list_sum (map cost1 st).

Definition sbuilt (s : status) : Prop := built (fst s).

Lemma new_status_built it : built it -> exists s, new_status it = Some s /\ sbuilt s /\ rest1 s = unroll it /\ cost1 s = cost it.
Proof.
  destruct it as [|t s|t l]; [intros []| |]; intros H.
  - exists (Step t s, t). repeat split.
  - exists (Iters t l, t). split; [reflexivity|]. split; [exact H|]. split; reflexivity.
Qed.

Lemma new_statuses_built l : Forall built l -> exists ss, new_statuses l = Some ss /\ Forall sbuilt ss /\
  rest ss = concat (map unroll l) /\ costs ss = list_sum (map cost l).
Proof.
  induction 1 as [|c r Hc Hr (ss & E & B & R & C)]; [exists []; repeat split; constructor|].
  destruct (new_status_built c Hc) as (s & Es & Bs & Rs & Cs).
  exists (s :: ss). cbn [new_statuses]. rewrite Es, E. split; [reflexivity|]. split; [now constructor|].
  split; [cbn [rest map concat]; unfold rest in R; now rewrite R, Rs|].
  unfold costs in *. cbn [map list_sum fold_right]. unfold list_sum in *. cbn [fold_right]. now rewrite C, Cs.
Qed.

Definition ready (st : list status) : Prop :=
  match st with
  | [] => True
  | (Step _ _, c) :: _ => c <> 0%N
  | _ => False
  end.

Lemma rest_app a b : rest (a ++ b) = rest a ++ rest b.
Proof. unfold rest. now rewrite map_app, concat_app. Qed.
Lemma costs_app a b : costs (a ++ b) = costs a + costs b.
Proof. unfold costs. now rewrite map_app, list_sum_app. Qed.
Lemma costs_cons a b : costs (a :: b) = cost1 a + costs b.
Proof. reflexivity. Qed.

Lemma deploy_spec : forall fuel st, costs st < fuel -> Forall sbuilt st ->
  exists st', deploy fuel st = Deployed st' /\ ready st' /\ Forall sbuilt st' /\ rest st' = rest st /\ costs st' <= costs st.
Proof.
  induction fuel as [|k IH]; intros st Hf Hb; [lia|]. cbn [deploy].
  destruct st as [|[it c] r]; [exists []; repeat split; auto|].
  rewrite costs_cons in Hf.
  destruct (N.eqb_spec c 0) as [->|Hc].
  - assert (H1 : cost1 (it, 0%N) >= 1) by (destruct it; cbn; lia).
    assert (H2 : costs r < k) by lia.
    destruct (IH r H2 (Forall_inv_tail Hb)) as (st' & E & R & B & Rs & C). exists st'.
    split; [exact E|]. split; [exact R|]. split; [exact B|]. rewrite costs_cons. split; [|lia].
    rewrite Rs. unfold rest. cbn [map concat]. destruct it; reflexivity.
  - destruct it as [|t s|t l].
    + destruct (Forall_inv Hb).
    + exists ((Step t s, c) :: r). repeat split; auto.
    + assert (Hbl : Forall built l) by (apply (built_iters t); exact (Forall_inv Hb)).
      destruct (new_statuses_built l Hbl) as (ss & E & B & R & C). rewrite E.
      assert (Hn : N.to_nat c = S (N.to_nat (N.pred c))) by lia.
      assert (Hcost : costs (ss ++ (Iters t l, N.pred c) :: r) < costs ((Iters t l, c) :: r)).
      { rewrite costs_app, !costs_cons, C. cbn [cost1]. rewrite Hn. lia. }
      destruct (IH (ss ++ (Iters t l, N.pred c) :: r)) as (st' & E' & R' & B' & Rs' & C').
      * rewrite costs_cons in Hcost. lia.
      * apply Forall_app. split; [exact B|]. constructor; [exact (Forall_inv Hb)|exact (Forall_inv_tail Hb)].
      * exists st'. split; [exact E'|]. split; [exact R'|]. split; [exact B'|].
        split; [|eapply Nat.le_trans; [exact C'|]; apply Nat.lt_le_incl; exact Hcost].
        rewrite Rs', rest_app, R. unfold rest. cbn [map concat rest1]. rewrite Hn. cbn [repeat concat].
        now rewrite app_assoc.
Qed.

(** ** the loop is the flat sequence *)
Definition max_cost (l : list lop) : nat :=
  fold_right (fun o m => Nat.max (match o with Bind it => cost it | _ => 0 end) m) 0 l.

Definition agrees (fuel : nat) (lp : loop) (st : list Z * nat) : Prop :=
  let '(l, p) := st in
  l = unroll (proto lp) /\ (proto lp = Null \/ built (proto lp)) /\ cost (proto lp) < fuel /\
  ready (stack lp) /\ Forall sbuilt (stack lp) /\ costs (stack lp) < fuel /\ p <= length l /\ rest (stack lp) = skipn p l.

Lemma bind_agrees fuel it : it = Null \/ built it -> cost it < fuel ->
  exists lp, bind fuel it = Some lp /\ agrees fuel lp (unroll it, 0) /\ proto lp = it.
Proof.
  intros [->|B] Hc.
  - exists (mkLoop Null []). split; [reflexivity|]. split; [|reflexivity]. unfold agrees. cbn [proto stack unroll].
    split; [reflexivity|]. split; [now left|]. split; [exact Hc|]. split; [exact I|]. split; [constructor|].
    split; [cbn in *; lia|]. split; [cbn; lia|reflexivity].
  - destruct (new_status_built it B) as (s & E & Bs & R & C).
    destruct (deploy_spec fuel [s]) as (st & Ed & Rd & Bd & Rs & Cd).
    { unfold costs. cbn. lia. } { now constructor. }
    exists (mkLoop it st). split.
    + unfold bind, rewind. cbn [proto]. destruct it; [destruct B| |]; rewrite E, Ed; reflexivity.
    + split; [|reflexivity]. unfold agrees. cbn [proto stack]. split; [reflexivity|]. split; [now right|]. split; [exact Hc|].
      split; [exact Rd|]. split; [exact Bd|].
      assert (costs [s] = cost it) by (unfold costs; cbn; lia).
      split; [lia|]. split; [lia|]. cbn [skipn].
      rewrite Rs. unfold rest. cbn. now rewrite app_nil_r, R.
Qed.

Lemma skipn_cons_nth (l : list Z) p x r : skipn p l = x :: r -> nth p l finish = x /\ skipn (S p) l = r /\ p < length l.
Proof.
  revert p. induction l as [|a l IH]; intros [|p] H; cbn [skipn] in *; try discriminate.
  - split; [cbn; congruence|]. split; [cbn; congruence|]. cbn; lia.
  - destruct (IH p H) as (H1 & H2 & H3). split; [exact H1|]. split; [exact H2|]. cbn; lia.
Qed.

Lemma ready_rest st x : ready st -> Forall sbuilt st -> stack x = st -> exists s, cur x = Some s /\ s = hd finish (rest st).
Proof.
  intros R B E. unfold cur. rewrite E. destruct st as [|[it c] r]; [exists finish; auto|].
  destruct it as [|t s|t l]; [destruct R| |destruct R]. exists s. split; [reflexivity|].
  unfold rest. cbn [map concat rest1]. destruct (N.to_nat c) eqn:En; [cbn [ready] in R; lia|]. reflexivity.
Qed.

Lemma hd_skipn p (l : list Z) : hd finish (skipn p l) = nth p l finish.
Proof. revert p. induction l as [|a l IH]; intros [|p]; cbn; auto. Qed.

Lemma lstep_agrees fuel lp st o : agrees fuel lp st -> op_built o ->
  match o with Bind it => cost it < fuel | _ => True end ->
  exists lp', lstep fuel lp o = Some (fst (flat_step st o), lp') /\ agrees fuel lp' (snd (flat_step st o)).
Proof.
  intros A Hb Hc. destruct st as [l p]. pose proof A as (El & Bp & Cp & R & B & Cs & Hp & Er).
  destruct o as [| | |it]; cbn [lstep flat_step fst snd].
  - unfold next. destruct (stack lp) as [|[it c] r] eqn:Est.
    + exists lp. cbn in Er. symmetry in Er.
      assert (Hl : p = length l).
      { pose proof (skipn_length p l) as H. rewrite Er in H. cbn in H. lia. }
      split.
      * cbn [option_map fst snd]. rewrite <- hd_skipn, Er. reflexivity.
      * replace (p <? length l) with false by (symmetry; apply Nat.ltb_ge; lia). exact A.
    + destruct it as [|t s|t ll]; [destruct R| |destruct R]. cbn [step_of].
      cbn [ready] in R. assert (Hn : N.to_nat c = S (N.to_nat (N.pred c))) by lia.
      assert (Ec : costs ((Step t s, N.pred c) :: r) < costs ((Step t s, c) :: r)).
      { rewrite !costs_cons. cbn [cost1]. lia. }
      destruct (deploy_spec fuel ((Step t s, N.pred c) :: r)) as (st & Ed & Rd & Bd & Rs & Cd).
      { eapply Nat.lt_trans; [exact Ec|exact Cs]. } { constructor; [exact (Forall_inv B)|exact (Forall_inv_tail B)]. }
      rewrite Ed. exists (mkLoop (proto lp) st).
      assert (Es : skipn p l = s :: rest ((Step t s, N.pred c) :: r)).
      { rewrite <- Er. unfold rest. cbn [map concat rest1]. rewrite Hn. reflexivity. }
      destruct (skipn_cons_nth l p _ _ Es) as (H1 & H2 & H3). split.
      * cbn [option_map fst snd]. now rewrite H1.
      * replace (p <? length l) with true by (symmetry; apply Nat.ltb_lt; lia).
        unfold agrees. cbn [proto stack]. split; [exact El|]. split; [exact Bp|]. split; [exact Cp|]. split; [exact Rd|].
        split; [exact Bd|]. split; [eapply Nat.le_lt_trans; [exact Cd|]; eapply Nat.lt_trans; [exact Ec|exact Cs]|].
        split; [lia|]. now rewrite Rs, H2.
  - destruct (ready_rest _ lp R B eq_refl) as (s & Ec & Hs). exists lp. rewrite Ec. cbn [option_map fst snd]. split; [|exact A].
    rewrite Hs, Er, hd_skipn. reflexivity.
  - destruct (bind_agrees fuel (proto lp) Bp Cp) as (lp' & Eb & A' & _). exists lp'.
    change (rewind fuel lp) with (bind fuel (proto lp)). rewrite Eb. split; [reflexivity|]. rewrite El. exact A'.
  - destruct (bind_agrees fuel it (or_intror Hb) Hc) as (lp' & Eb & A' & _). exists lp'. rewrite Eb. split; [reflexivity|exact A'].
Qed.

Lemma lrun_agrees fuel : forall l lp st, agrees fuel lp st -> Forall op_built l -> max_cost l < fuel ->
  lrun fuel lp l = Some (flat_run st l).
Proof.
  induction l as [|o l IH]; intros lp st A B C; [reflexivity|]. cbn [lrun flat_run].
  cbn [max_cost fold_right] in C. change (fold_right _ 0 l) with (max_cost l) in C.
  destruct (lstep_agrees fuel lp st o A (Forall_inv B)) as (lp' & E & A').
  - destruct o; trivial. lia.
  - rewrite E. rewrite (IH lp' _ A' (Forall_inv_tail B)); [reflexivity|]. lia.
Qed.

(** ** update *)
Local Open Scope N_scope.
Definition children := fix children l :=
                 match l with
                 | [] => Some (0%N, [])
                 | c :: r =>
                     match update_iteration c with
                     | UseAfterFree => None
                     | Updated n c' =>
                         match children r with
                         | None => None
                         | Some (times, r') => if (n =? 0)%N then Some (times, r')
                                               else Some (w64 (n + times), c' :: r')
                         end
                     end
                 end.
Lemma update_iters t l : update_iteration (Iters t l) =
  if t =? 0 then Updated 0 Null else
  match children l with
  | None => UseAfterFree
  | Some (times, l') => if times =? 0 then UseAfterFree else Updated (w64 (t * times)) (Iters t l')
  end.
Proof. reflexivity. Qed.

Definition len (l : list Z) : N := N.of_nat (length l).
Lemma len_app a b : len (a ++ b) = len a + len b.
Proof. unfold len. rewrite app_length. lia. Qed.
Lemma len_unroll_iters t l : len (unroll (Iters t l)) = t * len (concat (map unroll l)).
Proof.
  cbn [unroll]. set (x := concat (map unroll l)).
  assert (H : forall n, length (concat (repeat x n)) = (n * length x)%nat).
  { induction n as [|n IH]; [reflexivity|]. cbn [repeat concat]. rewrite app_length, IH. lia. }
  unfold len. rewrite H. lia.
Qed.
Lemma len_unroll_step t s : len (unroll (Step t s)) = t.
Proof. cbn [unroll]. unfold len. rewrite repeat_length. lia. Qed.
Lemma w64_small n : n < 2 ^ 64 -> w64 n = n.
Proof. intros H. unfold w64. now apply N.mod_small. Qed.
Lemma len_nil l : len l = 0 <-> l = [].
Proof. unfold len. destruct l; [split; reflexivity|]. split; [cbn [length]; lia|discriminate]. Qed.

Definition good (it it' : iteration) : Prop := unroll it' = unroll it /\ (trimmed it' \/ (it' = Null /\ unroll it = [])).

Lemma update_spec it : no_empty_group it -> len (unroll it) < 2 ^ 64 ->
  exists it', update_iteration it = Updated (len (unroll it)) it' /\ unroll it' = unroll it /\
    (if len (unroll it) =? 0 then it' = Null else trimmed it').
Proof.
  induction it as [|t s|t l H] using iteration_ind'; intros G L.
  - exists Null. split; [reflexivity|]. split; reflexivity.
  - cbn [update_iteration]. rewrite len_unroll_step in *. destruct (N.eqb_spec t 0) as [->|Ht].
    + exists Null. repeat split.
    + exists (Step t s). repeat split. exact Ht.
  - rewrite update_iters. rewrite len_unroll_iters in *. destruct (N.eqb_spec t 0) as [->|Ht].
    + exists Null. split; [reflexivity|]. split; reflexivity.
    + apply neg_iters in G. destruct G as [G|[G1 G2]]; [contradiction|].
      assert (L1 : len (concat (map unroll l)) < 2 ^ 64) by nia.
      assert (C : exists l', children l = Some (len (concat (map unroll l)), l') /\
                 concat (map unroll l') = concat (map unroll l) /\ Forall trimmed l').
      { clear G1 L. revert G2 L1. induction H as [|c r Hc Hr IH]; intros G2 L1.
        - exists []. repeat split. constructor.
        - cbn [map concat] in L1. rewrite len_app in L1.
          destruct (Hc (Forall_inv G2)) as (c' & Ec & Uc & Tc); [lia|].
          destruct (IH (Forall_inv_tail G2)) as (r' & Er & Ur & Tr); [lia|].
          cbn [children]. rewrite Ec, Er. cbn [map concat]. rewrite len_app.
          destruct (N.eqb_spec (len (unroll c)) 0) as [Z|Z].
          + exists r'. rewrite Z, N.add_0_l. apply len_nil in Z. rewrite Z. repeat split; auto.
          + exists (c' :: r'). rewrite w64_small by lia. split; [reflexivity|]. cbn [map concat].
            split; [now rewrite Uc, Ur|]. now constructor. }
      destruct C as (l' & El & Ul & Tl). rewrite El.
      destruct (N.eqb_spec (len (concat (map unroll l))) 0) as [Z|Z]; [apply len_nil in Z; contradiction|].
      exists (Iters t l'). rewrite w64_small by exact L. split; [reflexivity|]. split; [cbn [unroll]; now rewrite Ul|].
      destruct (N.eqb_spec (t * len (concat (map unroll l))) 0) as [Z2|Z2]; [nia|].
      apply trimmed_iters. split; [exact Ht|]. split; [|exact Tl].
      intros ->. cbn in Ul. now rewrite <- Ul in G1.
Qed.

Lemma update_root it : no_empty_group it -> len (unroll it) < 2 ^ 64 ->
  exists it', update it = Updated (len (unroll it)) it' /\ unroll it' = unroll it /\
    (if len (unroll it) =? 0 then it' = Null else trimmed it').
Proof.
  intros G L. destruct (update_spec it G L) as (it' & E & U & T). unfold update. rewrite E.
  destruct (N.eqb_spec (len (unroll it)) 0) as [Z|Z].
  - exists Null. split; [reflexivity|]. split; [|reflexivity]. apply len_nil in Z. now rewrite Z.
  - exists it'. auto.
Qed.
