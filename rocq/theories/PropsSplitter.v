(** C154: the splitter puts nodes together that can be one module. *)
From Coq Require Import List Relations Bool Arith ZArith Lia Wf_nat.
From Verif Require Import SplitterModel SplitterSpec.
Import ListNotations.
Local Open Scope Z_scope.

Lemma mem_In n l : mem n l = true <-> In n l.
Proof.
  unfold mem. rewrite existsb_exists. split.
  - intros (x & H & E). apply Nat.eqb_eq in E. subst. exact H.
  - intros H. exists n. split; [exact H|apply Nat.eqb_refl].
Qed.
Lemma mem_no n l : mem n l = false <-> ~ In n l.
Proof. rewrite <- mem_In. destruct (mem n l); split; congruence. Qed.

Lemma remove_first_In n l x : In x l -> x = n \/ In x (remove_first n l).
Proof.
  induction l as [|y l IH]; [easy|]. cbn [remove_first]. intros [->|H].
  - destruct (Nat.eqb_spec x n); [now left|right; now left].
  - destruct (Nat.eqb_spec y n); [now right|]. destruct (IH H); [now left|right; now right].
Qed.
Lemma remove_first_sub n l x : In x (remove_first n l) -> In x l.
Proof.
  induction l as [|y l IH]; [easy|]. cbn [remove_first]. destruct (Nat.eqb_spec y n); intros H; [now right|].
  destruct H as [->|H]; [now left|right; auto].
Qed.
Lemma remove_first_length n l : In n l -> S (length (remove_first n l)) = length l.
Proof.
  induction l as [|y l IH]; [easy|]. cbn [remove_first]. intros H. destruct (Nat.eqb_spec y n); [reflexivity|].
  cbn. f_equal. apply IH. destruct H; [congruence|assumption].
Qed.

Section Queue.
Variable better : nat -> nat -> bool.
Hypothesis better_trans : forall a b c, better a b = true -> better b c = true -> better a c = true.
Hypothesis better_irr : forall a, better a a = false.

Lemma scan_In l : forall t, scan better t l = t \/ In (scan better t l) l.
Proof.
  induction l as [|x l IH]; intros t; [now left|]. cbn [scan].
  destruct (IH (if better x t then x else t)) as [E|E]; [|right; now right].
  rewrite E. destruct (better x t); [right; now left|now left].
Qed.
(** the found one is at least as good as the one carried, and nothing beats it *)
Lemma scan_best l : forall t,
  (scan better t l = t \/ better (scan better t l) t = true) /\
  forall x, In x l -> better x (scan better t l) = false.
Proof.
  induction l as [|y l IH]; intros t; [split; [now left|easy]|]. cbn [scan].
  destruct (better y t) eqn:B.
  - destruct (IH y) as (K & N). split.
    + right. destruct K as [->|K]; [exact B|eapply better_trans; eassumption].
    + intros x [<-|H]; [|apply N; exact H].
      destruct (better y (scan better y l)) eqn:E; [|reflexivity]. destruct K as [K|K].
      * rewrite K, better_irr in E. discriminate.
      * rewrite <- (better_irr y). symmetry. eapply better_trans; eassumption.
  - destruct (IH t) as (K & N). split; [exact K|].
    intros x [<-|H]; [|apply N; exact H].
    destruct (better y (scan better t l)) eqn:E; [|reflexivity]. destruct K as [K|K].
    + rewrite K in E. congruence.
    + rewrite <- B. symmetry. eapply better_trans; eassumption.
Qed.
Lemma pop_spec l n r : pop better l = Some (n, r) ->
  In n l /\ (forall x, In x l -> better x n = false) /\
  (forall x, In x l -> x = n \/ In x r) /\ (forall x, In x r -> In x l) /\ S (length r) = length l.
Proof.
  destruct l as [|x l]; [discriminate|]. unfold pop. intros H.
  remember (scan better x l) as m eqn:M. assert (E1 : n = m) by congruence. assert (E2 : r = remove_first m (x :: l)) by congruence. clear H. subst n r.
  assert (IN : In m (x :: l)) by (subst m; destruct (scan_In l x) as [E|E]; [rewrite E; now left|now right]).
  split; [exact IN|]. destruct (scan_best l x) as (K & N). rewrite <- M in K, N. split.
  - intros y [<-|Y]; [|apply N; exact Y]. destruct K as [K|K]; [rewrite K; apply better_irr|].
    destruct (better x m) eqn:E; [|reflexivity]. rewrite <- (better_irr x). symmetry. eapply better_trans; eassumption.
  - split; [intros y Y; exact (remove_first_In m _ y Y)|]. split; [intros y Y; exact (remove_first_sub m _ y Y)|].
    apply remove_first_length. exact IN.
Qed.
End Queue.
Lemma pop_none better l : pop better l = None -> l = [].
Proof. destruct l; [reflexivity|discriminate]. Qed.

Lemma in_dec_nat (n : nat) l : In n l \/ ~ In n l.
Proof. destruct (in_dec Nat.eq_dec n l); auto. Qed.

Section Graph.
Variables (inputs outputs : nat -> list nat) (all : list nat).
Variable ref : nat -> nat -> bool.
Variables (ok support : nat -> bool).
Hypothesis GL : graph_links inputs outputs all.
Hypothesis REF : forall a b, ref a b = true <-> depends inputs a b.

Lemma ref_trans a b c : ref a b = true -> ref b c = true -> ref a c = true.
Proof. rewrite !REF. apply t_trans. Qed.
Lemma ref_irr a : ref a a = false.
Proof. destruct (ref a a) eqn:E; [|reflexivity]. apply REF in E. destruct (gl_acyclic _ _ _ GL _ E). Qed.
Lemma ref_no a b : ref a b = true -> ref b a = true -> False.
Proof. intros H K. pose proof (ref_trans _ _ _ H K) as E. rewrite ref_irr in E. discriminate. Qed.
Lemma ref_use a b : In b (inputs a) -> ref a b = true.
Proof. intros H. apply REF. apply t_step. exact H. Qed.
Lemma ref_out a b : In a (outputs b) -> ref a b = true.
Proof. intros H. apply ref_use. apply (gl_dual _ _ _ GL). exact H. Qed.

Section One.
Variable i : Z.
Variable c0 : nat -> Z.
Variable s : nat.
Notation inG st n := (col st n = i).
Notation run := (run inputs outputs ref ok false i).
Notation add := (add inputs outputs i).
Notation my_precious := (my_precious outputs ref ok false i).

(** what holds at every point of the search *)
Record inv (st : xstate) : Prop := {
  v_start : inG st s;
  v_keep : forall n, col st n = c0 n \/ (inG st n /\ c0 n < 0 /\ ok n = true);
  v_bot : forall b c, In b (bot st) -> inG st c -> ref b c = false;
  v_top : forall t a, In t (top st) -> inG st a -> ref a t = false;
  v_ins : forall a x, inG st a -> In x (inputs a) -> inG st x \/ In x (bot st) \/ In x (top st) \/ In x (down st);
  v_outs : forall a x, inG st a -> In x (outputs a) -> inG st x \/ In x (bot st) \/ In x (top st) \/ In x (up st);
  v_down : forall d, In d (down st) -> exists a, inG st a /\ In d (inputs a);
  v_up : forall u, In u (up st) -> exists a, inG st a /\ In u (outputs a);
  v_bin : forall b, In b (bot st) -> ~ inG st b /\ exists a, inG st a /\ In b (inputs a);
  v_tin : forall t, In t (top st) -> ~ inG st t;
  v_nodup : NoDup (bot st) }.

(** what holds while the splitter goes down, and while it goes up *)
Definition going_down (st : xstate) : Prop := forall c, inG st c ->
  (forall d, In d (down st) -> ref d c = false) \/
  (forall x, In x (outputs c) -> inG st x \/ In x (bot st) \/ In x (top st)).
Definition going_up (st : xstate) : Prop := forall a, inG st a ->
  (forall u, In u (up st) -> ref a u = false) \/
  (forall x, In x (inputs a) -> inG st x \/ In x (bot st) \/ In x (top st)).

Lemma walked_iff st n : has_walked i st n = true <-> In n (top st) \/ In n (bot st) \/ inG st n.
Proof. unfold has_walked, in_graph. rewrite !orb_true_iff, !mem_In, Z.eqb_eq. tauto. Qed.
Lemma precious st n : my_precious st n = true ->
  col st n < 0 /\ ok n = true /\ (forall b, In b (bot st) -> ref b n = false) /\ (forall t, In t (top st) -> ref n t = false).
Proof.
  unfold SplitterModel.my_precious, ok_to_add. rewrite !andb_true_iff, !forallb_forall, Z.ltb_lt. intros ((((A & B) & _) & C) & D).
  split; [exact A|]. split; [exact B|]. split.
  - intros b K. apply C in K. now destruct (ref b n).
  - intros t K. apply D in K. now destruct (ref n t).
Qed.
Lemma add_in st n m : inG (add st n) m <-> m = n \/ inG st m.
Proof. cbn. unfold paint. destruct (Nat.eqb_spec m n); [subst; tauto|tauto]. Qed.
Lemma add_down st n d : In d (down (add st n)) <-> In d (down st) \/ (In d (inputs n) /\ ~ In d (bot st) /\ ~ inG (add st n) d).
Proof.
  cbn [SplitterModel.add down]. rewrite in_app_iff, filter_In, andb_true_iff, !negb_true_iff.
  rewrite mem_no. unfold in_graph. cbn [col]. rewrite Z.eqb_neq. reflexivity.
Qed.
Lemma add_up st n d : In d (up (add st n)) <-> In d (up st) \/ (In d (outputs n) /\ ~ In d (top st) /\ ~ inG (add st n) d).
Proof.
  cbn [SplitterModel.add up]. rewrite in_app_iff, filter_In, andb_true_iff, !negb_true_iff.
  rewrite mem_no. unfold in_graph. cbn [col]. rewrite Z.eqb_neq. reflexivity.
Qed.
Lemma in_dec st n : inG st n \/ ~ inG st n.
Proof. destruct (Z.eq_dec (col st n) i); auto. Qed.

(** adding a precious node *)
Lemma add_inv st n : inv st -> ~ inG st n -> ~ In n (top st) -> ~ In n (bot st) -> my_precious st n = true -> inv (add st n).
Proof.
  intros I NG NT NB P. destruct (precious _ _ P) as (A & B & C & D). destruct I. constructor.
  - apply add_in. now right.
  - intros m. destruct (Nat.eq_dec m n) as [->|N].
    + right. split; [apply add_in; now left|]. destruct (v_keep0 n) as [E|(E & _)]; [|tauto]. rewrite <- E. auto.
    + cbn [SplitterModel.add col]. unfold paint. destruct (Nat.eqb_spec m n); [tauto|]. exact (v_keep0 m).
  - intros b c K G. cbn [SplitterModel.add bot] in K. apply add_in in G. destruct G as [->|G]; auto.
  - intros t a K G. cbn [SplitterModel.add top] in K. apply add_in in G. destruct G as [->|G]; auto.
  - intros a x G K. rewrite add_in, add_down. cbn [SplitterModel.add bot top]. apply add_in in G. destruct G as [->|G].
    + destruct (in_dec (add st n) x) as [H|H]; [apply add_in in H; tauto|].
      destruct (in_dec_nat x (bot st)); tauto.
    + destruct (v_ins0 a x G K) as [H|[H|[H|H]]]; tauto.
  - intros a x G K. rewrite add_in, add_up. cbn [SplitterModel.add bot top]. apply add_in in G. destruct G as [->|G].
    + destruct (in_dec (add st n) x) as [H|H]; [apply add_in in H; tauto|].
      destruct (in_dec_nat x (top st)); tauto.
    + destruct (v_outs0 a x G K) as [H|[H|[H|H]]]; tauto.
  - intros d K. apply add_down in K. destruct K as [K|(K & _)].
    + destruct (v_down0 d K) as (a & G & E). exists a. split; [apply add_in; now right|exact E].
    + exists n. split; [apply add_in; now left|exact K].
  - intros d K. apply add_up in K. destruct K as [K|(K & _)].
    + destruct (v_up0 d K) as (a & G & E). exists a. split; [apply add_in; now right|exact E].
    + exists n. split; [apply add_in; now left|exact K].
  - intros b K. cbn [SplitterModel.add bot] in K. destruct (v_bin0 b K) as (G & a & E & F). split.
    + rewrite add_in. intros [->|H]; tauto.
    + exists a. split; [apply add_in; now right|exact F].
  - intros t K. cbn [SplitterModel.add top] in K. rewrite add_in. intros [->|H]; [tauto|]. exact (v_tin0 t K H).
  - cbn. assumption.
Qed.

(** a chain of uses from [x] to a node of the part leaves the part somewhere *)
Lemma last_out st x c : ref x c = true -> ~ inG st x -> inG st c ->
  exists g y, inG st g /\ ~ inG st y /\ In y (outputs g) /\ (y = x \/ ref x y = true) /\ ref x g = true.
Proof.
  rewrite REF. intros D NG. unfold depends in D. apply clos_trans_tn1 in D. induction D as [y U|y z U D IH]; intros G.
  - exists y, x. split; [exact G|]. split; [exact NG|]. split; [apply (gl_dual _ _ _ GL); exact U|]. split; [now left|apply ref_use; exact U].
  - destruct (in_dec st y) as [Y|Y]; [exact (IH Y)|]. exists z, y. split; [exact G|]. split; [exact Y|].
    split; [apply (gl_dual _ _ _ GL); exact U|].
    assert (R : ref x y = true) by (apply REF; apply clos_tn1_trans; exact D).
    split; [now right|]. eapply ref_trans; [exact R|apply ref_use; exact U].
Qed.
Lemma first_out st c x : ref c x = true -> ~ inG st x -> inG st c ->
  exists g y, inG st g /\ ~ inG st y /\ In y (inputs g) /\ (y = x \/ ref y x = true) /\ ref g x = true.
Proof.
  rewrite REF. intros D NG. unfold depends in D. apply clos_trans_t1n in D. revert NG. induction D as [x y U|x y z U D IH]; intros NG G.
  - exists x, y. split; [exact G|]. split; [exact NG|]. split; [exact U|]. split; [now left|apply ref_use; exact U].
  - destruct (in_dec st y) as [Y|Y]; [exact (IH NG Y)|]. exists x, y. split; [exact G|]. split; [exact Y|].
    split; [exact U|].
    assert (R : ref y z = true) by (apply REF; apply clos_t1n_trans; exact D).
    split; [now right|]. eapply ref_trans; [apply ref_use; exact U|exact R].
Qed.

(** a node popped going down and not in the part is above no node of the part *)
Lemma found_bottom_safe st n : inv st -> going_down st -> In n (down st) ->
  has_walked i st n = false -> forall c, inG st c -> ref n c = false.
Proof.
  intros I D IN W c G. destruct (ref n c) eqn:R; [|reflexivity]. exfalso.
  assert (NW : ~ (In n (top st) \/ In n (bot st) \/ inG st n)) by (rewrite <- walked_iff, W; discriminate).
  destruct (last_out st n c R) as (g & y & Gg & Gy & O & Y & Rg); [tauto|exact G|].
  destruct (D g Gg) as [K|K]; [rewrite (K n IN) in Rg; discriminate|].
  destruct (K y O) as [H|[H|H]]; [tauto| |].
  - pose proof (ref_out _ _ O) as E. rewrite (v_bot st I y g H Gg) in E. discriminate.
  - destruct Y as [->|Y]; [tauto|]. destruct (v_down st I n IN) as (a & Ga & U).
    pose proof (ref_trans _ _ _ (ref_use _ _ U) Y) as E. rewrite (v_top st I y a H Ga) in E. discriminate.
Qed.
Lemma found_top_safe st n : inv st -> going_up st -> In n (up st) ->
  has_walked i st n = false -> forall a, inG st a -> ref a n = false.
Proof.
  intros I D IN W c G. destruct (ref c n) eqn:R; [|reflexivity]. exfalso.
  assert (NW : ~ (In n (top st) \/ In n (bot st) \/ inG st n)) by (rewrite <- walked_iff, W; discriminate).
  destruct (first_out st c n R) as (g & y & Gg & Gy & O & Y & Rg); [tauto|exact G|].
  destruct (D g Gg) as [K|K]; [rewrite (K n IN) in Rg; discriminate|].
  destruct (K y O) as [H|[H|H]]; [tauto| |].
  - destruct Y as [->|Y]; [tauto|]. destruct (v_up st I n IN) as (a & Ga & U).
    pose proof (ref_trans _ _ _ Y (ref_out _ _ U)) as E. rewrite (v_bot st I y a H Ga) in E. discriminate.
  - pose proof (ref_use _ _ O) as E. rewrite (v_top st I y g H Gg) in E. discriminate.
Qed.

Lemma pop_top_spec l n r : pop_top ref l = Some (n, r) ->
  In n l /\ (forall x, In x l -> ref x n = false) /\
  (forall x, In x l -> x = n \/ In x r) /\ (forall x, In x r -> In x l) /\ S (length r) = length l.
Proof. apply (pop_spec (fun x t => ref x t)); [exact ref_trans|exact ref_irr]. Qed.
Lemma pop_bottom_spec l n r : pop_bottom ref l = Some (n, r) ->
  In n l /\ (forall x, In x l -> ref n x = false) /\
  (forall x, In x l -> x = n \/ In x r) /\ (forall x, In x r -> In x l) /\ S (length r) = length l.
Proof.
  apply (pop_spec (fun x t => ref t x)); [|exact ref_irr]. intros a b c H K. eapply ref_trans; eassumption.
Qed.

(** one round going down *)
Definition step_down (st : xstate) (n : nat) (rest : list nat) : xstate :=
  let st := XS (col st) (top st) (bot st) rest (up st) in
  if has_walked i st n then st else if my_precious st n then add st n else XS (col st) (top st) (n :: bot st) (down st) (up st).
Definition step_up (st : xstate) (n : nat) (rest : list nat) : xstate :=
  let st := XS (col st) (top st) (bot st) (down st) rest in
  if has_walked i st n then st else if my_precious st n then add st n else XS (col st) (n :: top st) (bot st) (down st) (up st).

Lemma step_down_inv st n rest : inv st -> going_down st -> pop_top ref (down st) = Some (n, rest) ->
  inv (step_down st n rest) /\ going_down (step_down st n rest).
Proof.
  intros I D P. destruct (pop_top_spec _ _ _ P) as (IN & BEST & SPLIT & SUB & _).
  pose proof (found_bottom_safe st n I D IN) as SAFE.
  unfold step_down. set (st1 := XS (col st) (top st) (bot st) rest (up st)). cbv zeta.
  change (has_walked i st1 n) with (has_walked i st n). change (my_precious st1 n) with (my_precious st n).
  destruct (has_walked i st n) eqn:W.
  - apply walked_iff in W. split.
    + destruct I. constructor; try assumption.
      * intros a x G K. destruct (v_ins0 a x G K) as [H|[H|[H|H]]]; cbn [st1 col bot top down]; auto.
        destruct (SPLIT x H) as [->|Q]; [tauto|auto].
      * intros d K. apply v_down0. apply SUB. exact K.
    + intros c G. destruct (D c G) as [H|H]; [left|right; exact H]. intros d K. apply H. apply SUB. exact K.
  - assert (NW : ~ (In n (top st) \/ In n (bot st) \/ inG st n)) by (rewrite <- walked_iff, W; discriminate).
    destruct (my_precious st n) eqn:PR.
    + assert (J : inv (add st n)) by (apply add_inv; auto; tauto).
      split.
      * destruct J. constructor; try assumption.
        -- intros a x G K. destruct (v_ins0 a x G K) as [H|[H|[H|H]]]; [tauto|tauto|tauto|].
           apply add_down in H. destruct H as [H|H].
           ++ destruct (SPLIT x H) as [->|Q]; [left; apply add_in; now left|].
              right; right; right. apply add_down. left. exact Q.
           ++ right; right; right. apply add_down. right. exact H.
        -- intros d K. apply v_down0. apply add_down in K. apply add_down. destruct K as [K|K]; [left; apply SUB; exact K|right; exact K].
      * intros c G. apply (add_in st1 n c) in G. destruct G as [->|G].
        -- left. intros d K. apply add_down in K. destruct K as [K|(K & _)]; [apply BEST, SUB; exact K|].
           destruct (ref d n) eqn:E; [|reflexivity]. destruct (ref_no _ _ E (ref_use _ _ K)).
        -- destruct (D c G) as [H|H].
           ++ left. intros d K. apply add_down in K. destruct K as [K|(K & _)]; [apply H, SUB; exact K|].
              destruct (ref d c) eqn:E; [|reflexivity]. pose proof (ref_trans _ _ _ (ref_use _ _ K) E) as Q.
              rewrite (H n IN) in Q. discriminate.
           ++ right. intros x K. rewrite (add_in st1 n x). cbn [SplitterModel.add bot top]. destruct (H x K) as [Q|[Q|Q]]; cbn [st1 col bot top]; tauto.
    + split.
      * pose proof (v_down st I n IN) as USED. destruct I. constructor; cbn [col bot top down up] in *; try assumption.
        -- intros b c [<-|K] G; [apply SAFE; auto|apply v_bot0; auto].
        -- intros a x G K. destruct (v_ins0 a x G K) as [H|[H|[H|H]]]; cbn [In]; auto.
           destruct (SPLIT x H) as [->|Q]; auto.
        -- intros a x G K. destruct (v_outs0 a x G K) as [H|[H|[H|H]]]; cbn [In]; auto.
        -- intros d K. apply v_down0, SUB. exact K.
        -- intros b [<-|K]; [|exact (v_bin0 b K)]. split; [tauto|exact USED].
        -- constructor; [tauto|assumption].
      * intros c G. destruct (D c G) as [H|H].
        -- left. intros d K. apply H, SUB. exact K.
        -- right. intros x K. cbn [col bot top In]. destruct (H x K) as [Q|[Q|Q]]; auto.
Qed.
Lemma step_up_inv st n rest : inv st -> going_up st -> pop_bottom ref (up st) = Some (n, rest) ->
  inv (step_up st n rest) /\ going_up (step_up st n rest).
Proof.
  intros I D P. destruct (pop_bottom_spec _ _ _ P) as (IN & BEST & SPLIT & SUB & _).
  pose proof (found_top_safe st n I D IN) as SAFE.
  unfold step_up. set (st1 := XS (col st) (top st) (bot st) (down st) rest). cbv zeta.
  change (has_walked i st1 n) with (has_walked i st n). change (my_precious st1 n) with (my_precious st n).
  destruct (has_walked i st n) eqn:W.
  - apply walked_iff in W. split.
    + destruct I. constructor; try assumption.
      * intros a x G K. destruct (v_outs0 a x G K) as [H|[H|[H|H]]]; cbn [st1 col bot top up]; auto.
        destruct (SPLIT x H) as [->|Q]; [tauto|auto].
      * intros d K. apply v_up0. apply SUB. exact K.
    + intros c G. destruct (D c G) as [H|H]; [left|right; exact H]. intros d K. apply H. apply SUB. exact K.
  - assert (NW : ~ (In n (top st) \/ In n (bot st) \/ inG st n)) by (rewrite <- walked_iff, W; discriminate).
    destruct (my_precious st n) eqn:PR.
    + assert (J : inv (add st n)) by (apply add_inv; auto; tauto).
      split.
      * destruct J. constructor; try assumption.
        -- intros a x G K. destruct (v_outs0 a x G K) as [H|[H|[H|H]]]; [tauto|tauto|tauto|].
           apply add_up in H. destruct H as [H|H].
           ++ destruct (SPLIT x H) as [->|Q]; [left; apply add_in; now left|].
              right; right; right. apply add_up. left. exact Q.
           ++ right; right; right. apply add_up. right. exact H.
        -- intros d K. apply v_up0. apply add_up in K. apply add_up. destruct K as [K|K]; [left; apply SUB; exact K|right; exact K].
      * intros c G. apply (add_in st1 n c) in G. destruct G as [->|G].
        -- left. intros d K. apply add_up in K. destruct K as [K|(K & _)]; [apply BEST, SUB; exact K|].
           destruct (ref n d) eqn:E; [|reflexivity]. destruct (ref_no _ _ E (ref_out _ _ K)).
        -- destruct (D c G) as [H|H].
           ++ left. intros d K. apply add_up in K. destruct K as [K|(K & _)]; [apply H, SUB; exact K|].
              destruct (ref c d) eqn:E; [|reflexivity]. pose proof (ref_trans _ _ _ E (ref_out _ _ K)) as Q.
              rewrite (H n IN) in Q. discriminate.
           ++ right. intros x K. rewrite (add_in st1 n x). cbn [SplitterModel.add bot top]. destruct (H x K) as [Q|[Q|Q]]; cbn [st1 col bot top]; tauto.
    + split.
      * destruct I. constructor; cbn [col bot top down up] in *; try assumption.
        -- intros t a [<-|K] G; [apply SAFE; auto|apply v_top0; auto].
        -- intros a x G K. destruct (v_ins0 a x G K) as [H|[H|[H|H]]]; cbn [In]; auto.
        -- intros a x G K. destruct (v_outs0 a x G K) as [H|[H|[H|H]]]; cbn [In]; auto.
           destruct (SPLIT x H) as [->|Q]; auto.
        -- intros d K. apply v_up0, SUB. exact K.
        -- intros t [<-|K]; [tauto|exact (v_tin0 t K)].
      * intros c G. destruct (D c G) as [H|H].
        -- left. intros d K. apply H, SUB. exact K.
        -- right. intros x K. cbn [col bot top In]. destruct (H x K) as [Q|[Q|Q]]; auto.
Qed.

Lemma run_S fuel b st : run (S fuel) b st =
  if b then match pop_top ref (down st) with
    | Some (n, rest) => run fuel true (step_down st n rest)
    | None => match up st with [] => Some st | _ => run fuel false st end end
  else match pop_bottom ref (up st) with
    | Some (n, rest) => run fuel false (step_up st n rest)
    | None => match down st with [] => Some st | _ => run fuel true st end end.
Proof. reflexivity. Qed.

(** at the end of the search both queues are empty *)
Lemma run_inv fuel : forall b st st', inv st -> (if b : bool then going_down st else going_up st) ->
  run fuel b st = Some st' -> inv st' /\ down st' = [] /\ up st' = [].
Proof.
  induction fuel as [|fuel IH]; [discriminate|]. intros b st st' I D. rewrite run_S. destruct b.
  - destruct (pop_top ref (down st)) as [(n, rest)|] eqn:P.
    + destruct (step_down_inv st n rest I D P) as (J & E). exact (IH true _ _ J E).
    + apply pop_none in P. destruct (up st) as [|u us] eqn:U.
      * intros H. injection H as <-. auto.
      * intros H. refine (IH false _ _ I _ H). intros a G. right. intros x K.
        destruct (v_ins st I a x G K) as [Q|[Q|[Q|Q]]]; auto. rewrite P in Q. destruct Q.
  - destruct (pop_bottom ref (up st)) as [(n, rest)|] eqn:P.
    + destruct (step_up_inv st n rest I D P) as (J & E). exact (IH false _ _ J E).
    + apply pop_none in P. destruct (down st) as [|u us] eqn:U.
      * intros H. injection H as <-. auto.
      * intros H. refine (IH true _ _ I _ H). intros a G. right. intros x K.
        destruct (v_outs st I a x G K) as [Q|[Q|[Q|Q]]]; auto. rewrite P in Q. destruct Q.
Qed.

(** how long the search takes *)
Definition weight (n : nat) : nat := length (inputs n) + length (outputs n).
Definition left_weight (c : nat -> Z) : nat := list_sum (map weight (filter (fun n => negb (c n =? i)) all)).
Definition measure (st : xstate) : nat := length (down st) + length (up st) + left_weight (col st).

Lemma left_paint c n l : NoDup l -> c n <> i ->
  (list_sum (map weight (filter (fun m => negb (paint c n i m =? i)%Z) l)) + (if mem n l then weight n else 0)
  = list_sum (map weight (filter (fun m => negb (c m =? i)%Z) l)))%nat.
Proof.
  intros ND NI. induction l as [|x l IH]; [reflexivity|]. inversion ND as [|? ? NX ND']; subst.
  specialize (IH ND'). cbn [filter]. unfold paint at 1. unfold mem. cbn [existsb]. fold (mem n l). rewrite (Nat.eqb_sym n x).
  destruct (Nat.eqb_spec x n) as [->|NE].
  - rewrite Z.eqb_refl. destruct (Z.eqb_spec (c n) i); [contradiction|]. cbn [negb map list_sum orb fold_right].
    apply mem_no in NX. rewrite NX in IH. unfold list_sum in *. lia.
  - cbn [orb]. destruct (c x =? i); cbn [negb map list_sum fold_right]; unfold list_sum in *; lia.
Qed.
Lemma filter_le {A} (f : A -> bool) l : (length (filter f l) <= length l)%nat.
Proof. induction l; cbn; [lia|]. destruct (f a); cbn; lia. Qed.
Lemma add_measure st n : In n all -> ~ inG st n -> (measure (add st n) <= measure st)%nat.
Proof.
  intros IN NG. unfold measure, left_weight. cbn [SplitterModel.add down up col].
  pose proof (left_paint (col st) n all (gl_nodup _ _ _ GL) NG) as E. apply mem_In in IN. rewrite IN in E.
  rewrite !app_length.
  match goal with |- (_ + length (filter ?f _) + (_ + length (filter ?g _)) + _ <= _)%nat =>
    pose proof (filter_le f (inputs n)); pose proof (filter_le g (outputs n)) end.
  unfold weight in E at 2. lia.
Qed.
Lemma in_all_inputs a x : In x (inputs a) -> In x all.
Proof. intros H. apply (gl_all _ _ _ GL a x H). Qed.
Lemma in_all_outputs a x : In x (outputs a) -> In x all.
Proof. intros H. apply (gl_dual _ _ _ GL) in H. apply (gl_all _ _ _ GL x a H). Qed.

Lemma run_ends fuel : forall b st, inv st -> (if b : bool then going_down st else going_up st) ->
  (2 * measure st + 1 + (match b, down st, up st with true, [], _ => 1 | false, _, [] => 1 | _, _, _ => 0 end) < fuel)%nat ->
  exists st', run fuel b st = Some st'.
Proof.
  induction fuel as [|fuel IH]; [lia|]. intros b st I D F. rewrite run_S. destruct b.
  - destruct (pop_top ref (down st)) as [(n, rest)|] eqn:P.
    + destruct (step_down_inv st n rest I D P) as (J & E). apply (IH true); [exact J|exact E|].
      destruct (pop_top_spec _ _ _ P) as (IN & _ & _ & _ & L).
      assert (M : (S (measure (step_down st n rest)) <= measure st)%nat).
      { unfold step_down. set (st1 := XS (col st) (top st) (bot st) rest (up st)).
        assert (M1 : (S (measure st1) = measure st)%nat) by (unfold measure; cbn [st1 down up col]; lia). cbv zeta.
        destruct (has_walked i st1 n) eqn:W; [lia|]. destruct (my_precious st1 n).
        - pose proof (add_measure st1 n). destruct (v_down st I n IN) as (a & _ & U).
          assert (~ inG st1 n) by (intros G; assert (has_walked i st1 n = true) by (apply walked_iff; tauto); congruence).
          pose proof (in_all_inputs a n U). specialize (H H1 H0). lia.
        - unfold measure in *. cbn [st1 down up col] in *. lia. }
      destruct (down (step_down st n rest)), (down st); lia.
    + apply pop_none in P. rewrite ?P in F. destruct (up st) as [|u us] eqn:U; [eexists; reflexivity|].
      apply (IH false); [exact I| |].
      * intros a G. right. intros x K. destruct (v_ins st I a x G K) as [Q|[Q|[Q|Q]]]; auto. rewrite P in Q. destruct Q.
      * rewrite ?P, ?U. lia.
  - destruct (pop_bottom ref (up st)) as [(n, rest)|] eqn:P.
    + destruct (step_up_inv st n rest I D P) as (J & E). apply (IH false); [exact J|exact E|].
      destruct (pop_bottom_spec _ _ _ P) as (IN & _ & _ & _ & L).
      assert (M : (S (measure (step_up st n rest)) <= measure st)%nat).
      { unfold step_up. set (st1 := XS (col st) (top st) (bot st) (down st) rest).
        assert (M1 : (S (measure st1) = measure st)%nat) by (unfold measure; cbn [st1 down up col]; lia). cbv zeta.
        destruct (has_walked i st1 n) eqn:W; [lia|]. destruct (my_precious st1 n).
        - pose proof (add_measure st1 n). destruct (v_up st I n IN) as (a & _ & U).
          assert (~ inG st1 n) by (intros G; assert (has_walked i st1 n = true) by (apply walked_iff; tauto); congruence).
          pose proof (in_all_outputs a n U). specialize (H H1 H0). lia.
        - unfold measure in *. cbn [st1 down up col] in *. lia. }
      destruct (down st), (down (step_up st n rest)), (up (step_up st n rest)), (up st); lia.
    + apply pop_none in P. rewrite ?P in F. destruct (down st) as [|u us] eqn:U; [eexists; reflexivity|].
      apply (IH true); [exact I| |].
      * intros a G. right. intros x K. destruct (v_outs st I a x G K) as [Q|[Q|[Q|Q]]]; auto. rewrite P in Q. destruct Q.
      * rewrite ?P, ?U. lia.
Qed.
Notation start := (add (XS c0 [] [] [] []) s).
Hypothesis FRESH : forall n, c0 n <> i.
Hypothesis SOK : c0 s < 0 /\ ok s = true.
Lemma start_in n : inG start n <-> n = s.
Proof. rewrite add_in. cbn [col]. specialize (FRESH n). tauto. Qed.
Lemma start_inv : inv start /\ going_down start.
Proof.
  split.
  - constructor.
    + apply start_in. reflexivity.
    + intros n. destruct (Nat.eq_dec n s) as [->|N]; [right; split; [now apply start_in|exact SOK]|left].
      cbn. unfold paint. destruct (Nat.eqb_spec n s); tauto.
    + intros b c [].
    + intros b c [].
    + intros a x G K. rewrite add_down. apply start_in in G. subst a. destruct (in_dec start x); [now left|]. cbn [bot down]. right; right; right. right. cbn [In]. tauto.
    + intros a x G K. rewrite add_up. apply start_in in G. subst a. destruct (in_dec start x); [now left|]. cbn [top up]. right; right; right. right. cbn [In]. tauto.
    + intros d K. apply add_down in K. destruct K as [[]|(K & _)]. exists s. split; [now apply start_in|exact K].
    + intros d K. apply add_up in K. destruct K as [[]|(K & _)]. exists s. split; [now apply start_in|exact K].
    + intros b [].
    + intros b [].
    + constructor.
  - intros c G. apply start_in in G. subst c. left. intros d K. apply add_down in K. destruct K as [[]|(K & _)].
    destruct (ref d s) eqn:E; [|reflexivity]. destruct (ref_no _ _ E (ref_use _ _ K)).
Qed.
Lemma start_down : inputs s = [] <-> down start = [].
Proof.
  split.
  - intros E. cbn. rewrite E. reflexivity.
  - intros E. destruct (inputs s) as [|x l] eqn:I; [reflexivity|]. exfalso.
    assert (K : In x (down start)).
    { apply add_down. right. rewrite I. split; [now left|]. split; [easy|]. rewrite start_in. intros ->.
      pose proof (ref_use s s) as R. rewrite I in R. specialize (R (or_introl eq_refl)). rewrite ref_irr in R. discriminate. }
    rewrite E in K. destruct K.
Qed.

(** the state the search ends in *)
Record ended (st : xstate) : Prop := {
  e_inv : inv st;
  e_down : down st = [];
  e_up : (inputs s <> [] /\ up st = []) \/ (inputs s = [] /\ st = start) }.
Definition search (fuel : nat) : option xstate := match down start with [] => Some start | _ => run fuel true start end.
Lemma search_ended fuel st : search fuel = Some st -> ended st.
Proof.
  unfold search. destruct start_inv as (I & D). destruct (down start) as [|d l] eqn:E.
  - intros H. injection H as <-. constructor; [exact I|exact E|]. right. split; [apply start_down; exact E|reflexivity].
  - intros H. destruct (run_inv fuel true _ _ I D H) as (J & A & B). constructor; auto. left. split; [|exact B].
    intros N. apply start_down in N. rewrite E in N. discriminate.
Qed.
Lemma search_ends fuel : In s all -> (2 * list_sum (map weight all) + 1 < fuel)%nat -> exists st, search fuel = Some st.
Proof.
  intros IN F. unfold search. destruct start_inv as (I & D). destruct (down start) as [|d l] eqn:E; [eexists; reflexivity|].
  apply (run_ends fuel true); [exact I|exact D|]. rewrite E.
  assert (M : (measure start <= list_sum (map weight all))%nat).
  { etransitivity; [apply add_measure; [exact IN|apply FRESH]|]. unfold measure, left_weight. cbn [down up length col Nat.add].
    clear. induction all as [|x l IH]; [reflexivity|]. cbn [filter]. destruct (c0 x =? i); cbn [negb map list_sum fold_right]; unfold list_sum in *; lia. }
  lia.
Qed.

Lemma ended_ins st : ended st -> forall a x, inG st a -> In x (inputs a) -> inG st x \/ In x (bot st).
Proof.
  intros [I D _] a x G K. destruct (v_ins st I a x G K) as [H|[H|[H|H]]]; auto.
  - pose proof (v_top st I x a H G) as E. rewrite (ref_use _ _ K) in E. discriminate.
  - rewrite D in H. destruct H.
Qed.
Lemma ended_outs st : ended st -> up st = [] -> forall a x, inG st a -> In x (outputs a) -> inG st x \/ In x (top st).
Proof.
  intros [I _ _] U a x G K. destruct (v_outs st I a x G K) as [H|[H|[H|H]]]; auto.
  - pose proof (v_bot st I x a H G) as E. rewrite (ref_out _ _ K) in E. discriminate.
  - rewrite U in H. destruct H.
Qed.
Lemma ended_convex st : ended st -> convex inputs (fun n => inG st n).
Proof.
  intros E a x b A B R1 R2. destruct (in_dec st x) as [X|X]; [exact X|]. exfalso.
  apply REF in R1. apply REF in R2.
  destruct (first_out st a x R1 X A) as (g & y & Gg & Gy & U & Y & _).
  destruct (ended_ins st E g y Gg U) as [H|H]; [tauto|].
  assert (R : ref y b = true) by (destruct Y as [->|Y]; [exact R2|eapply ref_trans; eassumption]).
  rewrite (v_bot st (e_inv st E) y b H B) in R. discriminate.
Qed.

Definition tops_of (st : xstate) := filter (fun t => in_graph i st t && existsb (fun n => mem t (inputs n)) (top st)) all.
Definition bottoms_of (st : xstate) := filter (fun n => existsb (fun t => ref t n) (tops_of st)) (bot st).

Lemma tops_in st x : ended st -> In x (tops_of st) <-> In x all /\ inG st x /\ exists n, In n (top st) /\ In x (inputs n).
Proof.
  intros E. unfold tops_of. rewrite filter_In, andb_true_iff, existsb_exists. unfold in_graph. rewrite Z.eqb_eq.
  split; intros (A & B & n & K & L); (split; [exact A|]; split; [exact B|]; exists n; split; [exact K|]); apply mem_In; exact L.
Qed.
Lemma tops_offer st : ended st -> inputs s <> [] -> forall x, In x (tops_of st) <-> offers inputs (fun n => inG st n) x.
Proof.
  intros E NE x. rewrite tops_in by exact E.
  assert (U : up st = []) by (destruct (e_up st E) as [(_ & U)|(U & _)]; [exact U|contradiction]). split.
  - intros (A & B & n & K & L). split; [exact B|]. exists n. split; [exact (v_tin st (e_inv st E) n K)|exact L].
  - intros (B & n & K & L). split; [exact (in_all_inputs n x L)|]. split; [exact B|]. exists n. split; [|exact L].
    apply (gl_dual _ _ _ GL) in L. destruct (ended_outs st E U x n B L); [contradiction|assumption].
Qed.
Lemma ended_alone st : ended st -> inputs s = [] -> tops_of st = [] /\ forall n, inG st n <-> n = s.
Proof.
  intros E NE. destruct (e_up st E) as [(U & _)|(_ & ->)]; [contradiction|]. split; [|exact start_in].
  unfold tops_of. cbn [SplitterModel.add top existsb]. clear. induction all as [|x l IH]; [reflexivity|].
  cbn [filter]. rewrite andb_false_r. exact IH.
Qed.
Lemma bottoms_need st x : ended st -> In x (bottoms_of st) -> needs inputs (fun n => inG st n) x.
Proof.
  intros E H. apply filter_In in H. destruct H as (H & _). exact (v_bin st (e_inv st E) x H).
Qed.
Lemma bottoms_all st x : ended st -> (forall n, inG st n -> exists e, ~ inG st e /\ depends inputs e n) ->
  needs inputs (fun n => inG st n) x -> In x (bottoms_of st).
Proof.
  intros E ENDS (NX & a & A & U). apply filter_In.
  assert (NE : inputs s <> []).
  { intros N. destruct (ended_alone st E N) as (_ & K). apply K in A. subst a. unfold uses in U. rewrite N in U. destruct U. }
  destruct (ended_ins st E a x A U) as [H|H]; [contradiction|]. split; [exact H|]. apply existsb_exists.
  destruct (ENDS a A) as (e & NE' & R). apply REF in R.
  destruct (last_out st e a R NE' A) as (g & y & Gg & Gy & O & _).
  (* the topmost member on the way *)
  assert (T : exists t, In t (tops_of st) /\ (t = a \/ ref t a = true)).
  { clear g y Gg Gy O. apply REF in R. unfold depends in R. apply clos_trans_t1n in R.
    assert (A' : inG st a) by exact A. clear U H ENDS. revert NE' A'. induction R as [e b U|e y b U D IH]; intros NE1 A1.
    - exists b. split; [|now left]. apply (tops_offer st E NE). split; [exact A1|]. exists e. split; [exact NE1|exact U].
    - destruct (in_dec st y) as [Y|Y].
      + exists y. split; [|right; apply REF; apply clos_t1n_trans; exact D]. apply (tops_offer st E NE).
        split; [exact Y|]. exists e. split; [exact NE1|exact U].
      + exact (IH A Y A1). }
  destruct T as (t & T & K). exists t. split; [exact T|]. destruct K as [->|K]; [apply ref_use; exact U|].
  eapply ref_trans; [exact K|apply ref_use; exact U].
Qed.
End One.

Notation explore := (explore inputs outputs ref ok support false).

Lemma explore_shape i fuel c s c' a : explore i fuel all c s = Some (c', a) ->
  (c' = c /\ a = NotGraph /\ ok_to_add ok c s = false) \/
  ((c s < 0 /\ ok s = true) /\ exists st, search i c s fuel = Some st /\
    ((existsb support (filter (in_graph i st) all) = true /\ c' = col st /\ a = Group (bottoms_of i st) (tops_of i st)) \/
     (existsb support (filter (in_graph i st) all) = false /\ c' = (fun n => if in_graph i st n then 0 else col st n) /\ a = Routes))).
Proof.
  unfold SplitterModel.explore. destruct (ok_to_add ok c s) eqn:K; cbn [negb].
  - intros H. right. split; [unfold ok_to_add in K; apply andb_true_iff in K; rewrite Z.ltb_lt in K; exact K|].
    cbv zeta in H. fold (search i c s fuel) in H. destruct (search i c s fuel) as [st|]; [|discriminate]. exists st. split; [reflexivity|].
    destruct (existsb support (filter (in_graph i st) all)) eqn:Q; [left|right]; (split; [reflexivity|]); unfold bottoms_of, tops_of; split; congruence.
  - intros H. left. split; [|split]; congruence.
Qed.

Lemma explored i fuel c s c' a : 0 < i -> (forall n, c n <> i) -> explore i fuel all c s = Some (c', a) ->
  match a with
  | NotGraph => c' = c /\ ~ (c s < 0 /\ ok s = true)
  | Routes => c' s = 0 /\ forall n, c' n = c n \/ (c' n = 0 /\ c n < 0 /\ ok n = true /\ (In n all -> support n = false))
  | Group ins outs => c' s = i /\ (forall n, c' n = c n \/ (c' n = i /\ c n < 0 /\ ok n = true)) /\
      proper_group inputs ok support all (fun n => c' n = i) ins outs
  end.
Proof.
  intros PI FR H. destruct (explore_shape _ _ _ _ _ _ H) as [(-> & -> & K)|(SOK & st & S & CASES)].
  - split; [reflexivity|]. intros (A & B). unfold ok_to_add in K. rewrite B, andb_true_r, Z.ltb_ge in K. lia.
  - assert (E : ended i c s st) by (eapply search_ended; eassumption).
    destruct CASES as [(Q & -> & ->)|(Q & -> & ->)].
    + split; [exact (v_start _ _ _ _ (e_inv _ _ _ _ E))|]. split; [exact (v_keep _ _ _ _ (e_inv _ _ _ _ E))|]. constructor.
      * intros n G. destruct (v_keep _ _ _ _ (e_inv _ _ _ _ E) n) as [K|(_ & _ & K)]; [|exact K]. destruct (FR n). congruence.
      * apply existsb_exists in Q. destruct Q as (n & N & Q). apply filter_In in N. destruct N as (N & G). exists n.
        split; [exact N|]. split; [apply Z.eqb_eq; exact G|exact Q].
      * eapply ended_convex; eassumption.
      * intros x. eapply bottoms_need. exact E.
      * intros ENDS x N. eapply bottoms_all; eassumption.
      * apply NoDup_filter. exact (v_nodup _ _ _ _ (e_inv _ _ _ _ E)).
      * destruct (inputs s) as [|b l] eqn:IS.
        -- right. destruct (ended_alone i c s FR SOK st E IS) as (A & B). split; [exact A|]. exists s. split; [exact IS|exact B].
        -- left. eapply tops_offer; [exact E|]. rewrite IS. discriminate.
    + assert (G : forall n, in_graph i st n = true <-> col st n = i) by (intros n; apply Z.eqb_eq). split.
      * pose proof (v_start _ _ _ _ (e_inv _ _ _ _ E)) as K. apply G in K. rewrite K. reflexivity.
      * intros n. destruct (in_graph i st n) eqn:GN.
        -- right. apply G in GN. destruct (v_keep _ _ _ _ (e_inv _ _ _ _ E) n) as [K|(_ & K & L)]; [destruct (FR n); congruence|].
           split; [reflexivity|]. split; [exact K|]. split; [exact L|]. intros IN. destruct (support n) eqn:SN; [|reflexivity].
           rewrite <- Q. symmetry. apply existsb_exists. exists n. split; [|exact SN]. apply filter_In. split; [exact IN|apply G; exact GN].
        -- left. destruct (v_keep _ _ _ _ (e_inv _ _ _ _ E) n) as [K|(K & _)]; [exact K|]. apply G in K. congruence.
Qed.

Lemma explore_ends i fuel c s : (forall n, c n <> i) -> In s all ->
  (2 * list_sum (map (fun n => length (inputs n) + length (outputs n)) all) + 1 < fuel)%nat ->
  explore i fuel all c s <> None.
Proof.
  intros FR IN F. unfold SplitterModel.explore. destruct (ok_to_add ok c s) eqn:K; [|discriminate]. cbn [negb].
  assert (SOK : c s < 0 /\ ok s = true) by (unfold ok_to_add in K; apply andb_true_iff in K; rewrite Z.ltb_lt in K; exact K).
  destruct (search_ends i c s FR SOK fuel IN F) as (st & E). cbv zeta. fold (search i c s fuel). rewrite E.
  destruct (existsb support (filter (in_graph i st) all)); discriminate.
Qed.

(** the groups made so far *)
Record split_inv (tops queue : list nat) (c : nat -> Z) (groups : list group) : Prop := {
  s_color : forall n, c n <= Z.of_nat (length groups);
  s_queue : forall n, In n queue -> In n all;
  s_group : forall k g, nth_error groups k = Some g -> g_color g = Z.of_nat k + 1 /\
    proper_group inputs ok support all (fun n => c n = g_color g) (g_ins g) (g_outs g) /\
    forall x, In x (g_ins g) -> In x queue \/ 0 <= c x;
  s_tops : forall t, In t tops -> In t queue \/ 0 <= c t;
  s_rest : forall n, In n all -> c n = 0 -> support n = true -> ok n = true -> False }.

Notation split_loop := (split_loop inputs outputs ref ok support false).

Lemma uncolored_in c l x : In x l -> In x (uncolored c l) \/ 0 <= c x.
Proof.
  intros H. destruct (Z.ltb_spec (c x) 0) as [L|L]; [left|right; exact L]. apply filter_In. split; [exact H|]. apply Z.ltb_lt. exact L.
Qed.
(** colors given stay *)
Lemma keep_group (c c' : nat -> Z) (i : Z) g : 0 < g_color g -> g_color g <> i ->
  (forall n, c' n = c n \/ ((c' n = 0 \/ c' n = i) /\ c n < 0)) ->
  (forall n, c n = g_color g <-> c' n = g_color g).
Proof. intros A B C n. destruct (C n) as [->|([E|E] & L)]; [tauto|lia|lia]. Qed.

Lemma step_keeps tops queue q' c c' groups n i :
  split_inv tops queue c groups -> pop_top ref queue = Some (n, q') ->
  (i = 0 \/ i = Z.of_nat (length groups) + 1) -> 0 <= c' n ->
  (forall m, c' m = c m \/ ((c' m = 0 \/ c' m = i) /\ c m < 0)) -> forall more,
  (forall k g, nth_error groups k = Some g -> g_color g = Z.of_nat k + 1 /\
    proper_group inputs ok support all (fun n => c' n = g_color g) (g_ins g) (g_outs g) /\
    forall x, In x (g_ins g) -> In x (q' ++ more) \/ 0 <= c' x) /\
  (forall t, In t tops -> In t (q' ++ more) \/ 0 <= c' t).
Proof.
  intros I P CI CN C more. destruct (pop_top_spec _ _ _ P) as (_ & _ & SPL & _).
  assert (KEEP : forall x, In x queue \/ 0 <= c x -> In x (q' ++ more) \/ 0 <= c' x).
  { intros x [H|H].
    - destruct (SPL x H) as [->|Q]; [right; exact CN|left; apply in_or_app; now left].
    - right. destruct (C x) as [->|(_ & L)]; [exact H|lia]. }
  split.
  - intros k g K. destruct (s_group _ _ _ _ I k g K) as (A & B & D). split; [exact A|]. split.
    + eapply proper_group_ext; [|exact B]. apply (keep_group c c' i); [lia| |exact C].
      assert (k < length groups)%nat by (apply nth_error_Some; congruence). lia.
    + intros x X. apply KEEP, D. exact X.
  - intros t T. apply KEEP. exact (s_tops _ _ _ _ I t T).
Qed.

Lemma split_loop_inv fuel : forall xfuel tops queue c groups c' groups',
  split_inv tops queue c groups -> split_loop fuel xfuel all queue c groups = Some (c', groups') ->
  split_inv tops [] c' groups' /\ exists later, groups' = groups ++ later.
Proof.
  induction fuel as [|fuel IH]; [discriminate|]. intros xfuel tops queue c groups c' groups' I. cbn [SplitterModel.split_loop].
  destruct (pop_top ref queue) as [(n, q')|] eqn:P.
  2:{ apply pop_none in P. subst queue. intros H. injection H as <- <-. split; [exact I|]. exists []. symmetry. apply app_nil_r. }
  destruct (pop_top_spec _ _ _ P) as (IN & _ & SPL & SUB & _).
  destruct (Z.leb_spec 0 (c n)) as [CN|CN].
  { apply IH. destruct (step_keeps tops queue q' c c groups n 0 I P) with (more := @nil nat) as (A & B); [now left|exact CN|now left|].
    rewrite app_nil_r in A, B. destruct I. constructor; auto. }
  cbv zeta. set (i := Z.of_nat (length groups) + 1).
  assert (FR : forall m, c m <> i) by (intros m; pose proof (s_color _ _ _ _ I m); unfold i; lia).
  destruct (explore i xfuel all c n) as [(c1, a)|] eqn:E; [|discriminate].
  assert (PI : 0 < i) by (unfold i; lia).
  pose proof (explored i xfuel c n c1 a PI FR E) as X. destruct a as [| |ins outs].
  - destruct X as (-> & NO). intros H. revert H. apply IH.
    assert (C : forall m, paint c n 0 m = c m \/ ((paint c n 0 m = 0 \/ paint c n 0 m = 0) /\ c m < 0)).
    { intros m. unfold paint. destruct (Nat.eqb_spec m n); [subst; right; auto|now left]. }
    destruct (step_keeps tops queue q' c (paint c n 0) groups n 0 I P) with (more := uncolored (paint c n 0) (inputs n)) as (A & B);
      [now left|unfold paint; rewrite Nat.eqb_refl; lia|exact C|].
    destruct I. constructor; auto.
    + intros m. destruct (C m) as [->|([->| ->] & _)]; [auto|lia|lia].
    + intros m M. apply in_app_or in M. destruct M as [M|M]; [auto|]. apply filter_In in M. destruct M as (M & _). exact (in_all_inputs n m M).
    + intros m M Z0 SM OM. destruct (C m) as [K|(_ & K)]; [rewrite K in Z0; eauto|].
      unfold paint in Z0. destruct (Nat.eqb_spec m n) as [->|]; [apply NO; split; [lia|exact OM]|lia].
  - destruct X as (CS & C). apply IH.
    destruct (step_keeps tops queue q' c c1 groups n 0 I P) with (more := @nil nat) as (A & B);
      [now left|lia|intros m; destruct (C m) as [->|(-> & L & _)]; [now left|right; auto]|].
    rewrite app_nil_r in A, B. destruct I. constructor; auto.
    + intros m. destruct (C m) as [->|(-> & _)]; [auto|lia].
    + intros m M Z0 SM OM. destruct (C m) as [K|(_ & _ & _ & K)]; [rewrite K in Z0; eauto|]. rewrite (K M) in SM. discriminate.
  - destruct X as (CS & C & PG). intros H.
    assert (I' : split_inv tops (q' ++ uncolored c1 ins) c1 (groups ++ [Grp i ins outs])).
    { destruct (step_keeps tops queue q' c c1 groups n i I P) with (more := uncolored c1 ins) as (A & B);
        [now right|lia|intros m; destruct (C m) as [->|(-> & L & _)]; [now left|right; auto]|].
      destruct I. constructor; auto.
      + intros m. rewrite app_length. cbn [length]. destruct (C m) as [->|(-> & _)]; [specialize (s_color0 m); lia|unfold i; lia].
      + intros m M. apply in_app_or in M. destruct M as [M|M]; [auto|]. apply filter_In in M. destruct M as (M & _).
        destruct (pg_ins _ _ _ _ _ _ _ PG m M) as (_ & a & _ & U). exact (in_all_inputs a m U).
      + intros k g K. destruct (Nat.lt_ge_cases k (length groups)) as [L|L].
        * rewrite nth_error_app1 in K by exact L. auto.
        * rewrite nth_error_app2 in K by exact L. destruct (k - length groups)%nat as [|d] eqn:D; [|destruct d; discriminate].
          injection K as <-. cbn [g_color g_ins g_outs]. split; [unfold i; lia|]. split; [exact PG|].
          intros x X. destruct (uncolored_in c1 ins x X); [left; apply in_or_app; now right|now right].
      + intros m M Z0 SM OM. destruct (C m) as [K|(K & _)]; [rewrite K in Z0; eauto|lia]. }
    destruct (IH _ _ _ _ _ _ _ I' H) as (J & later & E'). split; [exact J|]. exists (Grp i ins outs :: later). rewrite E', <- app_assoc. reflexivity.
Qed.
Definition count (c : nat -> Z) (l : list nat) : nat := length (filter (fun n => c n <? 0) l).
Lemma count_le c c' l : (forall m, 0 <= c m -> 0 <= c' m) -> (count c' l <= count c l)%nat.
Proof.
  intros H. unfold count. induction l as [|x l IH]; [reflexivity|]. cbn [filter].
  destruct (Z.ltb_spec (c' x) 0), (Z.ltb_spec (c x) 0); cbn [length]; try lia. specialize (H x). lia.
Qed.
Lemma count_lt c c' n l : (forall m, 0 <= c m -> 0 <= c' m) -> In n l -> c n < 0 -> 0 <= c' n -> (S (count c' l) <= count c l)%nat.
Proof.
  intros H IN A B. unfold count. induction l as [|x l IH]; [destruct IN|]. cbn [filter]. destruct IN as [->|IN].
  - pose proof (count_le c c' l H) as L. unfold count in L. destruct (Z.ltb_spec (c' n) 0), (Z.ltb_spec (c n) 0); cbn [length]; lia.
  - specialize (IH IN). destruct (Z.ltb_spec (c' x) 0), (Z.ltb_spec (c x) 0); cbn [length]; try lia. specialize (H x). lia.
Qed.

Lemma split_loop_ends fuel : forall xfuel tops queue c groups K,
  split_inv tops queue c groups ->
  (2 * list_sum (map (fun n => length (inputs n) + length (outputs n)) all) + 1 < xfuel)%nat ->
  (length all <= K)%nat -> (forall n, length (inputs n) <= K)%nat ->
  (length queue + K * count c all < fuel)%nat ->
  split_loop fuel xfuel all queue c groups <> None.
Proof.
  induction fuel as [|fuel IH]; [lia|]. intros xfuel tops queue c groups K I XF LA LI F. cbn [SplitterModel.split_loop].
  destruct (pop_top ref queue) as [(n, q')|] eqn:P; [|discriminate].
  destruct (pop_top_spec _ _ _ P) as (IN & _ & SPL & SUB & LEN).
  destruct (Z.leb_spec 0 (c n)) as [CN|CN].
  { apply (IH xfuel tops q' c groups K); auto; [|lia].
    destruct (step_keeps tops queue q' c c groups n 0 I P) with (more := @nil nat) as (A & B); [now left|exact CN|now left|].
    rewrite app_nil_r in A, B. destruct I. constructor; auto. }
  cbv zeta. set (i := Z.of_nat (length groups) + 1).
  assert (FR : forall m, c m <> i) by (intros m; pose proof (s_color _ _ _ _ I m); unfold i; lia).
  pose proof (explore_ends i xfuel c n FR (s_queue _ _ _ _ I n IN) XF) as TERM.
  destruct (explore i xfuel all c n) as [(c1, a)|] eqn:E; [|congruence]. clear TERM.
  assert (PI : 0 < i) by (unfold i; lia).
  assert (NA : In n all) by (exact (s_queue _ _ _ _ I n IN)).
  assert (GO : forall c2 more groups2, split_inv tops (q' ++ more) c2 groups2 -> (length more <= K)%nat ->
    (forall m, 0 <= c m -> 0 <= c2 m) -> 0 <= c2 n -> split_loop fuel xfuel all (q' ++ more) c2 groups2 <> None).
  { intros c2 more groups2 J LM MON C2. apply (IH xfuel tops _ _ _ K); auto.
    pose proof (count_lt c c2 n all MON NA CN C2) as Q. rewrite app_length.
    assert (K * S (count c2 all) <= K * count c all)%nat by (apply Nat.mul_le_mono_l; exact Q). lia. }
  pose proof (explored i xfuel c n c1 a PI FR E) as X. destruct a as [| |ins outs].
  - destruct X as (-> & NO).
    assert (C : forall m, paint c n 0 m = c m \/ ((paint c n 0 m = 0 \/ paint c n 0 m = 0) /\ c m < 0)).
    { intros m. unfold paint. destruct (Nat.eqb_spec m n); [subst; right; auto|now left]. }
    assert (PN : 0 <= paint c n 0 n) by (unfold paint; rewrite Nat.eqb_refl; lia).
    apply GO.
    + destruct (step_keeps tops queue q' c (paint c n 0) groups n 0 I P) with (more := uncolored (paint c n 0) (inputs n)) as (A & B);
        [now left|exact PN|exact C|].
      destruct I. constructor; auto.
      * intros m. destruct (C m) as [->|([->| ->] & _)]; [auto|lia|lia].
      * intros m M. apply in_app_or in M. destruct M as [M|M]; [auto|]. apply filter_In in M. destruct M as (M & _). exact (in_all_inputs n m M).
      * intros m M Z0 SM OM. destruct (C m) as [Q|(_ & Q)]; [rewrite Q in Z0; eauto|].
        unfold paint in Z0. destruct (Nat.eqb_spec m n) as [->|]; [apply NO; split; [lia|exact OM]|lia].
    + etransitivity; [apply filter_le|apply LI].
    + intros m M. destruct (C m) as [->|(_ & Q)]; [exact M|lia].
    + exact PN.
  - destruct X as (CS & C). rewrite <- (app_nil_r q'). apply GO.
    + destruct (step_keeps tops queue q' c c1 groups n 0 I P) with (more := @nil nat) as (A & B);
        [now left|lia|intros m; destruct (C m) as [->|(-> & L & _)]; [now left|right; auto]|].
      rewrite app_nil_r in A, B. rewrite app_nil_r. destruct I. constructor; auto.
      * intros m. destruct (C m) as [->|(-> & _)]; [auto|lia].
      * intros m M Z0 SM OM. destruct (C m) as [Q|(_ & _ & _ & Q)]; [rewrite Q in Z0; eauto|]. rewrite (Q M) in SM. discriminate.
    + cbn. lia.
    + intros m M. destruct (C m) as [->|(-> & _)]; [exact M|lia].
    + lia.
  - destruct X as (CS & C & PG). apply GO.
    + destruct (step_keeps tops queue q' c c1 groups n i I P) with (more := uncolored c1 ins) as (A & B);
        [now right|lia|intros m; destruct (C m) as [->|(-> & L & _)]; [now left|right; auto]|].
      destruct I. constructor; auto.
      * intros m. rewrite app_length. cbn [length]. destruct (C m) as [->|(-> & _)]; [specialize (s_color0 m); lia|unfold i; lia].
      * intros m M. apply in_app_or in M. destruct M as [M|M]; [auto|]. apply filter_In in M. destruct M as (M & _).
        destruct (pg_ins _ _ _ _ _ _ _ PG m M) as (_ & a & _ & U). exact (in_all_inputs a m U).
      * intros k g Q. destruct (Nat.lt_ge_cases k (length groups)) as [L|L].
        -- rewrite nth_error_app1 in Q by exact L. auto.
        -- rewrite nth_error_app2 in Q by exact L. destruct (k - length groups)%nat as [|d] eqn:D; [|destruct d; discriminate].
           injection Q as <-. cbn [g_color g_ins g_outs]. split; [unfold i; lia|]. split; [exact PG|].
           intros x X. destruct (uncolored_in c1 ins x X); [left; apply in_or_app; now right|now right].
      * intros m M Z0 SM OM. destruct (C m) as [Q|(Q & _)]; [rewrite Q in Z0; eauto|lia].
    + etransitivity; [apply filter_le|]. etransitivity; [|exact LA].
      apply NoDup_incl_length; [exact (pg_ins_once _ _ _ _ _ _ _ PG)|]. intros x X.
      destruct (pg_ins _ _ _ _ _ _ _ PG x X) as (_ & a & _ & U). exact (in_all_inputs a x U).
    + intros m M. destruct (C m) as [->|(-> & _)]; [exact M|lia].
    + lia.
Qed.

Lemma split_start tops : (forall t, In t tops -> In t all) -> split_inv tops tops (fun _ => -1) [].
Proof.
  intros T. constructor.
  - intros n. cbn. lia.
  - exact T.
  - intros k g K. destruct k; discriminate.
  - intros t H. now left.
  - intros n _ H. discriminate.
Qed.
End Graph.

(** ** The theorems *)
Definition ref_is (inputs : nat -> list nat) (ref : nat -> nat -> bool) : Prop := forall a b, ref a b = true <-> depends inputs a b.

(** what split answers: proper groups, each with its own color, every output of
    the graph and every input of a group decided, no accepted and supported
    node left out once decided *)
Theorem C154_groups_partial inputs outputs all ref ok support fuel xfuel tops c groups :
  graph_links inputs outputs all -> ref_is inputs ref -> (forall t, In t tops -> In t all) ->
  split inputs outputs ref ok support false fuel xfuel all tops = Some (c, groups) ->
  (forall k g, nth_error groups k = Some g -> g_color g = Z.of_nat k + 1 /\
     proper_group inputs ok support all (fun n => c n = g_color g) (g_ins g) (g_outs g) /\
     forall x, In x (g_ins g) -> 0 <= c x) /\
  (forall t, In t tops -> 0 <= c t) /\
  (forall n, c n <= Z.of_nat (length groups)) /\
  (forall n, In n all -> c n = 0 -> ok n = true -> support n = false).
Proof.
  intros GL REF T H. unfold split in H.
  destruct (split_loop_inv inputs outputs all ref ok support GL REF fuel xfuel tops tops _ _ _ _ (split_start inputs all ok support tops T) H) as (I & _).
  destruct I. split; [|split; [|split]].
  - intros k g K. destruct (s_group0 k g K) as (A & B & D). split; [exact A|]. split; [exact B|].
    intros x X. destruct (D x X) as [[]|Q]. exact Q.
  - intros t K. destruct (s_tops0 t K) as [[]|Q]. exact Q.
  - exact s_color0.
  - intros n IN Z0 O. destruct (support n) eqn:S; [|reflexivity]. destruct (s_rest0 n IN Z0 S O).
Qed.
Print Assumptions C154_groups_partial.

(** the splitter ends *)
Theorem C154_ends inputs outputs all ref ok support fuel xfuel tops :
  graph_links inputs outputs all -> ref_is inputs ref -> (forall t, In t tops -> In t all) ->
  let edges := list_sum (map (fun n => length (inputs n) + length (outputs n)) all)%nat in
  (2 * edges + 1 < xfuel)%nat -> (length tops + (length all + edges) * length all < fuel)%nat ->
  exists c groups, split inputs outputs ref ok support false fuel xfuel all tops = Some (c, groups).
Proof.
  intros GL REF T edges X F.
  pose proof (split_loop_ends inputs outputs all ref ok support GL REF fuel xfuel tops tops (fun _ => -1) [] (length all + edges)) as E.
  unfold split. destruct (split_loop inputs outputs ref ok support false fuel xfuel all tops (fun _ => -1) []) as [(c, g)|].
  - exists c, g. reflexivity.
  - exfalso. apply E; auto.
    + apply split_start. exact T.
    + lia.
    + intros n. destruct (List.in_dec Nat.eq_dec n all) as [N|N].
      * assert (length (inputs n) <= edges)%nat; [|lia]. unfold edges. clear -N. induction all as [|x l IH]; [destruct N|].
        cbn [map list_sum fold_right]. destruct N as [->|N]; [lia|]. specialize (IH N). unfold list_sum in IH. lia.
      * destruct (inputs n) as [|b l] eqn:I; [cbn; lia|]. destruct N. apply (gl_all _ _ _ GL n b). unfold uses. rewrite I. now left.
    + assert (count (fun _ => -1) all = length all) as ->; [|exact F]. unfold count. change (-1 <? 0) with true. clear. induction all as [|x l IH]; [reflexivity|]. cbn [filter length]. f_equal. exact IH.
Qed.
Print Assumptions C154_ends.

(** ** The answers about dependence *)
Section Refs.
Variable inputs : nat -> list nat.
Notation cached c n := (lookup_refs c n <> None).
Definition refs_inv (c : list (nat * list nat)) : Prop := forall n r, lookup_refs c n = Some r ->
  (forall m, In m r <-> depends inputs n m) /\ (forall m, depends inputs n m -> cached c m).
Definition grows (c c' : list (nat * list nat)) : Prop := forall n, cached c n -> cached c' n.

Notation visit fuel := (fun acc b =>
  match acc with
  | None => None
  | Some (refs, c) => match cache_refs inputs fuel b c with Some (r, c') => Some (refs ++ r ++ [b], c') | None => None end
  end).

Lemma visit_none fuel l : fold_left (visit fuel) l None = None.
Proof. induction l; auto. Qed.
Lemma depends_step n m : depends inputs n m <-> exists b, In b (inputs n) /\ (m = b \/ depends inputs b m).
Proof.
  unfold depends. split.
  - intros H. apply clos_trans_t1n in H. destruct H as [y U|y z U D].
    + exists y. split; [exact U|now left].
    + exists y. split; [exact U|right; apply clos_t1n_trans; exact D].
  - intros (b & U & [->|D]); [apply t_step; exact U|]. eapply t_trans; [apply t_step; exact U|exact D].
Qed.

Lemma cache_refs_spec fuel : forall n c r c', refs_inv c -> cache_refs inputs fuel n c = Some (r, c') ->
  refs_inv c' /\ grows c c' /\ cached c' n /\ (forall m, In m r <-> depends inputs n m).
Proof.
  induction fuel as [|fuel IH]; [discriminate|]. intros n c r c' I. cbn [cache_refs].
  destruct (lookup_refs c n) as [r0|] eqn:L.
  { intros H. injection H as <- <-. split; [exact I|]. split; [intros m K; exact K|]. split; [congruence|]. exact (proj1 (I n r0 L)). }
  assert (FOLD : forall l refs c refs' c', refs_inv c -> fold_left (visit fuel) l (Some (refs, c)) = Some (refs', c') ->
    refs_inv c' /\ grows c c' /\ (forall b, In b l -> cached c' b) /\
    (forall m, In m refs' <-> In m refs \/ exists b, In b l /\ (m = b \/ depends inputs b m))).
  { clear - IH. induction l as [|b l IHl]; intros refs c refs' c' I H.
    - injection H as <- <-. split; [exact I|]. split; [intros m K; exact K|]. split; [intros b []|]. intros m. split; [now left|].
      intros [K|(b & [] & _)]; exact K.
    - cbn [fold_left] in H. destruct (cache_refs inputs fuel b c) as [(r1, c1)|] eqn:E; [|rewrite visit_none in H; discriminate].
      destruct (IH b c r1 c1 I E) as (I1 & G1 & C1 & R1). destruct (IHl _ _ _ _ I1 H) as (I2 & G2 & C2 & R2).
      split; [exact I2|]. split; [intros m K; apply G2, G1; exact K|]. split; [intros x [<-|X]; auto|].
      intros m. rewrite R2, !in_app_iff. cbn [In]. rewrite R1. split.
      + intros [[K|[K|[<-|[]]]]|(x & X & K)].
        * now left.
        * right. exists b. split; [now left|now right].
        * right. exists b. split; [now left|now left].
        * right. exists x. split; [now right|exact K].
      + intros [K|(x & [<-|X] & [->|K])]; [tauto| | | |].
        * left. right. right. now left.
        * left. right. now left.
        * right. exists x. split; [exact X|now left].
        * right. exists x. split; [exact X|now right]. }
  destruct (fold_left (visit fuel) (inputs n) (Some ([], c))) as [(refs, c1)|] eqn:E; [|discriminate].
  intros H. injection H as <- <-. destruct (FOLD _ _ _ _ _ I E) as (I1 & G1 & C1 & R1).
  assert (R : forall m, In m refs <-> depends inputs n m).
  { intros m. rewrite R1, depends_step. cbn [In]. tauto. }
  assert (G : grows c1 ((n, refs) :: c1)).
  { intros m K. cbn [lookup_refs]. destruct (Nat.eqb n m); [discriminate|exact K]. }
  split; [|split; [intros m K; apply G, G1; exact K|split; [cbn [lookup_refs]; rewrite Nat.eqb_refl; discriminate|exact R]]].
  intros x rx. cbn [lookup_refs]. destruct (Nat.eqb_spec n x) as [<-|NE].
  - intros H. injection H as <-. split; [exact R|]. intros m D. apply G. apply depends_step in D. destruct D as (b & B & [->|D]); [auto|].
    destruct (lookup_refs c1 b) as [rb|] eqn:LB; [|destruct (C1 b B LB)]. exact (proj2 (I1 b rb LB) m D).
  - intros H. destruct (I1 x rx H) as (A & B). split; [exact A|]. intros m D. apply G, B. exact D.
Qed.
End Refs.

(** when the inputs of the graph use nothing and the outputs lead everywhere,
    the splitter's answers about dependence are right *)
Theorem C154_refs inputs fuel outs ins cache :
  (forall n, In n ins -> inputs n = []) ->
  (forall a, inputs a <> [] -> In a outs \/ exists o, In o outs /\ depends inputs o a) ->
  setup inputs fuel outs ins = Some cache -> ref_is inputs (ref_of cache).
Proof.
  intros INS LEAD H.
  assert (I0 : refs_inv inputs (map (fun n => (n, [])) ins)).
  { intros n r L. assert (E : r = [] /\ In n ins).
    { clear - L. induction ins as [|x l IH]; [discriminate|]. cbn [map lookup_refs] in L. destruct (Nat.eqb_spec x n) as [->|].
      - injection L as <-. split; [reflexivity|now left].
      - destruct (IH L). split; [assumption|now right]. }
    destruct E as (-> & IN). assert (N : forall m, ~ depends inputs n m).
    { intros m D. apply depends_step in D. rewrite (INS n IN) in D. destruct D as (b & [] & _). }
    split; [intros m; split; [intros []|intros D; destruct (N m D)]|intros m D; destruct (N m D)]. }
  assert (ALL : forall l c, refs_inv inputs c ->
    fold_left (fun acc n => match acc with None => None | Some c => match cache_refs inputs fuel n c with Some (_, c') => Some c' | None => None end end) l (Some c) = Some cache ->
    refs_inv inputs cache /\ grows c cache /\ forall o, In o l -> lookup_refs cache o <> None).
  { clear. induction l as [|x l IH]; intros c I H.
    - injection H as <-. split; [exact I|]. split; [intros m K; exact K|intros o []].
    - cbn [fold_left] in H. destruct (cache_refs inputs fuel x c) as [(r, c1)|] eqn:E.
      + destruct (cache_refs_spec inputs fuel x c r c1 I E) as (I1 & G1 & C1 & _). destruct (IH c1 I1 H) as (I2 & G2 & C2).
        split; [exact I2|]. split; [intros m K; apply G2, G1; exact K|]. intros o [<-|O]; auto.
      + exfalso. clear - H. revert H. induction l; [discriminate|exact IHl]. }
  destruct (ALL outs _ I0 H) as (I & _ & C). intros a b. unfold ref_of.
  destruct (lookup_refs cache a) as [r|] eqn:L.
  - rewrite mem_In. apply (I a r L).
  - split; [discriminate|]. intros D. exfalso.
    assert (NE : inputs a <> []) by (intros E; apply depends_step in D; rewrite E in D; destruct D as (x & [] & _)).
    destruct (LEAD a NE) as [O|(o & O & P)]; [exact (C a O L)|].
    destruct (lookup_refs cache o) as [ro|] eqn:LO; [|exact (C o O LO)]. exact (proj2 (I o ro LO) a P L).
Qed.
Print Assumptions C154_refs.

(** *** Witnesses *)
(** a diamond with an unsupported node: 6 = end, 5 = output using 4 and 3, both
    use 2 (the unsupported 3 too), 2 uses the parameter 1 *)
Definition ex_in (n : nat) : list nat :=
  nth n [[]; []; [1]; [2]; [2]; [3; 4]; [5]]%nat [].
Definition ex_out (n : nat) : list nat :=
  nth n [[]; [2]; [3; 4]; [5]; [5]; [6]; []]%nat [].
Definition ex_ok (n : nat) : bool := mem n [2; 4; 5]%nat.
Definition ex_cache := match setup ex_in 10 [6%nat] [1%nat] with Some c => c | None => [] end.
Definition ex_all := [1; 2; 3; 4; 5; 6]%nat.
Example C154_example_answer :
  match split ex_in ex_out (ref_of ex_cache) ex_ok ex_ok false 100 100 ex_all [5%nat] with
  | Some (c, gs) => map c ex_all = [0; 2; 0; 1; 1; -1] /\ gs = [Grp 1 [2; 3]%nat [5%nat]; Grp 2 [1%nat] [2%nat]]
  | None => False
  end.
Proof. vm_compute. split; reflexivity. Qed.

Lemma by_rank inputs : (forall a b, In b (inputs a) -> (b < a)%nat) -> forall a, ~ depends inputs a a.
Proof.
  intros R. assert (D : forall a b, depends inputs a b -> (b < a)%nat).
  { intros a b D. unfold depends in D. induction D as [a b U|a b c D1 IH1 D2 IH2]; [apply R; exact U|lia]. }
  intros a K. apply D in K. lia.
Qed.
(** checking that a table of links is a graph *)
Definition links_ok (inputs outputs : nat -> list nat) (n : nat) : bool :=
  forallb (fun a => forallb (fun b => Nat.ltb b a && Nat.ltb 0 b && mem a (outputs b)) (inputs a)) (seq 1 n) &&
  forallb (fun b => forallb (fun a => mem b (inputs a)) (outputs b)) (seq 1 n).
Lemma links_graph inputs outputs n : (forall a, ~ In a (seq 1 n) -> inputs a = [] /\ outputs a = []) ->
  links_ok inputs outputs n = true -> graph_links inputs outputs (seq 1 n).
Proof.
  intros OUT K. unfold links_ok in K. apply andb_true_iff in K. destruct K as (K & L). rewrite forallb_forall in K, L.
  assert (U : forall a b, In b (inputs a) -> In a (seq 1 n) /\ (b < a)%nat /\ (0 < b)%nat /\ In a (outputs b)).
  { intros a b H. destruct (List.in_dec Nat.eq_dec a (seq 1 n)) as [I|I].
    - specialize (K a I). rewrite forallb_forall in K. specialize (K b H). rewrite !andb_true_iff, !Nat.ltb_lt, mem_In in K. tauto.
    - destruct (OUT a I) as (E & _). rewrite E in H. destruct H. }
  constructor.
  - apply seq_NoDup.
  - intros a b H. destruct (U a b H) as (A & B & C & _). split; [exact A|]. apply in_seq in A. apply in_seq. lia.
  - intros a b. split; [|intros H; apply (U a b H)]. intros H. destruct (List.in_dec Nat.eq_dec b (seq 1 n)) as [I|I].
    + specialize (L b I). rewrite forallb_forall in L. specialize (L a H). apply mem_In in L. exact L.
    + destruct (OUT b I) as (_ & E). rewrite E in H. destruct H.
  - apply by_rank. intros a b H. apply U. exact H.
Qed.
Lemma nth_out {A} (l : list (list A)) n m : length l = S m -> nth 0 l [] = [] -> ~ In n (seq 1 m) -> nth n l [] = [].
Proof.
  intros L Z0 N. destruct n as [|n]; [exact Z0|]. apply nth_overflow. rewrite in_seq in N. lia.
Qed.
(** dependence by the splitter's own table, when every node leads to an end *)
Lemma lead_by inputs outs n cache : (forall a, inputs a <> [] -> In a (seq 1 n)) ->
  setup inputs n outs [] = Some cache ->
  forallb (fun a => mem a outs || existsb (fun o => ref_of cache o a) outs || Nat.eqb (length (inputs a)) 0) (seq 1 n) = true ->
  forall a, inputs a <> [] -> In a outs \/ exists o, In o outs /\ depends inputs o a.
Proof.
  intros IN S F a NE. rewrite forallb_forall in F. specialize (F a (IN a NE)). rewrite !orb_true_iff in F. destruct F as [[F|F]|F].
  - left. apply mem_In. exact F.
  - right. apply existsb_exists in F. destruct F as (o & O & R). exists o. split; [exact O|].
    assert (I0 : refs_inv inputs []) by (intros x r L; discriminate L).
    unfold setup in S. cbn [map] in S. revert S R. generalize (@nil (nat * list nat)) as c, I0. clear - IN. induction outs as [|x l IH]; intros c I S R.
    + injection S as <-. unfold ref_of in R. destruct (lookup_refs c o) as [r|] eqn:L; [|discriminate]. apply (I o r L). apply mem_In. exact R.
    + cbn [fold_left] in S. destruct (cache_refs inputs n x c) as [(r, c1)|] eqn:E.
      * exact (IH c1 (proj1 (cache_refs_spec inputs n x c r c1 I E)) S R).
      * exfalso. clear - S. revert S. induction l; [discriminate|exact IHl].
  - apply Nat.eqb_eq in F. destruct (inputs a); [congruence|discriminate].
Qed.

Example C154_example : graph_links ex_in ex_out ex_all /\ ref_is ex_in (ref_of ex_cache).
Proof.
  assert (OUT : forall a, ~ In a (seq 1 6) -> ex_in a = [] /\ ex_out a = []).
  { intros a N. split; (eapply nth_out; [|reflexivity|exact N]); reflexivity. }
  split; [apply (links_graph ex_in ex_out 6 OUT); reflexivity|].
  apply (C154_refs ex_in 10 [6%nat] [1%nat]); [intros n [<-|[]]; reflexivity| |reflexivity].
  apply (lead_by ex_in [6%nat] 6 (match setup ex_in 6 [6%nat] [] with Some c => c | None => [] end)); [|reflexivity|reflexivity].
  intros a NE. destruct (List.in_dec Nat.eq_dec a (seq 1 6)) as [I|I]; [exact I|]. destruct (OUT a I). contradiction.
Qed.

(** *** what does not hold *)
(** two groups may need each other: 7 uses 2, 4 and 5; 5 uses 4; 8 uses 2, 6
    and 3; 6 uses 2; 4 uses 3; 2 and 3 use the parameter 1; 9 and 10 end 7 and 8.
    The nodes 5 and 6 are not supported *)
Definition cy_in (n : nat) : list nat := nth n [[]; []; [1]; [1]; [3]; [4]; [2]; [2; 4; 5]; [2; 6; 3]; [7]; [8]]%nat [].
Definition cy_out (n : nat) : list nat := nth n [[]; [2; 3]; [7; 6; 8]; [4; 8]; [5; 7]; [7]; [8]; [9]; [10]; []; []]%nat [].
Definition cy_ok (n : nat) : bool := mem n [2; 3; 4; 7; 8]%nat.
Definition cy_cache := match setup cy_in 10 [9; 10]%nat [1%nat] with Some c => c | None => [] end.
Theorem C154_order_refuted : exists inputs outputs all ref ok support tops c g1 g2,
  graph_links inputs outputs all /\ ref_is inputs ref /\ (forall t, In t tops -> In t all) /\
  (forall n, In n all -> ok n = true -> exists e, ok e = false /\ depends inputs e n) /\
  split inputs outputs ref ok support false 300 300 all tops = Some (c, [g1; g2]) /\
  (exists x, In x (g_ins g1) /\ c x = g_color g2) /\ (exists y, In y (g_ins g2) /\ c y = g_color g1).
Proof.
  assert (OUT : forall a, ~ In a (seq 1 10) -> cy_in a = [] /\ cy_out a = []).
  { intros a N. split; (eapply nth_out; [|reflexivity|exact N]); reflexivity. }
  assert (REF : ref_is cy_in (ref_of cy_cache)).
  { apply (C154_refs cy_in 10 [9; 10]%nat [1%nat]); [intros n [<-|[]]; reflexivity| |reflexivity].
    apply (lead_by cy_in [9; 10]%nat 10 (match setup cy_in 10 [9; 10]%nat [] with Some c => c | None => [] end)); [|reflexivity|reflexivity].
    intros a NE. destruct (List.in_dec Nat.eq_dec a (seq 1 10)) as [I|I]; [exact I|]. destruct (OUT a I). contradiction. }
  destruct (split cy_in cy_out (ref_of cy_cache) cy_ok cy_ok false 300 300 (seq 1 10) [7; 8]%nat) as [(c, gs)|] eqn:S; [|vm_compute in S; discriminate S].
  assert (G : exists g1 g2, gs = [g1; g2] /\ (exists x, In x (g_ins g1) /\ c x = g_color g2) /\ (exists y, In y (g_ins g2) /\ c y = g_color g1)).
  { vm_compute in S. injection S as <- <-. eexists. eexists. split; [reflexivity|].
    split; [exists 4%nat|exists 2%nat]; (split; [cbn; tauto|reflexivity]). }
  destruct G as (g1 & g2 & -> & X & Y).
  exists cy_in, cy_out, (seq 1 10), (ref_of cy_cache), cy_ok, cy_ok, [7; 8]%nat, c, g1, g2.
  split; [apply (links_graph cy_in cy_out 10 OUT); reflexivity|]. split; [exact REF|].
  split; [intros t [<-|[<-|[]]]; cbn; tauto|]. split.
  - intros n IN O. assert (K : ref_of cy_cache 9 n || ref_of cy_cache 10 n = true).
    { cbn in IN. repeat (destruct IN as [<-|IN]; [first [discriminate O|reflexivity]|]). destruct IN. }
    apply orb_true_iff in K. destruct K as [K|K]; apply REF in K; [exists 9%nat|exists 10%nat]; (split; [reflexivity|exact K]).
  - split; [exact S|]. split; [exact X|exact Y].
Qed.
Print Assumptions C154_order_refuted.

(** a group made of one node without inputs gets no outputs, though it is used *)
Definition lone_in (n : nat) : list nat := nth n [[]; []; [1]]%nat [].
Definition lone_out (n : nat) : list nat := nth n [[]; [2]; []]%nat [].
Theorem C154_lone_refuted : exists inputs outputs all ref ok support tops c g,
  graph_links inputs outputs all /\ ref_is inputs ref /\ (forall t, In t tops -> In t all) /\
  split inputs outputs ref ok support false 100 100 all tops = Some (c, [g]) /\
  exists x, offers inputs (fun n => c n = g_color g) x /\ ~ In x (g_outs g).
Proof.
  assert (OUT : forall a, ~ In a (seq 1 2) -> lone_in a = [] /\ lone_out a = []).
  { intros a N. split; (eapply nth_out; [|reflexivity|exact N]); reflexivity. }
  pose (cache := match setup lone_in 5 [2%nat] [] with Some c => c | None => [] end).
  exists lone_in, lone_out, (seq 1 2), (ref_of cache), (Nat.eqb 1), (Nat.eqb 1), [1%nat], (paint (fun _ => -1) 1%nat 1), (Grp 1 [] []).
  split; [apply (links_graph lone_in lone_out 2 OUT); reflexivity|]. split.
  - apply (C154_refs lone_in 5 [2%nat] []); [intros n []| |reflexivity].
    intros a NE. destruct a as [|[|[|a]]]; [destruct NE; reflexivity|destruct NE; reflexivity|left; now left|].
    destruct NE. apply OUT. rewrite in_seq. lia.
  - split; [intros t [<-|[]]; cbn; tauto|]. split; [reflexivity|]. exists 1%nat. split; [|intros []].
    split; [reflexivity|]. exists 2%nat. split; [discriminate|]. now left.
Qed.
Print Assumptions C154_lone_refuted.

(** below a group that only routes nothing is looked at: 3 routes 2, 2 is not
    supported, 1 is supported and stays undecided *)
Definition way_in (n : nat) : list nat := nth n [[]; []; [1]; [2]; [3]]%nat [].
Definition way_out (n : nat) : list nat := nth n [[]; [2]; [3]; [4]; []]%nat [].
Theorem C154_routes_refuted : exists inputs outputs all ref ok support tops c,
  graph_links inputs outputs all /\ ref_is inputs ref /\ (forall t, In t tops -> In t all) /\
  split inputs outputs ref ok support false 100 100 all tops = Some (c, []) /\
  exists t n, In t tops /\ depends inputs t n /\ ok n = true /\ support n = true.
Proof.
  assert (OUT : forall a, ~ In a (seq 1 4) -> way_in a = [] /\ way_out a = []).
  { intros a N. split; (eapply nth_out; [|reflexivity|exact N]); reflexivity. }
  pose (cache := match setup way_in 5 [4%nat] [] with Some c => c | None => [] end).
  assert (REF : ref_is way_in (ref_of cache)).
  { apply (C154_refs way_in 5 [4%nat] []); [intros n []| |reflexivity].
    apply (lead_by way_in [4%nat] 4 (match setup way_in 4 [4%nat] [] with Some c => c | None => [] end)); [|reflexivity|reflexivity].
    intros a NE. destruct (List.in_dec Nat.eq_dec a (seq 1 4)) as [I|I]; [exact I|]. destruct (OUT a I). contradiction. }
  destruct (split way_in way_out (ref_of cache) (fun n => mem n [1; 3]%nat) (Nat.eqb 1) false 100 100 (seq 1 4) [3%nat]) as [(c, gs)|] eqn:S; [|vm_compute in S; discriminate S].
  assert (gs = []) as -> by (vm_compute in S; congruence).
  exists way_in, way_out, (seq 1 4), (ref_of cache), (fun n => mem n [1; 3]%nat), (Nat.eqb 1), [3%nat], c.
  split; [apply (links_graph way_in way_out 4 OUT); reflexivity|]. split; [exact REF|].
  split; [intros t [<-|[]]; cbn; tauto|]. split; [exact S|].
  exists 3%nat, 1%nat. split; [now left|]. split; [apply REF; reflexivity|]. split; reflexivity.
Qed.
Print Assumptions C154_routes_refuted.

(** with single_output on, groups get no inputs and no outputs *)
Theorem C154_single_output_refuted : exists c g,
  split ex_in ex_out (ref_of ex_cache) ex_ok ex_ok true 100 100 ex_all [5%nat] = Some (c, [g]) /\
  g_ins g = [] /\ g_outs g = [] /\
  (exists x, needs ex_in (fun n => c n = g_color g) x) /\ exists x, offers ex_in (fun n => c n = g_color g) x.
Proof.
  destruct (split ex_in ex_out (ref_of ex_cache) ex_ok ex_ok true 100 100 ex_all [5%nat]) as [(c, gs)|] eqn:S; [|vm_compute in S; discriminate S].
  vm_compute in S. injection S as <- <-. eexists. eexists. split; [reflexivity|]. cbn [g_ins g_outs g_color].
  split; [reflexivity|]. split; [reflexivity|]. split.
  - exists 3%nat. split; [discriminate|]. exists 5%nat. split; [reflexivity|]. now left.
  - exists 5%nat. split; [reflexivity|]. exists 6%nat. split; [discriminate|]. now left.
Qed.
Print Assumptions C154_single_output_refuted.
