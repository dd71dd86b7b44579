(** C149: the memory of a tensor lives as long as it is owned. *)
From Coq Require Import List ZArith Bool Lia.
From Verif Require Import SmartModel SmartSpec.
Import ListNotations.

Local Notation b2n b := (if b then 1 else 0)%nat.

Lemma owners_app c l r : owners c (l ++ r) = (owners c l + owners c r)%nat.
Proof. induction l; cbn; lia. Qed.
Lemma owners_set c l i old v : nth_error l i = Some old -> (owners c (set_at i v l) + b2n (owns c old) = owners c l + b2n (owns c v))%nat.
Proof.
  revert i. induction l as [|a l IH]; intros [|i] H; try discriminate; cbn in *.
  - injection H as ->. lia.
  - specialize (IH i H). lia.
Qed.
Lemma owners_pos c l i v : nth_error l i = Some v -> owns c v = true -> (0 < owners c l)%nat.
Proof. revert i. induction l as [|a l IH]; intros [|i] H Ho; try discriminate; cbn in *; [injection H as ->; rewrite Ho; lia|specialize (IH i H Ho); lia]. Qed.

Lemma nth_set_same {A} (l : list A) i a : (i < length l)%nat -> nth_error (set_at i a l) i = Some a.
Proof. revert i. induction l; intros [|i] H; cbn in *; try lia; [reflexivity|apply IHl; lia]. Qed.
Lemma nth_set_other {A} (l : list A) i j a : i <> j -> nth_error (set_at i a l) j = nth_error l j.
Proof. revert i j. induction l; intros [|i] [|j] H; cbn; try reflexivity; try congruence. apply IHl. congruence. Qed.
Lemma length_set {A} (l : list A) i a : length (set_at i a l) = length l.
Proof. revert i. induction l; intros [|i]; cbn; congruence. Qed.

(** counters agree with the owners [f]; handles name counters that exist *)
Definition agrees (h : list counter) (f : nat -> nat) : Prop :=
  (forall c k, nth_error h c = Some k -> use_count k = Z.of_nat (f c) /\ (freed k = true <-> f c = 0%nat) /\ deletions k = b2n (freed k)) /\
  (forall c, (length h <= c)%nat -> f c = 0%nat).
Definition named (h : list counter) (v : option handle) : Prop := forall m c, v = Some (Handle m (Some c)) -> (c < length h)%nat.
Definition inv (s : state) : Prop := agrees (heap s) (fun c => owners c (vars s)) /\ Forall (named (heap s)) (vars s).

Lemma agrees_ext h f g : (forall c, f c = g c) -> agrees h f -> agrees h g.
Proof. intros E [A B]. split; intros; rewrite <- E; [now apply A|now apply B]. Qed.

Lemma named_set h c k v : named h v -> named (set_at c k h) v.
Proof. intros H m d E. rewrite length_set. now apply (H m d). Qed.
Lemma named_app h k v : named h v -> named (h ++ [k]) v.
Proof. intros H m d E. rewrite app_length. specialize (H m d E). lia. Qed.
Lemma Forall_set {A} (P : A -> Prop) l i a : Forall P l -> P a -> Forall P (set_at i a l).
Proof. intros H Ha. revert i. induction H; intros [|i]; cbn; constructor; auto. Qed.

(** a dispose removes one owner; a counting adds one *)
Lemma dispose_agrees s f v h : agrees (heap s) f -> v = Some h -> (forall c, owns c v = true -> (0 < f c)%nat) -> 
  exists s' h', dispose s h = Some (s', h') /\ vars s' = vars s /\ length (heap s') = length (heap s) /\
    agrees (heap s') (fun c => f c - b2n (owns c v))%nat.
Proof.
  intros [A B] -> Hpos. unfold dispose. destruct h as [[|] [c|]]; cbn [h_mode h_counted owns] in *;
    try (eexists _, _; split; [reflexivity|]; split; [reflexivity|]; split; [reflexivity|]; apply (agrees_ext _ f); [intros; lia|split; assumption]).
  assert (Hc : (0 < f c)%nat) by (apply Hpos; apply Nat.eqb_refl).
  destruct (nth_error (heap s) c) as [k|] eqn:E. 2: { apply nth_error_None in E. specialize (B c E). lia. }
  destruct (A c k E) as (U & F & D). unfold live. rewrite E. destruct (freed k) eqn:Ef; [assert (f c = 0%nat) by tauto; lia|].
  cbv zeta. assert (Lc : (c < length (heap s))%nat) by (apply nth_error_Some; congruence).
  destruct (Z.leb_spec (use_count k - 1) 0) as [H|H]; eexists _, _; (split; [reflexivity|]); (split; [reflexivity|]); cbn [put_counter heap vars];
    (split; [apply length_set|]); (split; [|intros d Hd; rewrite length_set in Hd; rewrite (B d Hd); reflexivity]); intros d kd Hd;
    (destruct (Nat.eq_dec d c) as [->|Hne]; [rewrite nth_set_same in Hd by exact Lc; injection Hd as <-; rewrite Nat.eqb_refl; cbn|
     rewrite nth_set_other in Hd by congruence; rewrite (proj2 (Nat.eqb_neq d c) Hne); rewrite Nat.sub_0_r; now apply A]).
  - split; [lia|]. split; [split; intro; [lia|reflexivity]|]. rewrite D. reflexivity.
  - split; [lia|]. split; [split; intro; [discriminate|lia]|]. exact D.
Qed.

Lemma count_up_agrees s f v h : agrees (heap s) f -> v = Some h -> (forall c, owns c v = true -> (0 < f c)%nat) ->
  exists s', count_up s h = Some s' /\ vars s' = vars s /\ length (heap s') = length (heap s) /\
    agrees (heap s') (fun c => f c + b2n (owns c v))%nat.
Proof.
  intros [A B] -> Hpos. unfold count_up. destruct h as [[|] [c|]]; cbn [h_mode h_counted owns] in *;
    try (eexists _; split; [reflexivity|]; split; [reflexivity|]; split; [reflexivity|]; apply (agrees_ext _ f); [intros; lia|split; assumption]).
  assert (Hc : (0 < f c)%nat) by (apply Hpos; apply Nat.eqb_refl).
  destruct (nth_error (heap s) c) as [k|] eqn:E. 2: { apply nth_error_None in E. specialize (B c E). lia. }
  destruct (A c k E) as (U & F & D). unfold live. rewrite E. destruct (freed k) eqn:Ef; [assert (f c = 0%nat) by tauto; lia|].
  assert (Lc : (c < length (heap s))%nat) by (apply nth_error_Some; congruence).
  eexists _. split; [reflexivity|]. split; [reflexivity|]. cbn [put_counter heap vars]. split; [apply length_set|]. split.
  - intros d kd Hd. destruct (Nat.eq_dec d c) as [->|Hne].
    + rewrite nth_set_same in Hd by exact Lc. injection Hd as <-. rewrite Nat.eqb_refl. cbn. split; [lia|]. split; [split; intro; [discriminate|lia]|]. exact D.
    + rewrite nth_set_other in Hd by congruence. rewrite (proj2 (Nat.eqb_neq d c) Hne), Nat.add_0_r. now apply A.
  - intros d Hd. rewrite length_set in Hd. rewrite (B d Hd). destruct (Nat.eqb_spec d c); [lia|reflexivity].
Qed.

Lemma var_nth s i h : var s i = Some h -> nth_error (vars s) i = Some (Some h).
Proof. unfold var. destruct (nth_error (vars s) i); congruence. Qed.

Lemma named_in s i h : Forall (named (heap s)) (vars s) -> var s i = Some h -> named (heap s) (Some h).
Proof. intros F H. apply var_nth in H. rewrite Forall_forall in F. apply F. now apply nth_error_In in H. Qed.

Lemma named_len h h' v : length h' = length h -> named h v -> named h' v.
Proof. intros E H m c V. rewrite E. now apply (H m c). Qed.
Lemma Forall_len h h' l : length h' = length h -> Forall (named h) l -> Forall (named h') l.
Proof. intros E. apply Forall_impl. intro v. now apply named_len. Qed.
Lemma named_none h : named h None. Proof. intros m c E. discriminate. Qed.
Lemma named_null h m : named h (Some (Handle m None)). Proof. intros m' c E. congruence. Qed.

Lemma live_owned s c : inv s -> (0 < owners c (vars s))%nat -> exists k, live s c = Some k /\ use_count k = Z.of_nat (owners c (vars s)).
Proof.
  intros [[A B] F] H. destruct (nth_error (heap s) c) as [k|] eqn:E. 2: { apply nth_error_None in E. specialize (B c E). lia. }
  destruct (A c k E) as (U & Fr & D). unfold live. rewrite E. destruct (freed k); [assert (owners c (vars s) = 0%nat) by tauto; lia|]. eauto.
Qed.

Lemma step_inv s o : inv s -> (forall i, o <> Dispose i) ->
  match step s o with
  | Next s' => inv s'
  | Thrown s' => s' = s
  | Undef => missing s o \/ dangling s o
  end.
Proof.
  intros I Hd. pose proof I as [Ag Fn]. destruct o as [|i|i j|i|i j|i|i|i|i|i]; cbn [step missing].
  - (* Make *)
    destruct Ag as [A B]. split.
    + cbn [heap vars]. split.
      * intros c k Hc. rewrite owners_app. cbn. destruct (Nat.lt_ge_cases c (length (heap s))) as [H|H].
        -- rewrite nth_error_app1 in Hc by exact H. rewrite (proj2 (Nat.eqb_neq c (length (heap s)))) by lia. rewrite !Nat.add_0_r. now apply A.
        -- rewrite nth_error_app2 in Hc by exact H. destruct (c - length (heap s))%nat as [|m] eqn:E; [|destruct m; discriminate]. injection Hc as <-.
           assert (c = length (heap s)) by lia. subst c. rewrite Nat.eqb_refl, (B _ (le_n _)). cbn. repeat split; try discriminate; lia.
      * intros c Hc. rewrite app_length in Hc. cbn in Hc. rewrite owners_app. cbn. rewrite (B c) by lia. rewrite (proj2 (Nat.eqb_neq c (length (heap s)))) by lia. reflexivity.
    + cbn [heap vars]. apply Forall_app. split; [eapply Forall_impl; [|exact Fn]; intro; apply named_app|]. constructor; [|constructor].
      intros m c E. injection E as <- <-. rewrite app_length. cbn. lia.
  - (* Copy *)
    destruct (var s i) as [h|] eqn:V; [|now left]. pose proof (var_nth _ _ _ V) as N.
    destruct (count_up_agrees s (fun c => owners c (vars s)) (Some h) h Ag eq_refl) as (s' & -> & Ev & El & A').
    { intros c Hc. exact (owners_pos c _ i _ N Hc). }
    split; cbn [add_var heap vars].
    + eapply agrees_ext; [|exact A']. intro c. cbv beta. rewrite Ev, owners_app. cbn [owners]. lia.
    + rewrite Ev. apply Forall_app. split; [now apply (Forall_len (heap s))|]. constructor; [|constructor]. apply (named_len (heap s)); [exact El|]. now apply (named_in s i).
  - (* Assign *)
    destruct (var s i) as [h|] eqn:V; [|now left; left]. destruct (var s j) as [g|] eqn:W; [|now left; right].
    destruct (Nat.eqb_spec i j) as [->|Hne]; [exact I|]. pose proof (var_nth _ _ _ V) as N. pose proof (var_nth _ _ _ W) as M.
    destruct (dispose_agrees s (fun c => owners c (vars s)) (Some h) h Ag eq_refl) as (s1 & h' & -> & Ev & El & A1).
    { intros c Hc. exact (owners_pos c _ i _ N Hc). }
    set (f1 := fun c => (owners c (vars s) - b2n (owns c (Some h)))%nat) in A1.
    assert (Hrest : forall c, f1 c = owners c (set_at i None (vars s))).
    { intro c. unfold f1. pose proof (owners_set c (vars s) i (Some h) None N) as O. change (owns c None) with false in O. cbv iota in O. lia. }
    destruct (count_up_agrees s1 f1 (Some g) g A1 eq_refl) as (s2 & -> & Ev2 & El2 & A2).
    { intros c Hc. rewrite Hrest. apply (owners_pos c _ j (Some g)); [rewrite nth_set_other by exact Hne; exact M|exact Hc]. }
    split; cbn [put_var heap vars].
    + eapply agrees_ext; [|exact A2]. intro c. cbv beta. rewrite Ev2, Ev. pose proof (owners_set c (vars s) i (Some h) (Some g) N) as O. unfold f1.
      assert (b2n (owns c (Some h)) <= owners c (vars s))%nat. { destruct (owns c (Some h)) eqn:Ho; [|lia]. pose proof (owners_pos c _ i _ N Ho). lia. } lia.
    + apply Forall_set.
      * rewrite Ev2, Ev. apply (Forall_len (heap s)); [congruence|exact Fn].
      * apply (named_len (heap s)); [congruence|]. now apply (named_in s j).
  - (* Move *)
    destruct (var s i) as [h|] eqn:V; [|now left]. pose proof (var_nth _ _ _ V) as N. split; cbn [add_var put_var heap vars].
    + eapply agrees_ext; [|exact Ag]. intro c. cbv beta. rewrite owners_app. cbn [owners].
      pose proof (owners_set c (vars s) i (Some h) (Some (Handle MANUALLY None)) N) as O. change (owns c (Some (Handle MANUALLY None))) with false in O. cbv iota in O. lia.
    + apply Forall_app. split; [apply Forall_set; [exact Fn|apply named_null]|]. constructor; [|constructor]. now apply (named_in s i).
  - (* MoveAssign *)
    destruct (var s i) as [h|] eqn:V; [|now left; left]. destruct (var s j) as [g|] eqn:W; [|now left; right].
    pose proof (var_nth _ _ _ V) as N. pose proof (var_nth _ _ _ W) as M. split; cbn [put_var heap vars].
    + eapply agrees_ext; [|exact Ag]. intro c. cbv beta.
      pose proof (owners_set c (vars s) i (Some h) (Some g) N) as O. destruct (Nat.eq_dec i j) as [->|Hne].
      * assert (g = h) by congruence. subst g. assert (Lj : (j < length (vars s))%nat) by (apply nth_error_Some; congruence).
        pose proof (owners_set c (set_at j (Some h) (vars s)) j (Some h) (Some h) (nth_set_same _ _ _ Lj)). lia.
      * assert (Mj : nth_error (set_at i (Some g) (vars s)) j = Some (Some g)) by (rewrite nth_set_other by exact Hne; exact M).
        pose proof (owners_set c _ j (Some g) (Some h) Mj). lia.
    + apply Forall_set; [apply Forall_set; [exact Fn|now apply (named_in s j)]|now apply (named_in s i)].
  - (* Destroy *)
    destruct (var s i) as [h|] eqn:V; [|now left]. pose proof (var_nth _ _ _ V) as N.
    destruct (dispose_agrees s (fun c => owners c (vars s)) (Some h) h Ag eq_refl) as (s1 & h' & -> & Ev & El & A1).
    { intros c Hc. exact (owners_pos c _ i _ N Hc). }
    split; cbn [put_var heap vars].
    + eapply agrees_ext; [|exact A1]. intro c. cbv beta. rewrite Ev. pose proof (owners_set c (vars s) i (Some h) None N) as O. change (owns c None) with false in O. cbv iota in O. lia.
    + apply Forall_set; [|apply named_none]. rewrite Ev. now apply (Forall_len (heap s)).
  - now destruct (Hd i).
  - (* Weak *)
    destruct (var s i) as [h|] eqn:V; [|now left]. split; cbn [add_var heap vars].
    + eapply agrees_ext; [|exact Ag]. intro c. cbv beta. rewrite owners_app. cbn. lia.
    + apply Forall_app. split; [exact Fn|]. constructor; [|constructor]. pose proof (named_in s i h Fn V) as Hn. intros m c E. injection E as <- E. destruct h as [m' o]. cbn in E. subst o. now apply (Hn m' c).
  - (* Strong *)
    destruct (var s i) as [[m [c|]]|] eqn:V; [|reflexivity|now left]. cbn [h_counted]. pose proof (var_nth _ _ _ V) as N.
    destruct (Nat.eq_dec (owners c (vars s)) 0) as [H0|H0].
    + assert (m = MANUALLY). { destruct m; [|reflexivity]. exfalso. assert (0 < owners c (vars s))%nat; [|lia]. apply (owners_pos c _ i _ N). cbn. apply Nat.eqb_refl. }
      subst m. assert (L : live s c = None).
      { unfold live. destruct (nth_error (heap s) c) as [k|] eqn:E; [|reflexivity]. destruct Ag as [A _]. destruct (A c k E) as (_ & Fr & _). now rewrite (proj2 Fr H0). }
      rewrite L. right. exists i, c. auto.
    + destruct (live_owned s c I) as (k & L & U); [lia|]. rewrite L. rewrite (proj2 (Z.leb_gt _ _)) by lia.
      assert (Lc : (c < length (heap s))%nat). { unfold live in L. destruct (nth_error (heap s) c) eqn:E; [|discriminate]. apply nth_error_Some. congruence. }
      destruct (count_up_agrees s (fun c => owners c (vars s)) (Some (Handle SMART (Some c))) (Handle SMART (Some c)) Ag eq_refl) as (s' & E & Ev & El & A').
      { intros d Hd'. cbn in Hd'. apply Nat.eqb_eq in Hd'. subst d. lia. }
      unfold count_up in E. cbn [h_mode h_counted] in E. rewrite L in E. injection E as <-. split; cbn [add_var heap vars put_counter] in *.
      * eapply agrees_ext; [|exact A']. intro d. cbv beta. rewrite owners_app. cbn [owners]. lia.
      * apply Forall_app. split; [now apply (Forall_len (heap s))|]. constructor; [|constructor]. intros m' d E. injection E as <- <-. now rewrite length_set.
  - (* Use *)
    destruct (var s i) as [[m [c|]]|] eqn:V; [|reflexivity|now left]. cbn [h_counted]. pose proof (var_nth _ _ _ V) as N.
    destruct (live s c) as [k|] eqn:L; [exact I|]. right. exists i, c. split; [auto|].
    assert (H0 : owners c (vars s) = 0%nat). { destruct (Nat.eq_dec (owners c (vars s)) 0) as [H|H]; [exact H|]. destruct (live_owned s c I) as (k & L' & _); [lia|congruence]. }
    split; [|exact H0]. destruct m; [|exact V]. exfalso. assert (0 < owners c (vars s))%nat; [|lia]. apply (owners_pos c _ i _ N). cbn. apply Nat.eqb_refl.
Qed.


Lemma history_inv l : forall s, inv s -> no_dispose l -> forall s', history s l = Next s' -> inv s'.
Proof.
  induction l as [|o l IH]; intros s I Hd s' H; cbn [history] in H; [injection H as <-; exact I|].
  assert (Ho : forall i, o <> Dispose i) by (intros i ->; apply (Hd i); now left).
  assert (Hl : no_dispose l) by (intros i Hi; apply (Hd i); now right).
  pose proof (step_inv s o I Ho) as S. destruct (step s o) as [s1|s1|]; [| |discriminate].
  - now apply (IH s1).
  - subst s1. now apply (IH s).
Qed.

Lemma start_inv : inv start.
Proof. split; [split|constructor]; cbn; [intros [|c] k H; discriminate|reflexivity]. Qed.

(** In every history without an explicit dispose: the use count of an object is
    the number of the variables that own it; the object is deleted, once, when
    there are none, and not before. *)
Theorem C149_counts l s : no_dispose l -> history start l = Next s ->
  forall c k, nth_error (heap s) c = Some k ->
    use_count k = Z.of_nat (owners c (vars s)) /\ (freed k = true <-> owners c (vars s) = 0%nat) /\ deletions k = if freed k then 1%nat else 0%nat.
Proof. intros Hd H. destruct (history_inv l start start_inv Hd s H) as [[A _] _]. exact A. Qed.
Print Assumptions C149_counts.

(** Nothing after such a history is undefined, but for following a weak pointer
    to an object without owners.  Missing: that should be an exception
    (C149_weak_refuted); explicit disposes (C149_dispose_refuted); several
    threads (C149_threads_refuted). *)
Theorem C149_safe_partial l s o : no_dispose l -> history start l = Next s -> (forall i, o <> Dispose i) ->
  step s o = Undef -> missing s o \/ dangling s o.
Proof. intros Hd H Ho E. pose proof (step_inv s o (history_inv l start start_inv Hd s H) Ho) as S. now rewrite E in S. Qed.
Print Assumptions C149_safe_partial.

(** The object that an owner refers to can be used. *)
Theorem C149_owner_uses l s i c : no_dispose l -> history start l = Next s -> var s i = Some (Handle SMART (Some c)) -> step s (Use i) = Next s.
Proof.
  intros Hd H V. pose proof (history_inv l start start_inv Hd s H) as I. cbn [step]. rewrite V. cbn [h_counted].
  destruct (live_owned s c I) as (k & -> & _); [|reflexivity]. apply (owners_pos c _ i _ (var_nth _ _ _ V)). cbn. apply Nat.eqb_refl.
Qed.
Print Assumptions C149_owner_uses.

(** Asking a weak pointer for an owner when there is none any more reads the
    deleted counter instead of throwing. *)
Theorem C149_weak_refuted : history start [Make; Weak 0; Destroy 0; Strong 1] = Undef.
Proof. reflexivity. Qed.
Print Assumptions C149_weak_refuted.

(** A dispose keeps the pointer when there are other owners, so the destruction
    of the variable counts a second time and deletes the object under them. *)
Theorem C149_dispose_refuted : history start [Make; Copy 0; Dispose 1; Destroy 1; Use 0] = Undef.
Proof. reflexivity. Qed.
Print Assumptions C149_dispose_refuted.

(** Two threads that copy a tensor and destroy their copies: the count of one
    owner may end as zero, with the owner still there; one after the other it
    stays one. *)
Theorem C149_threads_refuted :
  (exists z, interleaving (copies 0 ++ destroys 0) (copies 1 ++ destroys 1) z /\ mrun 1 z = 0%Z) /\
  mrun 1 ((copies 0 ++ destroys 0) ++ copies 1 ++ destroys 1) = 1%Z.
Proof.
  split; [|reflexivity]. exists [Load 0; Load 1; StoreInc 0; StoreInc 1; Load 0; StoreDec 0; Load 1; StoreDec 1]. split; [|reflexivity].
  unfold copies, destroys. cbn [app]. repeat constructor.
Qed.
Print Assumptions C149_threads_refuted.

Example C149_example : history start [Make; Weak 0; Strong 1; Copy 2; Destroy 0; Move 3; MoveAssign 1 4; Destroy 2; Use 1; Assign 1 3] =
  Next (State [Counter 0 true 1] [None; Some (Handle MANUALLY None); None; Some (Handle MANUALLY None); Some (Handle MANUALLY (Some 0%nat))]).
Proof. reflexivity. Qed.
