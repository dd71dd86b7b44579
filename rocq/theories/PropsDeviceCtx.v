(** C156: every device handle is finalised exactly once, by the admin and for
    the device that made it. *)
From Coq Require Import String List Bool ZArith Arith Lia.
From Verif Require Import DeviceCtxModel DeviceCtxSpec.
Import ListNotations.

(** *** Logs *)
Lemma proper_snoc l e : proper l ->
  match e_action e with
  | Initialization => forall e', In e' l -> e_handle e' <> e_handle e
  | _ => In (Event (e_type e) (e_id e) Initialization (e_handle e)) l /\
         forall e', In e' l -> e_action e' = Finalization -> e_handle e' <> e_handle e
  end -> proper (l ++ [e]).
Proof.
  intros P C before x after E. destruct after as [|y after] using rev_ind.
  - apply app_inj_tail in E. destruct E as [-> ->]. exact C.
  - clear IHafter. rewrite app_comm_cons, app_assoc in E. apply app_inj_tail in E. destruct E as [-> _]. exact (P _ _ _ eq_refl).
Qed.
Lemma made_snoc l e t i h : made (l ++ [e]) t i h <-> made l t i h \/ e = Event t i Initialization h.
Proof. unfold made. rewrite in_app_iff. cbn. intuition congruence. Qed.
Lemma ended_snoc l e h : ended (l ++ [e]) h <-> ended l h \/ (e_action e = Finalization /\ e_handle e = h).
Proof.
  unfold ended. split.
  - intros (x & Hx & A & B). apply in_app_iff in Hx. destruct Hx as [Hx|[<-|[]]]; [left; now exists x|now right].
  - intros [(x & Hx & A & B)|(A & B)]; [exists x|exists e]; rewrite in_app_iff; cbn; auto.
Qed.

(** *** The invariant, over what each context holds *)
Definition holding := nat -> option (string * option device * nat).
Record good (f : holding) (l : list event) (n : nat) : Prop := {
  g_fresh : forall e, In e l -> e_handle e < n;
  g_proper : proper l;
  g_held : forall a t d h, f a = Some (t, d, h) -> exists i, d = Some (t, i) /\ made l t i h /\ ~ ended l h;
  g_one : forall a b t d h t' d', f a = Some (t, d, h) -> f b = Some (t', d', h) -> a = b;
  g_kept : forall t i h, made l t i h -> ended l h \/ exists a, f a = Some (t, Some (t, i), h) }.
Definition upd (f : holding) a v : holding := fun b => if b =? a then v else f b.

Lemma good_ext f g l n : (forall a, f a = g a) -> good f l n -> good g l n.
Proof.
  intros E [G1 G2 G3 G4 G5]. constructor; auto.
  - intros a t d h Hg. rewrite <- E in Hg. eauto.
  - intros a b t d h t' d' A B. rewrite <- E in A, B. eauto.
  - intros t i h M. destruct (G5 t i h M) as [|(a & A)]; [now left|right; exists a; now rewrite <- E].
Qed.
Lemma made_inj l n f t i h t' i' : good f l n -> made l t i h -> made l t' i' h -> t = t' /\ i = i'.
Proof.
  intros G A B. pose proof (g_proper _ _ _ G) as P. clear G.
  assert (S : forall e e', In e l -> In e' l -> e_action e = Initialization -> e_action e' = Initialization -> e_handle e = e_handle e' -> e = e').
  { clear -P. intros e e' H H' I I' E. apply in_split in H. destruct H as (l1 & l2 & ->).
    apply in_app_iff in H'. destruct H' as [H'|[H'|H']]; [|exact H'|].
    - pose proof (P l1 e l2 eq_refl) as Q. rewrite I in Q. exfalso. now apply (Q e' H').
    - apply in_split in H'. destruct H' as (m1 & m2 & ->).
      pose proof (P (l1 ++ e :: m1) e' m2) as Q. rewrite I' in Q. exfalso. refine (Q _ e _ E).
      + now rewrite <- app_assoc.
      + apply in_app_iff. right. now left. }
  pose proof (S _ _ A B eq_refl eq_refl eq_refl) as X. injection X as -> ->. auto.
Qed.
Lemma good_tell f l n a t d h x i : good f l n -> f a = Some (t, d, h) -> d = Some (t, i) -> x = Activation \/ x = Synchronize ->
  good f (l ++ [Event t i x h]) n.
Proof.
  intros G A D X. pose proof (g_held _ _ _ G a t d h A) as (i' & D' & M & NE). assert (i' = i) as -> by congruence.
  destruct G as [G1 G2 G3 G4 G5]. constructor; [| | |exact G4|].
  - intros e He. apply in_app_iff in He. destruct He as [He|[<-|[]]]; [auto|]. exact (G1 _ M).
  - apply proper_snoc; [exact G2|]. destruct X as [-> | ->]; cbn; (split; [exact M|]); intros e He Hf E; apply NE; exists e; auto.
  - intros a' t' d'' h' F. destruct (G3 _ _ _ _ F) as (j & -> & M' & N'). exists j. split; [reflexivity|]. split; [apply made_snoc; now left|].
    rewrite ended_snoc. cbn. intros [|(C & _)]; [auto|destruct X; congruence].
  - intros t' j h' M'. apply made_snoc in M'. destruct M' as [M'|M']; [|destruct X; subst; discriminate M'].
    destruct (G5 _ _ _ M') as [E|E]; [left; apply ended_snoc; now left|now right].
Qed.
Lemma good_end f l n a t d h i : good f l n -> f a = Some (t, d, h) -> d = Some (t, i) ->
  good (upd f a None) (l ++ [Event t i Finalization h]) n.
Proof.
  intros G A D. pose proof (g_held _ _ _ G a t d h A) as (i' & D' & M & NE). assert (i' = i) as -> by congruence.
  pose proof (made_inj l n f) as MI. destruct G as [G1 G2 G3 G4 G5]. constructor.
  - intros e He. apply in_app_iff in He. destruct He as [He|[<-|[]]]; [auto|]. exact (G1 _ M).
  - apply proper_snoc; [exact G2|]. cbn. split; [exact M|]. intros e He Hf E. apply NE. exists e. auto.
  - intros b t' d'' h' F. unfold upd in F. destruct (b =? a) eqn:Q; [discriminate|]. apply Nat.eqb_neq in Q.
    destruct (G3 _ _ _ _ F) as (j & -> & M' & N'). exists j. split; [reflexivity|]. split; [apply made_snoc; now left|].
    rewrite ended_snoc. cbn. intros [|(_ & C)]; [auto|]. subst h'. apply Q. exact (G4 _ _ _ _ _ _ _ F A).
  - intros b c t1 d1 h1 t2 d2 F1 F2. unfold upd in F1, F2. destruct (b =? a); [discriminate|]. destruct (c =? a); [discriminate|]. eauto.
  - intros t' j h' M'. apply made_snoc in M'. destruct M' as [M'|M']; [|discriminate M'].
    destruct (G5 _ _ _ M') as [E|(b & E)]; [left; apply ended_snoc; now left|].
    destruct (Nat.eq_dec b a) as [->|Q].
    + left. apply ended_snoc. right. cbn. split; [reflexivity|]. congruence.
    + right. exists b. unfold upd. apply Nat.eqb_neq in Q. now rewrite Q.
Qed.
Lemma good_new f l n a t i : good f l n -> f a = None ->
  good (upd f a (Some (t, Some (t, i), n))) (l ++ [Event t i Initialization n]) (S n).
Proof.
  intros G A. destruct G as [G1 G2 G3 G4 G5].
  assert (LT : forall b t' d' h', f b = Some (t', d', h') -> h' < n).
  { intros b t' d' h' F. destruct (G3 _ _ _ _ F) as (j & _ & M & _). exact (G1 _ M). }
  assert (NE : ~ ended l n). { intros (e & He & _ & Q). pose proof (G1 e He). lia. }
  constructor.
  - intros e He. apply in_app_iff in He. destruct He as [He|[<-|[]]]; [specialize (G1 e He); lia|cbn; lia].
  - apply proper_snoc; [exact G2|]. cbn. intros e He Q. specialize (G1 e He). lia.
  - intros b t' d' h' F. unfold upd in F. destruct (b =? a) eqn:Q.
    + injection F as <- <- <-. exists i. split; [reflexivity|]. split; [apply made_snoc; now right|]. rewrite ended_snoc. cbn. intros [|(C & _)]; [auto|discriminate].
    + destruct (G3 _ _ _ _ F) as (j & -> & M' & N'). exists j. split; [reflexivity|]. split; [apply made_snoc; now left|].
      rewrite ended_snoc. cbn. intros [|(C & _)]; [auto|discriminate].
  - intros b c t1 d1 h1 t2 d2 F1 F2. unfold upd in F1, F2. destruct (b =? a) eqn:Q1, (c =? a) eqn:Q2.
    + apply Nat.eqb_eq in Q1, Q2. congruence.
    + injection F1 as <- <- <-. apply LT in F2. lia.
    + injection F2 as <- <- <-. apply LT in F1. lia.
    + eauto.
  - intros t' j h' M'. apply made_snoc in M'. destruct M' as [M'|M'].
    + destruct (G5 _ _ _ M') as [E|(b & E)]; [left; apply ended_snoc; now left|]. right. exists b. unfold upd.
      destruct (b =? a) eqn:Q; [apply Nat.eqb_eq in Q; congruence|exact E].
    + injection M' as -> -> ->. right. exists a. unfold upd. now rewrite Nat.eqb_refl.
Qed.
Lemma good_move f l n a b : good f l n -> f a = None -> a <> b -> good (upd (upd f a (f b)) b None) l n.
Proof.
  intros G A D. destruct G as [G1 G2 G3 G4 G5].
  assert (V : forall x t d h, upd (upd f a (f b)) b None x = Some (t, d, h) -> exists y, f y = Some (t, d, h) /\ ((x = a /\ y = b) \/ (x = y /\ x <> a /\ x <> b))).
  { intros x t d h F. unfold upd in F. destruct (x =? b) eqn:Q1; [discriminate|]. destruct (x =? a) eqn:Q2.
    - apply Nat.eqb_eq in Q2. exists b. auto.
    - apply Nat.eqb_neq in Q1, Q2. exists x. auto. }
  constructor; [exact G1|exact G2| | |].
  - intros x t d h F. apply V in F. destruct F as (y & F & _). eauto.
  - intros x y t d h t' d' F1 F2. apply V in F1. apply V in F2. destruct F1 as (x' & F1 & C1). destruct F2 as (y' & F2 & C2).
    pose proof (G4 _ _ _ _ _ _ _ F1 F2). lia.
  - intros t i h M. destruct (G5 _ _ _ M) as [E|(x & E)]; [now left|]. right. destruct (Nat.eq_dec x b) as [->|Q].
    + exists a. unfold upd. destruct (a =? b) eqn:Q; [apply Nat.eqb_eq in Q; congruence|]. now rewrite Nat.eqb_refl.
    + exists x. unfold upd. apply Nat.eqb_neq in Q. rewrite Q. destruct (x =? a) eqn:Q2; [apply Nat.eqb_eq in Q2; congruence|exact E].
Qed.

(** *** Worlds *)
Definition held (c : context) : option (string * option device * nat) :=
  match admin c, handle c with Some t, Some h => Some (t, computing c, h) | _, _ => None end.
Definition heldw (w : world) : holding := fun a => match find w a with Some c => held c | None => None end.

Lemma nth_put {A} (l : list A) a b (c : A) : nth_error (put l a c) b = if (b =? a) && (a <? length l) then Some c else nth_error l b.
Proof.
  revert a b. induction l as [|x l IH]; intros a b.
  - destruct a, b; cbn; try reflexivity; now rewrite andb_false_r.
  - destruct a as [|a], b as [|b]; cbn; try reflexivity. rewrite IH. now change (S a <? S (length l)) with (a <? length l).
Qed.
Lemma put_put {A} (l : list A) a (c d : A) : put (put l a c) a d = put l a d.
Proof. revert a. induction l as [|x l IH]; intros [|a]; cbn; try reflexivity. now rewrite IH. Qed.
Lemma length_put {A} (l : list A) a (c : A) : length (put l a c) = length l.
Proof. revert a. induction l as [|x l IH]; intros [|a]; cbn; auto. Qed.
Lemma find_lt w a c : find w a = Some c -> a < length (contexts w).
Proof. unfold find. intros H. apply nth_error_Some. destruct (nth_error (contexts w) a); congruence. Qed.
Lemma find_set w a c b : a < length (contexts w) -> find (set w a c) b = if b =? a then Some c else find w b.
Proof. intros H. unfold find, set. cbn. rewrite nth_put. apply Nat.ltb_lt in H. rewrite H, andb_true_r. now destruct (b =? a). Qed.
Lemma find_drop w a b : a < length (contexts w) -> find (drop w a) b = if b =? a then None else find w b.
Proof. intros H. unfold find, drop. cbn. rewrite nth_put. apply Nat.ltb_lt in H. rewrite H, andb_true_r. now destruct (b =? a). Qed.
Lemma find_add w c b : find (add w c) b = if b =? length (contexts w) then Some c else find w b.
Proof.
  unfold find, add. cbn. destruct (b =? length (contexts w)) eqn:Q.
  - apply Nat.eqb_eq in Q. subst. rewrite nth_error_app2, Nat.sub_diag by lia. reflexivity.
  - apply Nat.eqb_neq in Q. destruct (lt_dec b (length (contexts w))).
    + now rewrite nth_error_app1 by lia.
    + replace (nth_error (contexts w) b) with (@None (option context)) by (symmetry; apply nth_error_None; lia).
      replace (nth_error (contexts w ++ [Some c]) b) with (@None (option context)) by (symmetry; apply nth_error_None; rewrite app_length; cbn; lia). reflexivity.
Qed.

Section Registered.
Variable admins : string -> bool.
Variable gives : string -> Z -> bool.
Variable memory_of : string -> option string.
Variable mapped : string -> string.
Notation step := (step admins gives memory_of mapped).

Record inv (w : world) : Prop := {
  i_good : good (heldw w) (log w) (next_handle w);
  i_admin : forall a c t, find w a = Some c -> admin c = Some t -> admins t = true }.

Lemma inv_set w a c : inv w -> a < length (contexts w) -> heldw w a = held c ->
  (forall t, admin c = Some t -> admins t = true) -> inv (set w a c).
Proof.
  intros [G A] L E T. constructor.
  - apply (good_ext (heldw w)); [|exact G]. intros b. unfold heldw at 2. rewrite find_set by exact L.
    destruct (b =? a) eqn:Q; [apply Nat.eqb_eq in Q; now subst|reflexivity].
  - intros b c' t F. rewrite find_set in F by exact L. destruct (b =? a); [injection F as <-; auto|eauto].
Qed.
Lemma inv_add w : inv w -> inv (add w new_context).
Proof.
  intros [G A]. constructor.
  - apply (good_ext (heldw w)); [|exact G]. intros b. unfold heldw. rewrite find_add. destruct (b =? length (contexts w)) eqn:Q; [|reflexivity].
    apply Nat.eqb_eq in Q. subst b. unfold find. replace (nth_error (contexts w) (length (contexts w))) with (@None (option context)); [reflexivity|]. symmetry. apply nth_error_None. lia.
  - intros b c' t F. rewrite find_add in F. destruct (b =? length (contexts w)); [injection F as <-; discriminate|eauto].
Qed.
Lemma inv_drop w a : inv w -> a < length (contexts w) -> heldw w a = None -> inv (drop w a).
Proof.
  intros [G A] L E. constructor.
  - apply (good_ext (heldw w)); [|exact G]. intros b. unfold heldw at 2. rewrite find_drop by exact L.
    destruct (b =? a) eqn:Q; [apply Nat.eqb_eq in Q; now subst|reflexivity].
  - intros b c' t F. rewrite find_drop in F by exact L. destruct (b =? a); [discriminate|eauto].
Qed.
Lemma inv_tell w a c x : inv w -> find w a = Some c -> x = Activation \/ x = Synchronize -> inv (tell x w c).
Proof.
  intros I F X. unfold tell. destruct (admin c) as [t|] eqn:T; [|exact I]. destruct (handle c) as [h|] eqn:H; [|exact I].
  pose proof I as [G A]. assert (E : heldw w a = Some (t, computing c, h)) by (unfold heldw, held; now rewrite F, T, H).
  destruct (g_held _ _ _ G _ _ _ _ E) as (i & D & _). constructor; [|exact A].
  unfold id_of. rewrite D. exact (good_tell _ _ _ _ _ _ _ _ _ G E D X).
Qed.
(** finalising a context and storing it again *)
Lemma inv_finalize w a c w' c' : inv w -> find w a = Some c -> finalize w c = (w', c') ->
  inv (set w' a c') /\ held c' = None /\ contexts w' = contexts w /\ next_handle w' = next_handle w /\
  origin c' = origin c /\ computing c' = computing c /\ memory c' = memory c /\ admin c' = admin c /\ (handle c = None -> handle c' = None) /\
  (admin c <> None -> handle c' = None).
Proof.
  intros I F E. pose proof (find_lt _ _ _ F) as L. pose proof I as [G A]. unfold finalize in E.
  destruct (admin c) as [t|] eqn:T; [destruct (handle c) as [h|] eqn:H|]; injection E as <- <-.
  - split; [|refine (conj eq_refl (conj eq_refl (conj eq_refl (conj eq_refl (conj eq_refl (conj eq_refl (conj eq_refl (conj _ _)))))))); intros; reflexivity].
    assert (E : heldw w a = Some (t, computing c, h)) by (unfold heldw, held; now rewrite F, T, H).
    destruct (g_held _ _ _ G _ _ _ _ E) as (i & D & _). constructor.
    + unfold id_of. rewrite D. eapply good_ext; [|exact (good_end _ _ _ _ _ _ _ _ G E D)].
      intros b. unfold heldw at 2. rewrite find_set by exact L. unfold upd. destruct (b =? a) eqn:Q; [try rewrite T; reflexivity|]. reflexivity.
    + intros b c' t' F'. rewrite find_set in F' by exact L. destruct (b =? a); [injection F' as <-; cbn; intros [= <-]; eapply A; eauto|]. eauto.
  - split; [|unfold held; rewrite T, H; refine (conj eq_refl (conj eq_refl (conj eq_refl (conj eq_refl (conj eq_refl (conj eq_refl (conj eq_refl (conj _ _)))))))); intros; reflexivity]. apply inv_set; [exact I|exact L|unfold heldw; now rewrite F|]. intros t' T'. eapply A; eauto.
  - split; [|unfold held; rewrite T; refine (conj eq_refl (conj eq_refl (conj eq_refl (conj eq_refl (conj eq_refl (conj eq_refl (conj eq_refl (conj _ _)))))))); [auto|congruence]].
    apply inv_set; [exact I|exact L|unfold heldw; now rewrite F|]. intros t' T'. congruence.
Qed.

Lemma set_set w a c d : set (set w a c) a d = set w a d.
Proof. unfold set. cbn. now rewrite put_put. Qed.
Lemma finalize_set w a c x w' c' : finalize w c = (w', c') -> finalize (set w a x) c = (set w' a x, c').
Proof. unfold finalize. destruct (admin c), (handle c); intros E; injection E as <- <-; reflexivity. Qed.

Lemma inv_initialize w a c d r : inv w -> find w a = Some c ->
  handle c = None \/ (computing c = Some d /\ admin c = Some (fst d)) ->
  initialize admins gives memory_of w a c d = r -> match r with Done w' => inv w' | Threw w' => inv w' | Undef => False end.
Proof.
  intros I F C <-. pose proof (find_lt _ _ _ F) as L. pose proof I as [G A]. unfold initialize.
  assert (HW : heldw w a = held c) by (unfold heldw; now rewrite F).
  destruct (memory_of (fst d)) as [m|].
  2: { apply inv_set; [exact I|exact L| |cbn; intros; eapply A; eauto]. rewrite HW. unfold held. cbn.
       destruct C as [-> | (-> & _)]; [now destruct (admin c)|reflexivity]. }
  set (q := if admins (fst d) then Some (fst d) else None).
  set (c2 := Context (handle c) (origin c) (Some d) (Some (m, snd d)) q).
  assert (Q : forall t, q = Some t -> t = fst d /\ admins t = true).
  { unfold q. intros t. destruct (admins (fst d)) eqn:X; [|discriminate]. intros [= <-]. auto. }
  assert (I2 : inv (set w a c2)).
  { apply inv_set; [exact I|exact L| |]. 2: { cbn. intros t T. now apply Q. }
    rewrite HW. unfold held. cbn. destruct C as [H|(D & T)]; [rewrite H; now destruct (admin c), q|].
    assert (X : admins (fst d) = true) by (eapply A; eauto). unfold q. rewrite X, D, T. reflexivity. }
  destruct (finalize w c2) as [w1 c3] eqn:E3.
  assert (F2 : find (set w a c2) a = Some c2) by (rewrite find_set, Nat.eqb_refl by exact L; reflexivity).
  destruct (inv_finalize _ a c2 _ _ I2 F2 (finalize_set w a c2 c2 _ _ E3)) as (I3 & H3 & K3 & N3 & O3 & CO3 & M3 & AD3 & HN & HA).
  rewrite set_set in I3.
  assert (L1 : a < length (contexts w1)).
  { cbn in K3. apply (f_equal (@length _)) in K3. rewrite !length_put in K3. now rewrite K3. }
  destruct q as [t|] eqn:EQ; [|exact I3]. destruct (Q t eq_refl) as (-> & AT). destruct (gives (fst d) (snd d)); [|exact I3].
  destruct I3 as [G3 A3]. constructor.
  - eapply good_ext; [|exact (good_new _ _ _ a (fst d) (snd d) G3 ltac:(unfold heldw; rewrite find_set, Nat.eqb_refl by exact L1; exact H3))].
    intros b. unfold upd. unfold heldw at 2. match goal with |- _ = match find (set ?x a ?y) b with _ => _ end => rewrite (find_set x a y b L1) end.
    destruct (b =? a) eqn:B; [unfold held; cbn; rewrite AD3, CO3; cbn; now destruct d|].
    unfold heldw. rewrite find_set, B by exact L1. reflexivity.
  - intros b c' t F'. rewrite find_set in F' by exact L1. destruct (b =? a) eqn:B.
    + injection F' as <-. cbn. rewrite AD3. cbn. intros [= <-]. exact AT.
    + intros T. apply (A3 b c'); [|exact T]. rewrite find_set, B by exact L1. exact F'.
Qed.

Lemma inv_move w a b ca : inv w -> find w a = Some ca -> (a = b \/ held ca = None) -> 
  match move false w a b with Done w' => inv w' | Threw w' => inv w' | Undef => True end.
Proof.
  intros I Fa H. unfold move. destruct (a =? b) eqn:AB.
  { unfold with_context. rewrite Fa. exact I. }
  apply Nat.eqb_neq in AB. destruct H as [H|H]; [congruence|]. unfold with_context. rewrite Fa. destruct (find w b) as [cb|] eqn:Fb; [|exact Logic.I].
  pose proof (find_lt _ _ _ Fa) as La. pose proof (find_lt _ _ _ Fb) as Lb. destruct I as [G A].
  set (c1 := Context (handle cb) (origin ca) (computing cb) (memory cb) (admin cb)).
  set (c2 := Context (handle cb) (origin cb) (computing cb) (memory cb) None).
  assert (L2 : b < length (contexts (set w a c1))) by (cbn; rewrite length_put; exact Lb).
  constructor.
  - eapply good_ext; [|refine (good_move _ _ _ a b G _ AB); unfold heldw; now rewrite Fa].
    intros x. unfold upd, heldw. rewrite (find_set (set w a c1)) by exact L2. destruct (x =? b) eqn:X; [reflexivity|]. rewrite find_set by exact La.
    destruct (x =? a) eqn:Y; [|reflexivity]. now rewrite Fb.
  - intros x c' t F'. rewrite find_set in F' by exact L2. destruct (x =? b); [injection F' as <-; discriminate|].
    rewrite find_set in F' by exact La. destruct (x =? a); [injection F' as <-; cbn; eauto|eauto].
Qed.

Lemma inv_current w c : inv w -> inv (World (contexts w) c (next_handle w) (log w)).
Proof. intros [G A]. constructor; [exact G|exact A]. Qed.

Theorem step_inv w x : inv w -> careful mapped w x ->
  match step false w x with Done w' => inv w' | Threw w' => inv w' | Undef => True end.
Proof.
  intros I C. destruct x as [|d|a d|a d|a|a|a|c|b|a b|a]; cbn [DeviceCtxModel.step].
  - now apply inv_add.
  - pose proof (inv_add w I) as I2. set (w0 := add w new_context) in *.
    assert (F : find w0 (length (contexts w)) = Some new_context) by (unfold w0; rewrite find_add, Nat.eqb_refl; reflexivity).
    pose proof (inv_initialize w0 _ new_context d _ I2 F (or_introl eq_refl) eq_refl) as R.
    destruct (initialize admins gives memory_of w0 (length (contexts w)) new_context d) as [w'|w'|] eqn:E; [exact R| |exact Logic.I].
    unfold initialize in E. destruct (memory_of (fst d)) as [m|].
    + exfalso. destruct (finalize w0 _) as [w1 c3] in E. destruct (if admins (fst d) then _ else _) in E; [destruct (gives _ _) in E|]; discriminate E.
    + injection E as <-. apply inv_drop; [exact R|cbn; rewrite length_put, app_length; cbn; lia|]. unfold heldw. rewrite find_set, Nat.eqb_refl by (cbn; rewrite app_length; cbn; lia). reflexivity.
  - unfold with_context. destruct (find w a) as [c|] eqn:F; [|exact Logic.I].
    pose proof (inv_initialize w a c d _ I F (C c F) eq_refl) as R. now destruct (initialize admins gives memory_of w a c d).
  - unfold with_context. destruct (find w a) as [c|] eqn:F; [|exact Logic.I]. unfold initialize_v2.
    set (c0 := Context (handle c) (Some d) (computing c) (memory c) (admin c)). pose proof (find_lt _ _ _ F) as L.
    assert (I0 : inv (set w a c0)).
    { apply inv_set; [exact I|exact L|unfold heldw; now rewrite F|]. intros t T. exact (i_admin _ I a c t F T). }
    assert (F0 : find (set w a c0) a = Some c0) by (rewrite find_set, Nat.eqb_refl by exact L; reflexivity).
    pose proof (inv_initialize _ a c0 (mapped (fst d), snd d) _ I0 F0 (C c F) eq_refl) as R.
    assert (E : initialize admins gives memory_of (set w a c0) a c0 (mapped (fst d), snd d) = initialize admins gives memory_of w a c0 (mapped (fst d), snd d)).
    { unfold initialize. cbn [fst snd]. destruct (memory_of (mapped (fst d))); [|now rewrite set_set].
      match goal with |- (let '(_, _) := finalize _ ?x in _) = _ => destruct (finalize w x) as [w1 c3] eqn:E1; rewrite (finalize_set w a x c0 _ _ E1) end.
      destruct (admins (mapped (fst d))); [|now rewrite set_set]. destruct (gives _ _); [|now rewrite set_set]. f_equal. exact (set_set (World _ _ _ _) a c0 _). }
    rewrite E in R. now destruct (initialize admins gives memory_of w a c0 (mapped (fst d), snd d)).
  - unfold with_context. destruct (find w a) as [c|] eqn:F; [|exact Logic.I]. destruct (finalize w c) as [w' c'] eqn:E. now destruct (inv_finalize _ _ _ _ _ I F E).
  - unfold with_context. destruct (find w a) as [c|] eqn:F; [|exact Logic.I]. eapply inv_tell; eauto.
  - unfold with_context. destruct (find w a) as [c|] eqn:F; [|exact Logic.I]. eapply inv_tell; eauto.
  - unfold switch.
    assert (T : forall x w0 c0, contexts (tell x w0 c0) = contexts w0) by (intros; unfold tell; destruct (admin c0), (handle c0); reflexivity).
    assert (S1 : forall w0, inv w0 -> match (match c with None => Done w0 | Some x => with_context w0 x (fun cx => Done (tell Activation w0 cx)) end) with
        | Done w2 => inv w2 | Threw _ => False | Undef => True end).
    { intros w0 I0. destruct c as [x|]; [|exact I0]. unfold with_context. destruct (find w0 x) as [cx|] eqn:F; [|exact Logic.I]. eapply inv_tell; eauto. }
    assert (S2 : forall w0, inv w0 -> match then_ (match c with None => Done w0 | Some x => with_context w0 x (fun cx => Done (tell Activation w0 cx)) end)
        (fun w2 => Done (World (contexts w2) c (next_handle w2) (log w2))) with Done w2 => inv w2 | Threw w2 => inv w2 | Undef => True end).
    { intros w0 I0. specialize (S1 w0 I0). destruct (match c with None => _ | Some _ => _ end); cbn [then_]; [now apply inv_current|contradiction|exact Logic.I]. }
    destruct (current w) as [p|]; [|exact (S2 w I)].
    destruct (match c with Some x => p =? x | None => false end); [exact (S2 w I)|].
    unfold with_context at 1. destruct (find w p) as [cp|] eqn:F; [|exact Logic.I]. cbn [then_]. apply S2. eapply inv_tell; eauto.
  - unfold with_context at 1. destruct (find w b) as [cb|] eqn:F; [|exact Logic.I].
    apply (inv_move (add w new_context) (length (contexts w)) b new_context); [now apply inv_add|rewrite find_add, Nat.eqb_refl; reflexivity|now right].
  - cbn in C. unfold move. destruct (find w a) as [ca|] eqn:F.
    + apply (inv_move w a b ca I F). destruct C as [->|C]; [now left|right]. unfold held. destruct (C ca eq_refl) as [-> | ->]; [now destruct (admin ca)|reflexivity].
    + unfold with_context. rewrite F. now destruct (a =? b).
  - unfold with_context. destruct (find w a) as [c|] eqn:F; [|exact Logic.I]. destruct (finalize w c) as [w' c'] eqn:E.
    destruct (inv_finalize _ _ _ _ _ I F E) as (I' & H' & K & _). pose proof (find_lt _ _ _ F) as L.
    assert (D : drop w' a = drop (set w' a c') a) by (unfold drop, set; cbn; now rewrite put_put). rewrite D.
    apply inv_drop; [exact I'|cbn; rewrite length_put, K; exact L|]. unfold heldw. rewrite find_set, Nat.eqb_refl by (rewrite K; exact L). exact H'.
Qed.

Lemma inv_start : inv start.
Proof.
  constructor; [constructor|].
  - intros e [].
  - intros before e after E. destruct before; discriminate E.
  - intros a t d h E. unfold heldw, find in E. destruct a; discriminate E.
  - intros a b t d h t' d' E. unfold heldw, find in E. destruct a; discriminate E.
  - intros t i h [].
  - intros a c t E. unfold find in E. destruct a; discriminate E.
Qed.
Lemma history_inv w l w' : inv w -> careful_history admins gives memory_of mapped false w l w' -> inv w'.
Proof.
  intros I H. induction H as [|w x w1 l w2 C S H IH]; [exact I|]. apply IH.
  pose proof (step_inv w x I C) as R. destruct S as [S|S]; rewrite S in R; exact R.
Qed.

(** after any careful history: the calls the admins saw are proper, every handle
    made and not finalised is held by exactly one context, whose device is the
    one it was made for *)
Theorem C156_handles_partial l w : careful_history admins gives memory_of mapped false start l w ->
  proper (log w) /\
  (forall t i h, made (log w) t i h -> ~ ended (log w) h -> exists a, holds w a t i h /\ forall b t' i', holds w b t' i' h -> b = a) /\
  (forall a t i h, holds w a t i h -> made (log w) t i h /\ ~ ended (log w) h).
Proof.
  intros H. destruct (history_inv _ _ _ inv_start H) as [G A].
  assert (HH : forall a t i h, holds w a t i h -> heldw w a = Some (t, Some (t, i), h)).
  { intros a t i h (c & F & Hh & Ha & Hc). unfold heldw, held. now rewrite F, Ha, Hh, Hc. }
  split; [exact (g_proper _ _ _ G)|]. split.
  - intros t i h M N. destruct (g_kept _ _ _ G t i h M) as [E|(a & E)]; [contradiction|]. exists a. split.
    + unfold heldw in E. destruct (find w a) as [c|] eqn:F; [|discriminate]. exists c. split; [exact F|]. unfold held in E.
      destruct (admin c); [|discriminate]. destruct (handle c); [|discriminate]. injection E as -> -> ->. auto.
    + intros b t' i' HB. exact (g_one _ _ _ G _ _ _ _ _ _ _ (HH _ _ _ _ HB) E).
  - intros a t i h HA. destruct (g_held _ _ _ G _ _ _ _ (HH _ _ _ _ HA)) as (j & E & M & N). injection E as <-. auto.
Qed.
(** when no context is left, every handle made was finalised, once, by the admin
    and for the device that made it *)
Theorem C156_all_finalised l w : careful_history admins gives memory_of mapped false start l w ->
  (forall a, find w a = None) -> forall t i h, made (log w) t i h ->
  exists before after, log w = before ++ Event t i Finalization h :: after /\
    forall e, In e (before ++ after) -> e_action e = Finalization -> e_handle e <> h.
Proof.
  intros H NO t i h M. destruct (C156_handles_partial l w H) as (P & K & _).
  assert (E : ended (log w) h).
  { destruct (history_inv _ _ _ inv_start H) as [G _]. destruct (g_kept _ _ _ G t i h M) as [E|(a & E)]; [exact E|]. unfold heldw in E. rewrite NO in E. discriminate. }
  destruct (history_inv _ _ _ inv_start H) as [G _].
  destruct E as ([t' i' x h'] & He & X & Y). cbn in X, Y. subst x h'. apply in_split in He. destruct He as (before & after & L).
  pose proof (P _ _ _ L) as (M' & N). cbn in M', N.
  assert (M2 : made (log w) t' i' h) by (unfold made; rewrite L; apply in_app_iff; now left).
  destruct (made_inj _ _ _ _ _ _ _ _ G M M2) as (-> & ->). exists before, after. split; [exact L|]. intros e He Ha Eh.
  apply in_app_iff in He. destruct He as [He|He]; [now apply (N e He Ha)|].
  apply in_split in He. destruct He as (m1 & m2 & ->). pose proof (P (before ++ Event t' i' Finalization h :: m1) e m2) as Q. rewrite Ha in Q.
  destruct Q as (_ & Q); [rewrite L; now rewrite <- app_assoc|]. refine (Q (Event t' i' Finalization h) _ eq_refl (eq_sym Eh)). apply in_app_iff. right. now left.
Qed.

(** the life of a bench: its context is made and initialised once; it may then be
    activated, synchronised and switched to and from any number of times; the
    destructor finalises it and then destroys it (which finalises it again): a
    history like this is always careful *)
Definition use (a : nat) (x : call) : Prop :=
  match x with Active b | Synchronise b => b = a | Switch _ => True | _ => False end.
Lemma careful_app w l1 w1 l2 w2 : careful_history admins gives memory_of mapped false w l1 w1 ->
  careful_history admins gives memory_of mapped false w1 l2 w2 -> careful_history admins gives memory_of mapped false w (l1 ++ l2) w2.
Proof. induction 1; intros H2; [exact H2|]. cbn. econstructor; eauto. Qed.
Theorem C156_bench d uses w : Forall (use 0) uses ->
  history admins gives memory_of mapped false start (New :: InitializeV2 0 d :: uses ++ [Finalize 0; Destroy 0]) = Some w ->
  careful_history admins gives memory_of mapped false start (New :: InitializeV2 0 d :: uses ++ [Finalize 0; Destroy 0]) w /\
  forall a, find w a = None.
Proof.
  intros U H.
  assert (T : forall x w0 c0, contexts (tell x w0 c0) = contexts w0) by (intros; unfold tell; destruct (admin c0), (handle c0); reflexivity).
  assert (S1 : forall x w0 w1, use 0 x -> (step false w0 x = Done w1 \/ step false w0 x = Threw w1) -> contexts w1 = contexts w0 /\ careful mapped w0 x).
  { intros x w0 w1 X S. split; [|destruct x; try exact I; contradiction X]. destruct x; try contradiction X; cbn in S.
    - unfold with_context in S. destruct (find w0 a); [|destruct S; discriminate]. destruct S as [S|S]; [|discriminate]. injection S as <-. apply T.
    - unfold with_context in S. destruct (find w0 a); [|destruct S; discriminate]. destruct S as [S|S]; [|discriminate]. injection S as <-. apply T.
    - assert (EN : forall wa wb, then_ (match c with None => Done wa | Some x => with_context wa x (fun cx => Done (tell Activation wa cx)) end)
         (fun w2 => Done (World (contexts w2) c (next_handle w2) (log w2))) = Done wb -> contexts wb = contexts wa).
      { intros wa wb E. destruct c as [x|]; cbn in E; [|now injection E as <-]. unfold with_context in E. destruct (find wa x); [|discriminate]. cbn in E. injection E as <-. cbn. apply T. }
      assert (NT : forall wa wb, then_ (match c with None => Done wa | Some x => with_context wa x (fun cx => Done (tell Activation wa cx)) end)
         (fun w2 => Done (World (contexts w2) c (next_handle w2) (log w2))) <> Threw wb).
      { intros wa wb E. destruct c as [x|]; cbn in E; [|discriminate]. unfold with_context in E. destruct (find wa x); discriminate. }
      unfold switch in S. destruct (current w0) as [p|].
      2: { cbn [then_] in S. destruct S as [S|S]; [exact (EN _ _ S)|now apply NT in S]. }
      destruct (match c with Some x => p =? x | None => false end).
      { cbn [then_] in S. destruct S as [S|S]; [exact (EN _ _ S)|now apply NT in S]. }
      unfold with_context at 1 3 in S. destruct (find w0 p); [|destruct S; discriminate]. cbn [then_] in S.
      destruct S as [S|S]; [|now apply NT in S]. rewrite (EN _ _ S). apply T. }
  assert (MID : forall us w0, Forall (use 0) us -> length (contexts w0) = 1 ->
     history admins gives memory_of mapped false w0 (us ++ [Finalize 0; Destroy 0]) = Some w ->
     careful_history admins gives memory_of mapped false w0 (us ++ [Finalize 0; Destroy 0]) w /\ forall a, find w a = None).
  { induction us as [|x us IH]; intros w0 F L E.
    - cbn [app history] in E. cbn [DeviceCtxModel.step] in E. unfold with_context in E.
      destruct (find w0 0) as [c|] eqn:F0; [|discriminate]. destruct (finalize w0 c) as [w1 c1] eqn:F1.
      assert (K : contexts w1 = contexts w0) by (unfold finalize in F1; destruct (admin c), (handle c); injection F1 as <- <-; reflexivity).
      assert (L1 : 0 < length (contexts w1)) by (rewrite K; lia). rewrite find_set in E by exact L1. cbn [Nat.eqb] in E.
      destruct (finalize (set w1 0 c1) c1) as [w2 c2] eqn:F2. injection E as <-.
      assert (K2 : contexts w2 = contexts (set w1 0 c1)) by (unfold finalize in F2; destruct (admin c1), (handle c1); injection F2 as <- <-; reflexivity).
      split.
      + apply careful_cons with (w' := set w1 0 c1); [exact I|left; cbn; unfold with_context; now rewrite F0, F1|].
        apply careful_cons with (w' := drop w2 0); [exact I| |constructor].
        left. cbn [DeviceCtxModel.step]. unfold with_context. rewrite find_set by exact L1. cbn [Nat.eqb]. now rewrite F2.
      + assert (L2 : length (contexts w2) = 1) by (rewrite K2; cbn; rewrite length_put, K; exact L).
        intros a. rewrite find_drop by lia. destruct a as [|a]; [reflexivity|]. cbn. unfold find.
        replace (nth_error (contexts w2) (S a)) with (@None (option context)); [reflexivity|]. symmetry. apply nth_error_None. lia.
    - cbn [app history] in E. pose proof (Forall_inv F) as Ux.
      assert (ST : exists w1, (step false w0 x = Done w1 \/ step false w0 x = Threw w1) /\ history admins gives memory_of mapped false w1 (us ++ [Finalize 0; Destroy 0]) = Some w).
      { destruct (step false w0 x) as [w1|w1|]; [exists w1|exists w1|discriminate]; auto. }
      destruct ST as (w1 & S & E1). destruct (S1 x w0 w1 Ux S) as (K & C).
      destruct (IH w1 (Forall_inv_tail F) ltac:(rewrite K; exact L) E1) as (CH & NO). split; [|exact NO].
      cbn [app]. econstructor; [exact C|exact S|exact CH]. }
  cbn [history] in H. cbn [DeviceCtxModel.step] in H.
  assert (F0 : find (add start new_context) 0 = Some new_context) by reflexivity.
  assert (ST : exists w1, (step false (add start new_context) (InitializeV2 0 d) = Done w1 \/ step false (add start new_context) (InitializeV2 0 d) = Threw w1) /\
     history admins gives memory_of mapped false w1 (uses ++ [Finalize 0; Destroy 0]) = Some w).
  { cbn [DeviceCtxModel.step]. destruct (with_context (add start new_context) 0 _) as [w1|w1|]; [exists w1|exists w1|discriminate]; auto. }
  destruct ST as (w1 & S & E1).
  assert (L1 : length (contexts w1) = 1).
  { cbn [DeviceCtxModel.step] in S. unfold with_context in S. rewrite F0 in S. unfold initialize_v2, initialize in S. cbn [fst snd] in S.
    destruct (memory_of (mapped (fst d))); [|destruct S as [S|S]; [discriminate|]; injection S as <-; reflexivity].
    destruct (admins (mapped (fst d))); cbn in S; [destruct (gives _ _)|]; destruct S as [S|S]; try discriminate; injection S as <-; reflexivity. }
  destruct (MID uses w1 U L1 E1) as (CH & NO). split; [|exact NO].
  apply careful_cons with (w' := add start new_context); [exact I|left; reflexivity|].
  apply careful_cons with (w' := w1); [|exact S|exact CH]. intros c F. left. rewrite F0 in F. injection F as <-. reflexivity.
Qed.
End Registered.
Print Assumptions C156_handles_partial.
Print Assumptions C156_all_finalised.
Print Assumptions C156_bench.

(** *** What goes wrong without care *)
Local Open Scope string_scope.
Definition both (t : string) : bool := (t =? "gpu") || (t =? "npu").
Definition ex_history keeps l := history both (fun _ _ => true) (fun t => Some t) (fun t => if t =? "cuda" then "gpu" else t) keeps start l.

Example C156_example : exists w, ex_history false [New; InitializeV2 0 ("cuda", 1%Z); NewOn ("cpu", 0%Z); Switch (Some 0); Switch (Some 1); Active 0; Switch None; Finalize 0; Destroy 0; Destroy 1] = Some w /\
  log w = [Event "gpu" 1 Initialization 0; Event "gpu" 1 Activation 0; Event "gpu" 1 Synchronize 0; Event "gpu" 1 Activation 0; Event "gpu" 1 Finalization 0].
Proof. eexists. split; [vm_compute; reflexivity|reflexivity]. Qed.

(** initialising a context for another device gives its old handle to the admin
    of the new one, with the id of the new device *)
Theorem C156_reinitialise_refuted : exists w, ex_history false [NewOn ("gpu", 1%Z); Initialize 0 ("npu", 2%Z)] = Some w /\
  log w = [Event "gpu" 1 Initialization 0; Event "npu" 2 Finalization 0; Event "npu" 2 Initialization 1] /\ ~ proper (log w).
Proof.
  eexists. split; [vm_compute; reflexivity|]. split; [reflexivity|]. intros P.
  destruct (P [Event "gpu" 1 Initialization 0] (Event "npu" 2 Finalization 0) _ eq_refl) as (M & _). cbn in M. destruct M as [M|[]]. discriminate M.
Qed.
(** moving onto a context that holds a handle loses that handle: no context is
    left and it was never finalised *)
Theorem C156_move_refuted : exists w, ex_history false [NewOn ("gpu", 1%Z); NewOn ("gpu", 2%Z); MoveTo 0 1; Destroy 0; Destroy 1] = Some w /\
  (forall a, find w a = None) /\ made (log w) "gpu" 1 0 /\ ~ ended (log w) 0.
Proof.
  eexists. split; [vm_compute; reflexivity|]. split; [|split].
  - intros [|[|[|a]]]; reflexivity.
  - now left.
  - intros (e & He & A & B). cbn in He. destruct He as [<-|[<-|[<-|[]]]]; discriminate.
Qed.
(** a context that was moved from keeps its pointer: initialising it again
    finalises the handle of the other one, which then uses it *)
Theorem C156_moved_from_refuted : exists w, ex_history false [NewOn ("gpu", 1%Z); MoveNew 0; Initialize 0 ("gpu", 1%Z); Active 1] = Some w /\ ~ proper (log w).
Proof.
  eexists. split; [vm_compute; reflexivity|]. intros P.
  destruct (P [Event "gpu" 1 Initialization 0; Event "gpu" 1 Finalization 0; Event "gpu" 1 Initialization 1] (Event "gpu" 1 Activation 0) [] eq_refl) as (_ & N).
  apply (N (Event "gpu" 1 Finalization 0)); [right; now left|reflexivity|reflexivity].
Qed.
(** where a std::function that was moved from keeps its target, moving a context
    and destroying both finalises the handle twice *)
Theorem C156_function_refuted : exists w, ex_history true [NewOn ("gpu", 1%Z); MoveNew 0; Destroy 0; Destroy 1] = Some w /\ ~ proper (log w).
Proof.
  eexists. split; [vm_compute; reflexivity|]. intros P.
  destruct (P [Event "gpu" 1 Initialization 0; Event "gpu" 1 Finalization 0] (Event "gpu" 1 Finalization 0) [] eq_refl) as (_ & N).
  apply (N (Event "gpu" 1 Finalization 0)); [right; now left|reflexivity|reflexivity].
Qed.
(** a moved context does not know the device its user asked for *)
Theorem C156_origin_refuted : exists w c, ex_history false [New; InitializeV2 0 ("cuda", 1%Z); MoveNew 0] = Some w /\
  find w 1 = Some c /\ computing c = Some ("gpu", 1%Z) /\ origin c = None.
Proof. eexists. eexists. split; [vm_compute; reflexivity|]. split; [reflexivity|]. split; reflexivity. Qed.
(** leaving a context bound and destroying it: the next switch is undefined *)
Theorem C156_bound_refuted : ex_history false [NewOn ("gpu", 1%Z); Switch (Some 0); Destroy 0; Switch None] = None.
Proof. reflexivity. Qed.
Print Assumptions C156_reinitialise_refuted.
Print Assumptions C156_move_refuted.
Print Assumptions C156_moved_from_refuted.
Print Assumptions C156_function_refuted.
Print Assumptions C156_origin_refuted.
Print Assumptions C156_bound_refuted.
