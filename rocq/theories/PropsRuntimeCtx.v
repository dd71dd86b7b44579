(** C157: runtime contexts have their own pools of the size asked for, and clones
    of them too. *)
From Coq Require Import List Bool ZArith Arith Lia.
From Verif Require Import RuntimeCtxModel RuntimeCtxSpec.
Import ListNotations.
Local Open Scope Z_scope.

Lemma nth_put {A} (l : list A) a b (c : A) : nth_error (put l a c) b = if ((b =? a) && (a <? length l))%nat then Some c else nth_error l b.
Proof.
  revert a b. induction l as [|x l IH]; intros a b.
  - destruct a, b; cbn; try reflexivity; now rewrite andb_false_r.
  - destruct a as [|a], b as [|b]; cbn; try reflexivity. rewrite IH. now change (S a <? S (length l))%nat with (a <? length l)%nat.
Qed.
Lemma length_put {A} (l : list A) a (c : A) : length (put l a c) = length l.
Proof. revert a. induction l as [|x l IH]; intros [|a]; cbn; auto. Qed.
Lemma put_app {A} (l m : list A) a (c : A) : (a < length l)%nat -> put (l ++ m) a c = put l a c ++ m.
Proof. revert a. induction l as [|x l IH]; intros [|a] H; cbn in *; [lia|lia|reflexivity|]. rewrite IH by lia. reflexivity. Qed.
Lemma nth_snoc {A} (l : list A) (c : A) b : nth_error (l ++ [c]) b = if (b =? length l)%nat then Some c else nth_error l b.
Proof.
  destruct (Nat.eqb_spec b (length l)) as [->|N].
  - now rewrite nth_error_app2, Nat.sub_diag by lia.
  - destruct (lt_dec b (length l)); [now rewrite nth_error_app1 by lia|].
    transitivity (@None A); [|symmetry]; apply nth_error_None; [rewrite app_length; cbn|]; lia.
Qed.

(** *** Who owns which pool *)
Definition owners := nat -> option (Z * option nat).
Definition upd (f : owners) a v : owners := fun b => if (b =? a)%nat then v else f b.
Record good (f : owners) (ps : list (Z * bool)) : Prop := {
  g1 : forall a n p, f a = Some (n, p) -> 1 <= n;
  g2 : forall a n p, f a = Some (n, Some p) -> nth_error ps p = Some (n, true);
  g3 : forall a b n m p, f a = Some (n, Some p) -> f b = Some (m, Some p) -> a = b;
  g4 : forall p n, nth_error ps p = Some (n, true) -> exists a m, f a = Some (m, Some p) }.
Lemma good_ext f g ps : (forall a, f a = g a) -> good f ps -> good g ps.
Proof.
  intros E [A B C D]. constructor.
  - intros a n p. rewrite <- E. apply A.
  - intros a n p. rewrite <- E. apply B.
  - intros a b n m p. rewrite <- !E. apply C.
  - intros p n H. destruct (D p n H) as (a & m & X). exists a, m. now rewrite <- E.
Qed.
Lemma good_new f ps a n : good f ps -> f a = None -> 1 <= n -> good (upd f a (Some (n, Some (length ps)))) (ps ++ [(n, true)]).
Proof.
  intros [A B C D] F N.
  assert (LT : forall b m p, f b = Some (m, Some p) -> (p < length ps)%nat) by (intros b m p X; apply nth_error_Some; rewrite (B _ _ _ X); discriminate).
  constructor; unfold upd.
  - intros b m p. destruct (b =? a)%nat; [intros [= <- <-]; exact N|apply A].
  - intros b m p. rewrite nth_snoc. destruct (b =? a)%nat; [intros [= <- <-]; now rewrite Nat.eqb_refl|]. intros X. specialize (LT _ _ _ X).
    destruct (Nat.eqb_spec p (length ps)); [lia|]. eauto.
  - intros b c m k p. destruct (Nat.eqb_spec b a) as [->|]; destruct (Nat.eqb_spec c a) as [->|]; intros X Y; [reflexivity| | |eauto].
    + injection X as <- <-. apply LT in Y. lia.
    + injection Y as <- <-. apply LT in X. lia.
  - intros p m. rewrite nth_snoc. destruct (Nat.eqb_spec p (length ps)) as [->|].
    + intros _. exists a, n. now rewrite Nat.eqb_refl.
    + intros X. destruct (D _ _ X) as (b & k & Y). exists b, k. destruct (Nat.eqb_spec b a) as [->|]; [congruence|exact Y].
Qed.
Lemma good_release f ps a n p s : good f ps -> f a = Some (n, Some p) -> good (upd f a None) (put ps p (s, false)).
Proof.
  intros [A B C D] F. constructor; unfold upd.
  - intros b m q. destruct (b =? a)%nat; [discriminate|apply A].
  - intros b m q. destruct (Nat.eqb_spec b a) as [->|N]; [discriminate|]. intros X. rewrite nth_put.
    destruct (Nat.eqb_spec q p) as [->|]; [exfalso; eauto|]. cbn. eauto.
  - intros b c m k q. destruct (b =? a)%nat; [discriminate|]. destruct (c =? a)%nat; [discriminate|]. apply C.
  - intros q m. rewrite nth_put. destruct (Nat.eqb_spec q p) as [->|N].
    + assert (L : (p <? length ps)%nat = true) by (apply Nat.ltb_lt, nth_error_Some; rewrite (B _ _ _ F); discriminate). rewrite L. cbn. discriminate.
    + cbn. intros X. destruct (D _ _ X) as (b & k & Y). exists b, k. destruct (Nat.eqb_spec b a) as [->|]; [congruence|exact Y].
Qed.
Lemma good_forget f ps a n : good f ps -> f a = Some (n, None) -> good (upd f a None) ps.
Proof.
  intros [A B C D] F. constructor; unfold upd.
  - intros b m q. destruct (b =? a)%nat; [discriminate|apply A].
  - intros b m q. destruct (b =? a)%nat; [discriminate|apply B].
  - intros b c m k q. destruct (b =? a)%nat; [discriminate|]. destruct (c =? a)%nat; [discriminate|]. apply C.
  - intros q m X. destruct (D _ _ X) as (b & k & Y). exists b, k. destruct (Nat.eqb_spec b a) as [->|]; [congruence|exact Y].
Qed.
Lemma good_empty f ps a n : good f ps -> f a = None -> 1 <= n -> good (upd f a (Some (n, None))) ps.
Proof.
  intros [A B C D] F N. constructor; unfold upd.
  - intros b m q. destruct (b =? a)%nat; [intros [= <- _]; exact N|apply A].
  - intros b m q. destruct (b =? a)%nat; [discriminate|apply B].
  - intros b c m k q. destruct (b =? a)%nat; [discriminate|]. destruct (c =? a)%nat; [discriminate|]. apply C.
  - intros q m X. destruct (D _ _ X) as (b & k & Y). exists b, k. destruct (Nat.eqb_spec b a) as [->|]; [congruence|exact Y].
Qed.
Lemma good_swap f ps a b : good f ps -> good (upd (upd f a (f b)) b (f a)) ps.
Proof.
  intros [A B C D].
  set (s := fun x => if (x =? b)%nat then a else if (x =? a)%nat then b else x).
  assert (E : forall x, upd (upd f a (f b)) b (f a) x = f (s x)).
  { intros x. unfold upd, s. destruct (x =? b)%nat; [reflexivity|]. now destruct (x =? a)%nat. }
  assert (J : forall x y, s x = s y -> x = y).
  { intros x y. unfold s. destruct (Nat.eqb_spec x b), (Nat.eqb_spec y b), (Nat.eqb_spec x a), (Nat.eqb_spec y a); lia. }
  assert (SS : forall x, s (s x) = x).
  { intros x. unfold s. destruct (Nat.eqb_spec x b) as [->|]; [destruct (Nat.eqb_spec a b); [congruence|]; now rewrite Nat.eqb_refl|].
    destruct (Nat.eqb_spec x a) as [->|]; [now rewrite Nat.eqb_refl|]. destruct (Nat.eqb_spec x b); [congruence|]. destruct (Nat.eqb_spec x a); congruence. }
  constructor.
  - intros x n p. rewrite E. apply A.
  - intros x n p. rewrite E. apply B.
  - intros x y n m p. rewrite !E. intros X Y. eauto.
  - intros p n X. destruct (D p n X) as (x & m & Y). exists (s x), m. now rewrite E, SS.
Qed.

(** *** Worlds *)
Definition view (w : world) : owners := fun a => option_map (fun c => (number c, pool c)) (find w a).
Lemma sound_good w : sound w <-> good (view w) (pools w).
Proof.
  unfold view. split.
  - intros [A B C D]. constructor.
    + intros a n p. destruct (find w a) as [c|] eqn:F; [|discriminate]. intros [= <- <-]. eauto.
    + intros a n p. destruct (find w a) as [c|] eqn:F; [|discriminate]. intros [= <- E]. eauto.
    + intros a b n m p. destruct (find w a) as [c|] eqn:F; [|discriminate]. destruct (find w b) as [d|] eqn:G; [|discriminate]. intros [= <- X] [= <- Y]. eauto.
    + intros p n X. destruct (D p n X) as (a & c & F & Y). exists a, (number c). now rewrite F; cbn; rewrite Y.
  - intros [A B C D]. constructor.
    + intros a c F. apply (A a (number c) (pool c)). now rewrite F.
    + intros a c p F P. apply (B a (number c) p). rewrite F. cbn. now rewrite P.
    + intros a b c d p F G P Q. apply (C a b (number c) (number d) p); [rewrite F|rewrite G]; cbn; [now rewrite P|now rewrite Q].
    + intros p n X. destruct (D p n X) as (a & m & Y). destruct (find w a) as [c|] eqn:F; [|discriminate]. cbn in Y. exists a, c. split; [exact F|congruence].
Qed.
Lemma find_lt w a c : find w a = Some c -> (a < length (runtimes w))%nat.
Proof. unfold find. intros H. apply nth_error_Some. destruct (nth_error (runtimes w) a); congruence. Qed.
Lemma find_set w a c b : (a < length (runtimes w))%nat -> find (set w a c) b = if (b =? a)%nat then c else find w b.
Proof. intros H. unfold find, set. cbn. rewrite nth_put. apply Nat.ltb_lt in H. rewrite H, andb_true_r. destruct (b =? a)%nat; [now destruct c|reflexivity]. Qed.
Lemma find_add w c b : find (add w c) b = if (b =? length (runtimes w))%nat then Some c else find w b.
Proof. unfold find, add. cbn. rewrite nth_snoc. now destruct (b =? length (runtimes w))%nat. Qed.
Lemma find_out w : find w (length (runtimes w)) = None.
Proof. unfold find. replace (nth_error (runtimes w) (length (runtimes w))) with (@None (option runtime)); [reflexivity|]. symmetry. apply nth_error_None. lia. Qed.
Lemma runtimes_release w p : runtimes (release w p) = runtimes w.
Proof. unfold release. destruct p as [i|]; [|reflexivity]. now destruct (nth_error (pools w) i) as [[s e]|]. Qed.
Lemma find_release w p a : find (release w p) a = find w a.
Proof. unfold find. now rewrite runtimes_release. Qed.
Lemma release_pools w i : pools (release w (Some i)) = match nth_error (pools w) i with Some (s, _) => put (pools w) i (s, false) | None => pools w end.
Proof. unfold release. now destruct (nth_error (pools w) i) as [[s e]|]. Qed.
Lemma controllers_release w p : controllers (release w p) = controllers w.
Proof. unfold release. destruct p as [i|]; [|reflexivity]. now destruct (nth_error (pools w) i) as [[s e]|]. Qed.
Lemma blas_release w p : blas (release w p) = blas w.
Proof. unfold release. destruct p as [i|]; [|reflexivity]. now destruct (nth_error (pools w) i) as [[s e]|]. Qed.

(** a context lets its pool go: nobody owns it *)
Lemma good_let f w a n p : good f (pools w) -> f a = Some (n, p) -> good (upd f a None) (pools (release w p)).
Proof.
  intros G F. destruct p as [i|]; [|exact (good_forget _ _ _ _ G F)]. rewrite release_pools, (g2 _ _ G _ _ _ F). exact (good_release _ _ _ _ _ _ G F).
Qed.

Section Machine.
Variable procs : Z.
Variable env : variable.
Hypothesis procs_positive : 1 <= procs.

Lemma fixed_positive n : 1 <= fixed procs n.
Proof. unfold fixed. destruct (Z.ltb_spec n 0); [lia|]. destruct (Z.eqb_spec n 0); lia. Qed.

(** set_threads: the old pool goes, a new one comes *)
Lemma threads_facts w c n w' c' : set_threads procs w c n = (w', c') ->
  runtimes w' = runtimes w /\ controllers w' = controllers w /\ blas w' = Some (fixed procs n) /\
  number c' = fixed procs n /\ pool c' = Some (length (pools w)) /\ flow c' = flow c /\ dynamic c' = dynamic c /\
  pools w' = pools (release (fst (make_pool w (fixed procs n))) (pool c)).
Proof.
  unfold set_threads. cbn [make_pool]. intros E. injection E as <- <-. cbn [runtimes controllers blas number pool flow dynamic pools].
  rewrite runtimes_release, controllers_release. cbn. repeat split.
Qed.
Lemma good_threads f w c n w' c' a m : good f (pools w) -> f a = Some (m, pool c) -> set_threads procs w c n = (w', c') ->
  good (upd f a (Some (number c', pool c'))) (pools w').
Proof.
  intros G F E. destruct (threads_facts _ _ _ _ _ E) as (_ & _ & _ & -> & -> & _ & _ & ->). cbn [make_pool fst].
  pose proof (good_let f w a m (pool c) G F) as G2.
  assert (L : length (pools (release w (pool c))) = length (pools w)).
  { destruct (pool c) as [i|]; [|reflexivity]. rewrite release_pools. destruct (nth_error (pools w) i) as [[s e]|]; [apply length_put|reflexivity]. }
  assert (X : pools (release (World (pools w ++ [(fixed procs n, true)]) (controllers w) (blas w) (runtimes w)) (pool c)) = pools (release w (pool c)) ++ [(fixed procs n, true)]).
  { destruct (pool c) as [i|]; [|reflexivity]. rewrite !release_pools. cbn [pools]. rewrite nth_error_app1.
    - rewrite (g2 _ _ G _ _ _ F). apply put_app. apply nth_error_Some. rewrite (g2 _ _ G _ _ _ F). discriminate.
    - apply nth_error_Some. rewrite (g2 _ _ G _ _ _ F). discriminate. }
  rewrite X, <- L. eapply good_ext; [|apply (good_new _ _ a (fixed procs n) G2); [unfold upd; now rewrite Nat.eqb_refl|apply fixed_positive]].
  intros b. unfold upd. now destruct (b =? a)%nat.
Qed.
Lemma construct_facts w w' c : construct procs env w = Some (w', c) ->
  runtimes w' = runtimes w /\ controllers w' = controllers w /\ blas w' = Some (default procs env) /\
  number c = default procs env /\ pool c = Some (length (pools w)) /\ flow c = None /\ dynamic c = None /\
  pools w' = pools w ++ [(default procs env, true)].
Proof.
  unfold construct, default. destruct env as [|n|]; intros E; [| |discriminate]; apply (f_equal (fun o => match o with Some x => x | None => (w, c) end)) in E; cbv beta iota in E; apply threads_facts in E; exact E.
Qed.
Lemma good_construct f w w' c a : good f (pools w) -> f a = None -> construct procs env w = Some (w', c) ->
  good (upd f a (Some (number c, pool c))) (pools w').
Proof.
  intros G F E. destruct (construct_facts _ _ _ E) as (_ & _ & _ & -> & -> & _ & _ & ->). apply good_new; [exact G|exact F|apply fixed_positive].
Qed.
Lemma clone_facts w c w' c' p : (forall n e, nth_error (pools w) p = Some (n, e) -> n = number c) -> (p < length (pools w))%nat -> pool c = Some p ->
  clone procs env w c = Some (w', c') ->
  runtimes w' = runtimes w /\ blas w' = Some (default procs env) /\
  number c' = number c /\ pool c' = Some (S (length (pools w))) /\
  pools w' = pools w ++ [(default procs env, false); (number c, true)] /\
  (controllers w <= controllers w')%nat /\
  (forall i, flow c' = Some i -> controllers w <= i < controllers w')%nat /\ (forall i, dynamic c' = Some i -> controllers w <= i < controllers w')%nat /\
  (flow c' = None <-> flow c = None) /\ (dynamic c' = None <-> dynamic c = None) /\ (forall i, flow c' = Some i -> dynamic c' <> Some i).
Proof.
  intros SZ LP P E. unfold clone in E. destruct (construct procs env w) as [[w1 d]|] eqn:K; [|discriminate]. rewrite P in E.
  destruct (construct_facts _ _ _ K) as (R1 & C1 & B1 & _ & D1 & F1 & Y1 & P1). rewrite D1, F1, Y1 in E.
  assert (SZ' : match nth_error (pools w1) p with Some (s, _) => s | None => 0 end = number c).
  { rewrite P1, nth_error_app1 by exact LP. destruct (nth_error (pools w) p) as [[s e]|] eqn:X; [exact (SZ s e eq_refl)|]. apply nth_error_None in X. lia. }
  rewrite SZ' in E. cbn [make_pool] in E.
  set (w2 := release (World (pools w1 ++ [(number c, true)]) (controllers w1) (blas w1) (runtimes w1)) (Some (length (pools w)))) in E.
  assert (P2 : pools w2 = pools w ++ [(default procs env, false); (number c, true)]).
  { unfold w2. rewrite release_pools. cbn [pools]. rewrite P1, <- app_assoc. cbn [app]. rewrite nth_error_app2, Nat.sub_diag by lia. cbn [nth_error].
    clear. induction (pools w) as [|x l IH]; [reflexivity|]. cbn. now rewrite IH. }
  assert (R2 : runtimes w2 = runtimes w) by (unfold w2; rewrite runtimes_release; exact R1).
  assert (C2 : controllers w2 = controllers w) by (unfold w2; rewrite controllers_release; exact C1).
  assert (B2 : blas w2 = Some (default procs env)) by (unfold w2; rewrite blas_release; exact B1).
  clearbody w2. assert (LL : length (pools w1) = S (length (pools w))) by (rewrite P1, app_length; cbn; lia). rewrite LL in E. clear K P1 SZ' D1 F1 Y1.
  destruct (dynamic c) as [y|], (flow c) as [f|]; cbn in E; injection E as <- <-; cbn; rewrite ?R2, ?C2, ?B2, ?P2;
    refine (conj eq_refl (conj eq_refl (conj eq_refl (conj eq_refl (conj eq_refl _))))); repeat match goal with |- _ /\ _ => apply conj end;
    first [lia | intros i X; injection X as <-; lia | intros i X; discriminate X | (split; intros X; (reflexivity || discriminate X)) | (intros i X Y; congruence) | (intros i X Y; injection X as <-; injection Y as Y; lia)].
Qed.

Lemma made_sound w w1 c : good (view w) (pools w) -> runtimes w1 = runtimes w -> good (upd (view w) (length (runtimes w)) (Some (number c, pool c))) (pools w1) ->
  sound (add w1 c).
Proof.
  intros G R H. apply sound_good. eapply good_ext; [|exact H]. intros b. unfold view at 2. rewrite find_add, R. unfold upd.
  destruct (b =? length (runtimes w))%nat; [reflexivity|]. unfold view, find. now rewrite R.
Qed.
Lemma view_out w : view w (length (runtimes w)) = None.
Proof. unfold view. now rewrite find_out. Qed.

Theorem step_sound w x w' : sound w -> (forall a c, x = Clone a -> find w a = Some c -> pool c <> None) ->
  (step procs env w x = Done w' \/ step procs env w x = Threw w') -> sound w'.
Proof.
  intros S C E. pose proof S as G. apply sound_good in G.
  destruct x as [| |a n|a|b|a b|a i|a i|a|a]; cbn [step] in E.
  - unfold made in E. destruct (construct procs env w) as [[w1 c]|] eqn:K; destruct E as [E|E]; try discriminate; injection E as <-; [|exact S].
    apply (made_sound w); [exact G|now apply construct_facts in K|]. eapply good_construct; eauto using view_out.
  - unfold made, construct_on in E. destruct (construct procs env w) as [[w1 c]|] eqn:K; destruct E as [E|E]; try discriminate; injection E as <-; [|exact S].
    apply (made_sound w); [exact G|now apply construct_facts in K|]. cbn [number pool pools]. eapply good_construct; eauto using view_out.
  - unfold with_ in E. destruct (find w a) as [c|] eqn:F; [|destruct E; discriminate]. destruct (set_threads procs w c n) as [w1 c1] eqn:K.
    destruct E as [E|E]; [|discriminate]. injection E as <-. pose proof (threads_facts _ _ _ _ _ K) as (R & _).
    assert (V : view w a = Some (number c, pool c)) by (unfold view; now rewrite F).
    apply sound_good. eapply good_ext; [|exact (good_threads _ _ _ _ _ _ _ _ G V K)]. intros b. unfold view at 2. rewrite find_set by (rewrite R; eapply find_lt; eauto).
    unfold upd. destruct (b =? a)%nat; [reflexivity|]. unfold view, find. now rewrite R.
  - unfold with_ in E. destruct (find w a) as [c|] eqn:F; [|destruct E; discriminate]. unfold made in E.
    destruct (clone procs env w c) as [[w1 c1]|] eqn:K; destruct E as [E|E]; try discriminate; injection E as <-; [|exact S].
    specialize (C a c eq_refl F). destruct (pool c) as [p|] eqn:P; [|congruence].
    pose proof (s_pool _ S _ _ _ F P) as SP.
    assert (LP : (p < length (pools w))%nat) by (apply nth_error_Some; rewrite SP; discriminate).
    destruct (clone_facts w c w1 c1 p) as (R & _ & N & Q & PW & _); [intros n e X; congruence|exact LP|exact P|exact K|].
    apply (made_sound w); [exact G|exact R|]. rewrite N, Q, PW.
    pose proof (good_new _ _ (length (runtimes w)) (default procs env) G (view_out w) (fixed_positive _)) as G1.
    pose proof (good_release _ _ (length (runtimes w)) _ _ (default procs env) G1 ltac:(unfold upd; now rewrite Nat.eqb_refl)) as G2.
    pose proof (good_new _ _ (length (runtimes w)) (number c) G2 ltac:(unfold upd; now rewrite Nat.eqb_refl) (s_positive _ S _ _ F)) as G3.
    assert (X : put (pools w ++ [(default procs env, true)]) (length (pools w)) (default procs env, false) = pools w ++ [(default procs env, false)]).
    { clear. induction (pools w) as [|x l IH]; [reflexivity|]. cbn. now rewrite IH. }
    rewrite X, <- app_assoc in G3. rewrite app_length in G3. cbn [app length] in G3. rewrite Nat.add_1_r in G3.
    eapply good_ext; [|exact G3]. intros b. unfold upd. now destruct (b =? length (runtimes w))%nat.
  - unfold with_ in E. destruct (find w b) as [cb|] eqn:F; [|destruct E; discriminate]. destruct E as [E|E]; [|discriminate]. injection E as <-.
    pose proof (find_lt _ _ _ F) as L. apply sound_good. cbn [set add pools].
    pose proof (good_empty _ _ (length (runtimes w)) 1 G (view_out w) ltac:(lia)) as G1.
    pose proof (good_swap _ _ b (length (runtimes w)) G1) as G2. eapply good_ext; [|exact G2].
    intros x. unfold upd, view. rewrite find_set by (cbn; rewrite app_length; cbn; lia). rewrite find_add.
    assert (NB : (b =? length (runtimes w))%nat = false) by (apply Nat.eqb_neq; lia). rewrite NB, Nat.eqb_refl.
    destruct (Nat.eqb_spec x (length (runtimes w))) as [->|].
    + rewrite Nat.eqb_sym, NB. now rewrite F.
    + destruct (x =? b)%nat; reflexivity.
  - unfold with_ in E. destruct (find w a) as [ca|] eqn:Fa; [|destruct E; discriminate]. destruct (find w b) as [cb|] eqn:Fb; [|destruct E; discriminate].
    destruct E as [E|E]; [|discriminate]. injection E as <-. pose proof (find_lt _ _ _ Fa) as La. pose proof (find_lt _ _ _ Fb) as Lb.
    apply sound_good. cbn [set pools]. eapply good_ext; [|exact (good_swap _ _ a b G)].
    intros x. unfold upd, view. rewrite (find_set (set w a (Some cb))) by (cbn; rewrite length_put; exact Lb). rewrite find_set by exact La. rewrite Fa, Fb.
    destruct (x =? b)%nat; [reflexivity|]. now destruct (x =? a)%nat.
  - unfold with_ in E. destruct (find w a) as [c|] eqn:F; [|destruct E; discriminate]. destruct E as [E|E]; [|discriminate]. injection E as <-.
    apply sound_good. eapply good_ext; [|exact G]. intros x. unfold view. rewrite find_set by (eapply find_lt; eauto). destruct (Nat.eqb_spec x a) as [->|]; [now rewrite F|reflexivity].
  - unfold with_ in E. destruct (find w a) as [c|] eqn:F; [|destruct E; discriminate]. destruct E as [E|E]; [|discriminate]. injection E as <-.
    apply sound_good. eapply good_ext; [|exact G]. intros x. unfold view. rewrite find_set by (eapply find_lt; eauto). destruct (Nat.eqb_spec x a) as [->|]; [now rewrite F|reflexivity].
  - unfold with_ in E. destruct (find w a) as [c|] eqn:F; [|destruct E; discriminate]. destruct (pool c); destruct E as [E|E]; try discriminate. injection E as <-. exact S.
  - unfold with_ in E. destruct (find w a) as [c|] eqn:F; [|destruct E; discriminate]. destruct E as [E|E]; [|discriminate]. injection E as <-.
    assert (V : view w a = Some (number c, pool c)) by (unfold view; now rewrite F).
    apply sound_good. cbn [set pools]. eapply good_ext; [|exact (good_let _ w a _ _ G V)]. intros x. unfold view at 2.
    rewrite find_set by (rewrite runtimes_release; eapply find_lt; eauto). unfold upd. destruct (x =? a)%nat; [reflexivity|]. unfold view. now rewrite find_release.
Qed.
Lemma start_sound : sound start.
Proof.
  apply sound_good. constructor.
  - intros a n p. unfold view, find. now destruct a.
  - intros a n p. unfold view, find. now destruct a.
  - intros a b n m p. unfold view, find. now destruct a.
  - intros p n. now destruct p.
Qed.

(** after any history without clones of moved-from contexts *)
Theorem C157_contexts_partial l w : used procs env start l w -> sound w.
Proof.
  assert (H : forall a b, used procs env a l b -> sound a -> sound b).
  { induction 1 as [|a x b l c C E H IH]; intros S; [exact S|]. apply IH. eapply step_sound; eauto. }
  intros U. exact (H _ _ U start_sound).
Qed.
(** and when all of them are gone, so are the pools *)
Theorem C157_no_pool_left l w : used procs env start l w -> (forall a, find w a = None) -> forall p n, nth_error (pools w) p <> Some (n, true).
Proof.
  intros U NO p n X. destruct (s_owned _ (C157_contexts_partial l w U) p n X) as (a & c & F & _). rewrite NO in F. discriminate.
Qed.
(** a clone: the same number of threads, a pool and controllers of its own, and
    nothing else is touched *)
Theorem C157_clone w a c w' : sound w -> find w a = Some c -> pool c <> None -> step procs env w (Clone a) = Done w' ->
  exists c' p', find w' (length (runtimes w)) = Some c' /\ number c' = number c /\
    pool c' = Some p' /\ (length (pools w) <= p')%nat /\ nth_error (pools w') p' = Some (number c, true) /\
    (forall i, flow c' = Some i -> controllers w <= i)%nat /\ (forall i, dynamic c' = Some i -> controllers w <= i)%nat /\
    (flow c' = None <-> flow c = None) /\ (dynamic c' = None <-> dynamic c = None) /\ (forall i, flow c' = Some i -> dynamic c' <> Some i) /\
    (forall b, (b < length (runtimes w))%nat -> find w' b = find w b) /\
    (forall p, (p < length (pools w))%nat -> nth_error (pools w') p = nth_error (pools w) p).
Proof.
  intros S F NP E. cbn [step] in E. unfold with_ in E. rewrite F in E. unfold made in E. destruct (clone procs env w c) as [[w1 c1]|] eqn:K; [|discriminate].
  injection E as <-. destruct (pool c) as [p|] eqn:P; [|congruence]. pose proof (s_pool _ S _ _ _ F P) as SP.
  assert (LP : (p < length (pools w))%nat) by (apply nth_error_Some; rewrite SP; discriminate).
  destruct (clone_facts w c w1 c1 p) as (R & _ & N & Q & PW & LC & FL & DY & FN & DN & FD); [intros n e X; congruence|exact LP|exact P|exact K|].
  exists c1, (Datatypes.S (length (pools w))). rewrite find_add, R, Nat.eqb_refl. cbn [add pools]. rewrite PW.
  split; [reflexivity|]. split; [exact N|]. split; [exact Q|]. split; [lia|]. split.
  { rewrite nth_error_app2 by lia. now replace (Datatypes.S (length (pools w)) - length (pools w))%nat with 1%nat by lia. }
  split; [intros i X; now destruct (FL i X)|]. split; [intros i X; now destruct (DY i X)|]. split; [exact FN|]. split; [exact DN|]. split; [exact FD|]. split.
  - intros b L. rewrite find_add, R. destruct (Nat.eqb_spec b (length (runtimes w))); [lia|]. unfold find. now rewrite R.
  - intros q L. now rewrite nth_error_app1 by exact L.
Qed.
(** the number asked for *)
Theorem C157_number w a c n w' : find w a = Some c -> step procs env w (SetThreads a n) = Done w' ->
  exists c', find w' a = Some c' /\ (1 <= n -> number c' = n) /\ (n = 0 -> number c' = 1) /\ (n < 0 -> number c' = procs).
Proof.
  intros F E. cbn [step] in E. unfold with_ in E. rewrite F in E. destruct (set_threads procs w c n) as [w1 c1] eqn:K. injection E as <-.
  destruct (threads_facts _ _ _ _ _ K) as (R & _ & _ & N & _). exists c1. rewrite find_set, Nat.eqb_refl by (rewrite R; eapply find_lt; eauto). split; [reflexivity|].
  rewrite N. unfold fixed. destruct (Z.ltb_spec n 0); [lia|]. destruct (Z.eqb_spec n 0); lia.
Qed.

(** *** What fails *)
(** cloning a context (or making one) sets the process-wide thread count of BLAS
    to the default, whatever the contexts ask for *)
Theorem C157_blas_refuted w a c w' : sound w -> find w a = Some c -> pool c <> None -> step procs env w (Clone a) = Done w' ->
  blas w' = Some (default procs env).
Proof.
  intros S F NP E. cbn [step] in E. unfold with_ in E. rewrite F in E. unfold made in E. destruct (clone procs env w c) as [[w1 c1]|] eqn:K; [|discriminate].
  injection E as <-. destruct (pool c) as [p|] eqn:P; [|congruence]. pose proof (s_pool _ S _ _ _ F P) as SP.
  assert (LP : (p < length (pools w))%nat) by (apply nth_error_Some; rewrite SP; discriminate).
  destruct (clone_facts w c w1 c1 p) as (_ & B & _); [intros n e X; congruence|exact LP|exact P|exact K|]. exact B.
Qed.
(** the thread pool of a context that was moved from: a null reference *)
Theorem C157_moved_refuted w b cb w' : find w b = Some cb -> step procs env w (MoveNew b) = Done w' -> step procs env w' (Pool b) = Undef.
Proof.
  intros F E. cbn [step] in *. unfold with_ in E. rewrite F in E. injection E as <-. unfold with_. pose proof (find_lt _ _ _ F).
  rewrite find_set, Nat.eqb_refl by (cbn; rewrite app_length; cbn; lia). reflexivity.
Qed.
(** cloning a bench: the thread pool bound for the rest of the call (the clone of
    the desktop) no longer exists, and the flow controller of the clone's runtime is
    not the one its stack allocates from *)
Theorem C157_bench_refuted w b c w' dolly bound : sound w -> find w (runtime_of b) = Some c -> pool c <> None -> flow c <> None ->
  clone_bench procs env w b = Some (w', dolly, bound) ->
  exists p n f c', bound = Some p /\ nth_error (pools w') p = Some (n, false) /\
    find w' (runtime_of dolly) = Some c' /\ flow c' = Some f /\ f <> flow_memory dolly.
Proof.
  intros S F NP NF E. unfold clone_bench in E. rewrite F in E. unfold new_bench in E. destruct (construct procs env w) as [[w1 c0]|] eqn:K; [|discriminate].
  cbn [make_controller] in E. destruct (construct_facts _ _ _ K) as (R1 & C1 & B1 & N1 & P1 & F1 & Y1 & PS1).
  set (w2 := add _ _) in E. cbn [runtime_of] in E.
  assert (F2 : find w2 (length (runtimes w1)) = Some (Runtime (number c0) (pool c0) (Some (controllers w1 + 1)%nat) (Some (controllers w1 + 2)%nat))).
  { unfold w2. rewrite find_add. cbn [runtimes]. rewrite Nat.eqb_refl. cbn [controllers]. rewrite !Nat.add_succ_r, Nat.add_0_r. reflexivity. }
  cbn [runtimes] in E. rewrite F2 in E. cbn [pool] in E. destruct (clone procs env w2 c) as [[w3 t]|] eqn:K2; [|discriminate]. injection E as <- <- <-.
  destruct (pool c) as [q|] eqn:P; [|congruence]. pose proof (s_pool _ S _ _ _ F P) as SP.
  assert (LP : (q < length (pools w))%nat) by (apply nth_error_Some; rewrite SP; discriminate).
  assert (PS2 : pools w2 = pools w ++ [(default procs env, true)]) by (unfold w2; cbn; exact PS1).
  destruct (clone_facts w2 c w3 t q) as (R3 & _ & N3 & Q3 & PS3 & LC3 & FL3 & _ & FN3 & _ & _); [| |exact P|exact K2|].
  { intros n e X. rewrite PS2, nth_error_app1 in X by exact LP. congruence. }
  { rewrite PS2, app_length. lia. }
  destruct (flow t) as [f|] eqn:FT; [|exfalso; apply NF; now apply FN3].
  assert (L3 : (length (runtimes w1) < length (runtimes w3))%nat) by (rewrite R3; unfold w2; cbn; rewrite app_length; cbn; lia).
  exists (length (pools w)), (default procs env), f, t. cbn [runtime_of flow_memory]. rewrite P1. split; [reflexivity|]. split; [|split; [|split; [exact FT|]]].
  - rewrite release_pools. cbn [set pools]. rewrite PS3, PS2, <- app_assoc. cbn [app]. rewrite nth_error_app2, Nat.sub_diag by lia. cbn [nth_error].
    rewrite nth_put, Nat.eqb_refl, app_length. cbn [length andb].
    assert (X : (length (pools w) <? length (pools w) + 3)%nat = true) by (apply Nat.ltb_lt; lia). rewrite X. reflexivity.
  - rewrite find_release, find_set, Nat.eqb_refl by exact L3. reflexivity.
  - specialize (FL3 f eq_refl). unfold w2 in FL3. cbn in FL3. cbn. lia.
Qed.
(** a new bench: its runtime has the controller its stack allocates from, and another
    one for the rest; nobody else has either *)
Theorem C157_new_bench w w' b : new_bench procs env w = Some (w', b) ->
  exists c, find w' (runtime_of b) = Some c /\ number c = default procs env /\ pool c = Some (length (pools w)) /\
    nth_error (pools w') (length (pools w)) = Some (default procs env, true) /\
    flow c = Some (flow_memory b) /\ dynamic c = Some (dynamic_memory b) /\ flow_memory b <> dynamic_memory b /\
    (controllers w <= flow_memory b < controllers w')%nat /\ (controllers w <= dynamic_memory b < controllers w')%nat /\
    find w (runtime_of b) = None /\ forall a, a <> runtime_of b -> find w' a = find w a.
Proof.
  intros E. unfold new_bench in E. destruct (construct procs env w) as [[w1 c0]|] eqn:K; [|discriminate].
  cbn [make_controller] in E. destruct (construct_facts _ _ _ K) as (R1 & C1 & B1 & N1 & P1 & F1 & Y1 & PS1). injection E as <- <-. cbn [runtime_of flow_memory dynamic_memory].
  eexists. split; [rewrite find_add; cbn [runtimes]; rewrite Nat.eqb_refl; reflexivity|]. cbn [number pool flow dynamic]. split; [exact N1|]. split; [exact P1|].
  split; [cbn; rewrite PS1, nth_error_app2, Nat.sub_diag by lia; reflexivity|].
  split; [reflexivity|]. split; [reflexivity|]. cbn [controllers add]. split; [lia|]. split; [cbn; lia|]. split; [cbn; lia|].
  split; [unfold find; rewrite R1, (proj2 (nth_error_None _ _)); [reflexivity|lia]|].
  intros a Ha. rewrite find_add. cbn [runtimes]. destruct (Nat.eqb_spec a (length (runtimes w1))) as [->|_]; [congruence|]. unfold find. cbn [runtimes]. now rewrite R1.
Qed.
End Machine.
Print Assumptions C157_new_bench.
Print Assumptions C157_contexts_partial.
Print Assumptions C157_no_pool_left.
Print Assumptions C157_clone.
Print Assumptions C157_number.
Print Assumptions C157_blas_refuted.
Print Assumptions C157_moved_refuted.
Print Assumptions C157_bench_refuted.

(** *** Concrete runs *)
Example C157_example : exists w, history 8 (Number 2) start [New; SetThreads 0 1; Clone 0; SetThreads 1 (-3); Destroy 0] = Some w /\
  find w 1 = Some (Runtime 8 (Some 4%nat) None None) /\ pools w = [(2, false); (1, false); (2, false); (1, false); (8, true)].
Proof. eexists. split; [vm_compute; reflexivity|split; reflexivity]. Qed.
(** a bench set to one thread; its clone has one thread too, and BLAS has four *)
Theorem C157_one_thread_refuted : exists w, history 8 Unset start [New; SetThreads 0 1; Clone 0] = Some w /\ blas w = Some 4 /\
  forall a c, find w a = Some c -> number c = 1.
Proof. eexists. split; [vm_compute; reflexivity|]. split; [reflexivity|]. intros [|[|[|a]]] c [= <-]; reflexivity. Qed.
(** a variable that is no number: no context can be made at all *)
Theorem C157_variable_refuted procs w : step procs Unreadable w New = Threw w.
Proof. reflexivity. Qed.
(** cloning a moved-from context gives one thread and a pool of four *)
Theorem C157_stale_refuted : exists w, history 8 Unset start [New; MoveNew 0; Clone 0] = Some w /\
  find w 2 = Some (Runtime 1 (Some 1%nat) None None) /\ nth_error (pools w) 1 = Some (4, true).
Proof. eexists. split; [vm_compute; reflexivity|split; reflexivity]. Qed.
Example C157_bench_example : exists w1 b1 w2 b2, new_bench 8 Unset start = Some (w1, b1) /\ clone_bench 8 Unset w1 b1 = Some (w2, b2, Some 1%nat) /\
  nth_error (pools w2) 1 = Some (4, false).
Proof. eexists. eexists. eexists. eexists. split; [vm_compute; reflexivity|]. split; [vm_compute; reflexivity|reflexivity]. Qed.
Print Assumptions C157_one_thread_refuted.
Print Assumptions C157_variable_refuted.
Print Assumptions C157_stale_refuted.
