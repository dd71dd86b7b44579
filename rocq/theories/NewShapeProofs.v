(** Proofs about the operators that only change the shape. *)
From Coq Require Import List ZArith Bool Lia.
From Verif Require Import ShapeModel ShapeSpec ShapeProofs KernelBase KernelSpec KernelProofs NewShapeModel NewShapeSpec.
Import ListNotations.
Local Open Scope Z_scope.

Notation nonneg := (Forall (fun d => 0 <= d)).

Lemma scan_nonneg s : nonneg s -> scan_wildcard s false = Some (s, false).
Proof. induction 1 as [|d s Hd _ IH]; [reflexivity|]. cbn [scan_wildcard]. destruct (Z.ltb_spec d 0); [lia|]. now rewrite IH. Qed.

Lemma reshape_same x s : nonneg s -> elements s = elements x -> reshape x s = SOk s.
Proof. intros H E. unfold reshape. rewrite scan_nonneg by assumption. rewrite !prod_elements, E, Z.eqb_refl. reflexivity. Qed.

Lemma new_shape_ok {A} f (x : tensor A) s : f (t_shape x) = SOk s -> nonneg s -> elements s = elements (t_shape x) ->
  new_shape_run f x = SOk (Tn (t_dtype x) s (t_data x)).
Proof. intros E N L. unfold new_shape_run. rewrite E, !prod_elements, L, Z.eqb_refl. cbn [negb]. now rewrite reshape_same. Qed.

Lemma new_shape_inv {A} f (x y : tensor A) s : f (t_shape x) = SOk s -> nonneg s -> new_shape_run f x = SOk y ->
  with_shape x y s /\ elements s = elements (t_shape x).
Proof.
  intros E N H. unfold new_shape_run in H. rewrite E, !prod_elements in H. destruct (Z.eqb_spec (elements (t_shape x)) (elements s)) as [L|L]; [|discriminate].
  cbn [negb] in H. rewrite reshape_same in H by auto. injection H as <-. unfold with_shape. cbn. auto.
Qed.

(** *** wildcards *)
Lemma wildcards_0 s : wildcards s = 0%nat -> nonneg s.
Proof.
  unfold wildcards. induction s as [|d s IH]; [constructor|]. cbn [filter]. destruct (Z.ltb_spec d 0); cbn [length]; [discriminate|]. constructor; [lia|auto].
Qed.

Lemma wildcards_nonneg s : nonneg s -> wildcards s = 0%nat.
Proof. unfold wildcards. induction 1 as [|d s Hd _ IH]; [reflexivity|]. cbn [filter]. destruct (Z.ltb_spec d 0); [lia|exact IH]. Qed.

Lemma wildcards_split s : (1 <= wildcards s)%nat -> exists a w b, s = a ++ w :: b /\ w < 0 /\ nonneg a /\ wildcards s = S (wildcards b).
Proof.
  unfold wildcards. induction s as [|d s IH]; cbn [filter length]; [lia|]. destruct (Z.ltb_spec d 0) as [L|L]; intros H.
  - exists [], d, s. cbn [app]. auto.
  - destruct (IH H) as (a & w & b & -> & Hw & Na & E). exists (d :: a), w, b. cbn [app]. repeat split; auto.
Qed.

Lemma wildcards_app a b : wildcards (a ++ b) = (wildcards a + wildcards b)%nat.
Proof. unfold wildcards. rewrite filter_app, app_length. reflexivity. Qed.

Lemma known_nonneg s : nonneg s -> known_count s = elements s.
Proof.
  intros N. unfold known_count. rewrite prod_elements. induction N as [|d s Hd _ IH]; [reflexivity|]. cbn [filter].
  destruct (Z.leb_spec 0 d); [|lia]. cbn [elements]. now rewrite IH.
Qed.

Lemma known_mid a w b : nonneg a -> nonneg b -> w < 0 -> known_count (a ++ w :: b) = elements (a ++ b).
Proof.
  intros Na Nb Hw. rewrite <- known_nonneg by (apply Forall_app; auto). unfold known_count. rewrite !filter_app. cbn [filter].
  destruct (Z.leb_spec 0 w); [lia|reflexivity].
Qed.

Lemma put_mid a w b v : nonneg a -> w < 0 -> put_wildcard (a ++ w :: b) v = a ++ v :: b.
Proof. induction 1 as [|d a Hd _ IH]; intros Hw; cbn [app put_wildcard]; [destruct (Z.ltb_spec w 0); [reflexivity|lia]|]. destruct (Z.ltb_spec d 0); [lia|]. now rewrite IH. Qed.

Lemma fill_ok n s0 s : (wildcards s0 <= 1)%nat -> 0 <= n -> fill_wildcard n s0 = SOk s ->
  nonneg s /\ length s = length s0 /\ (forall i d0 d, nth_error s0 i = Some d0 -> nth_error s i = Some d -> 0 <= d0 -> d = d0) /\
  (wildcards s0 <> 0%nat -> elements s = n).
Proof.
  intros H1 Hn H. unfold fill_wildcard in H. destruct (Nat.eqb_spec (wildcards s0) 0) as [E|E].
  - injection H as <-. split; [now apply wildcards_0|]. split; [reflexivity|]. split; [intros; congruence|intros Hc; congruence].
  - destruct (wildcards_split s0 ltac:(lia)) as (a & w & b & -> & Hw & Na & Ew).
    assert (Nb : nonneg b) by (apply wildcards_0; lia). rewrite known_mid in H by assumption.
    destruct (Z.eqb_spec (elements (a ++ b)) 0) as [Z0|Z0]; [discriminate|].
    destruct (Z.eqb_spec (Z.quot n (elements (a ++ b)) * elements (a ++ b)) n) as [Eq|Eq]; [|discriminate]. cbn [negb] in H. injection H as <-.
    assert (P : 0 < elements (a ++ b)) by (assert (0 <= elements (a ++ b)) by (apply elements_nonneg, Forall_app; auto); lia).
    rewrite put_mid by assumption. rewrite Z.quot_div_nonneg in * by lia.
    split; [apply Forall_app; split; [assumption|constructor; [apply Z.div_pos; lia|assumption]]|].
    split; [rewrite !app_length; reflexivity|]. split.
    + intros i d0 d E0 E1 Hd. destruct (Nat.lt_trichotomy i (length a)) as [L|[->|L]].
      * rewrite nth_error_app1 in E0, E1 by assumption. congruence.
      * rewrite nth_error_app2, Nat.sub_diag in E0 by lia. cbn in E0. injection E0 as <-. lia.
      * rewrite nth_error_app2 in E0, E1 by lia. destruct (i - length a)%nat eqn:Ei; [lia|]. cbn [nth_error] in E0, E1. congruence.
    + intros _. rewrite elements_mid. lia.
Qed.

Lemma fill_complete n s0 s : (wildcards s0 <= 1)%nat -> nonneg s -> length s = length s0 -> elements s = n ->
  (forall i d0 d, nth_error s0 i = Some d0 -> nth_error s i = Some d -> 0 <= d0 -> d = d0) ->
  (wildcards s0 <> 0%nat -> 0 < n) -> fill_wildcard n s0 = SOk s.
Proof.
  intros H1 N L E H Hn. unfold fill_wildcard. destruct (Nat.eqb_spec (wildcards s0) 0) as [E0|E0].
  - f_equal. apply nth_error_ext. intros i. apply wildcards_0 in E0. destruct (nth_error s0 i) as [d0|] eqn:Ea.
    + destruct (nth_error s i) as [d|] eqn:Eb; [|apply nth_error_None in Eb; apply nth_error_Some_lt in Ea || (assert (i < length s0)%nat by (apply nth_error_Some; congruence)); lia].
      f_equal. symmetry. apply (H i); auto. rewrite Forall_forall in E0. apply E0. eapply nth_error_In; eauto.
    + symmetry. apply nth_error_None. apply nth_error_None in Ea. lia.
  - specialize (Hn E0). destruct (wildcards_split s0 ltac:(lia)) as (a & w & b & -> & Hw & Na & Ew).
    assert (Nb : nonneg b) by (apply wildcards_0; lia). rewrite known_mid by assumption.
    assert (Es : exists v, s = a ++ v :: b /\ 0 <= v).
    { rewrite app_length in L. cbn [length] in L.
      exists (nth (length a) s 0). split.
      - apply nth_error_ext. intros i. destruct (Nat.lt_trichotomy i (length a)) as [Li|[->|Li]].
        + rewrite nth_error_app1 by assumption. destruct (nth_error a i) as [d0|] eqn:Ea; [|apply nth_error_None in Ea; lia].
          destruct (nth_error s i) as [d|] eqn:Eb; [|apply nth_error_None in Eb; lia]. f_equal. apply (H i); auto.
          * now rewrite nth_error_app1.
          * rewrite Forall_forall in Na. apply Na. eapply nth_error_In; eauto.
        + rewrite nth_error_app2, Nat.sub_diag by lia. cbn [nth_error]. apply nth_error_nth'. lia.
        + rewrite nth_error_app2 by lia. destruct (i - length a)%nat as [|k] eqn:Ei; [lia|]. cbn [nth_error].
          destruct (nth_error b k) as [d0|] eqn:Ea.
          * assert (k < length b)%nat by (apply nth_error_Some; congruence).
            destruct (nth_error s i) as [d|] eqn:Eb; [|apply nth_error_None in Eb; lia]. f_equal. apply (H i); auto.
            -- rewrite nth_error_app2 by lia. rewrite Ei. exact Ea.
            -- rewrite Forall_forall in Nb. apply Nb. eapply nth_error_In; eauto.
          * apply nth_error_None in Ea. apply nth_error_None. lia.
      - rewrite Forall_forall in N. apply N. apply nth_In. lia. }
    destruct Es as (v & -> & Hv). rewrite elements_mid in E.
    assert (P : 0 <= elements (a ++ b)) by (apply elements_nonneg, Forall_app; auto).
    destruct (Z.eqb_spec (elements (a ++ b)) 0) as [Z0|Z0]; [rewrite Z0 in E; lia|].
    rewrite put_mid by assumption. rewrite <- E. rewrite Z.quot_mul by assumption. rewrite Z.eqb_refl. reflexivity.
Qed.

(** *** zeros *)
Lemma copy_ok x shape : forall s, copy_zeros x shape = Some s -> length s = length shape /\
  (forall i t d, nth_error shape i = Some t -> nth_error s i = Some d -> (t <> 0 -> d = t) /\ (t = 0 -> nth_error x i = Some d)).
Proof.
  revert x. induction shape as [|t shape IH]; cbn [copy_zeros]; intros x s H.
  - injection H as <-. split; [reflexivity|]. intros [|i] ? ? E; discriminate.
  - destruct (copy_zeros (tl x) shape) as [rest|] eqn:E; [|discriminate]. destruct (IH _ _ E) as [L P].
    assert (Tl : forall i d, nth_error (tl x) i = Some d -> nth_error x (S i) = Some d) by (intros i d Hd; destruct x as [|a x']; [destruct i; discriminate|exact Hd]).
    destruct (Z.eqb_spec t 0) as [T|T].
    + destruct x as [|a x']; [discriminate|]. injection H as <-. split; [cbn; lia|]. intros [|i] t0 d0 E1 E2; cbn [nth_error] in *.
      * split; [congruence|intros _; congruence].
      * destruct (P i t0 d0 E1 E2) as [P1 P2]. auto.
    + injection H as <-. split; [cbn; lia|]. intros [|i] t0 d0 E1 E2; cbn [nth_error] in E1, E2.
      * split; congruence.
      * destruct (P i t0 d0 E1 E2) as [P1 P2]. auto.
Qed.

Lemma copy_complete x shape : (forall i, nth_error shape i = Some 0 -> (i < length x)%nat) -> exists s, copy_zeros x shape = Some s.
Proof.
  revert x. induction shape as [|t shape IH]; cbn [copy_zeros]; intros x H; [eauto|].
  destruct (IH (tl x)) as (s & ->).
  { intros i Hi. specialize (H (S i) Hi). destruct x; cbn in *; lia. }
  destruct (Z.eqb_spec t 0) as [->|T]; [|eauto]. destruct x; [|eauto]. specialize (H 0%nat eq_refl). cbn in H. lia.
Qed.

Lemma copy_v2_ok x shape : length (copy_zeros_v2 x shape) = length shape /\
  (forall i t d, nth_error shape i = Some t -> nth_error (copy_zeros_v2 x shape) i = Some d ->
     (t <> 0 -> d = t) /\ (t = 0 -> nth_error x i = Some d \/ (d = 0 /\ nth_error x i = None))).
Proof.
  revert x. induction shape as [|t shape IH]; cbn [copy_zeros_v2]; intros x.
  - split; [reflexivity|]. intros [|i] ? ? E; discriminate.
  - destruct (IH (tl x)) as [L P].
    assert (Tl : forall i, nth_error (tl x) i = nth_error x (S i)) by (intros i; destruct x as [|a x']; [destruct i; reflexivity|reflexivity]).
    split; [cbn; lia|]. intros [|i] t0 d0 E1 E2; cbn [nth_error] in E1, E2.
    + injection E1 as <-. injection E2 as <-. destruct (Z.eqb_spec t 0) as [T|T]; [|split; congruence]. split; [congruence|]. intros _. destruct x; cbn; auto.
    + destruct (P i t0 d0 E1 E2) as [P1 P2]. rewrite Tl in P2. auto.
Qed.

Lemma wildcards_copy x shape s : nonneg x -> length s = length shape ->
  (forall i t d, nth_error shape i = Some t -> nth_error s i = Some d -> (t <> 0 -> d = t) /\ (t = 0 -> 0 <= d)) ->
  wildcards s = wildcards shape.
Proof.
  intros Nx L H. revert s L H. induction shape as [|t shape IH]; intros [|d s] L H; cbn in L; try lia.
  unfold wildcards. cbn [filter].
  assert (Hw : wildcards s = wildcards shape).
  { apply IH; [lia|]. intros i t0 d0 E1 E2. apply (H (S i)); assumption. }
  unfold wildcards in Hw. destruct (H 0%nat t d eq_refl eq_refl) as [H1 H2].
  destruct (Z.ltb_spec t 0); destruct (Z.ltb_spec d 0); cbn [length]; try lia; exfalso; destruct (Z.eq_dec t 0) as [e|e]; (specialize (H2 e) || specialize (H1 e)); lia.
Qed.

Lemma wildcards_pos target : wildcards target <> 0%nat <-> wildcard target.
Proof.
  unfold wildcard. split; intros H.
  - destruct (wildcards_split target ltac:(lia)) as (a & w & b & -> & Hw & _). exists w. split; [apply in_elt|exact Hw].
  - destruct H as (t & Hin & Ht). apply in_split in Hin. destruct Hin as (a & b & ->). rewrite wildcards_app. unfold wildcards at 2. cbn [filter].
    destruct (Z.ltb_spec t 0); [cbn [length]; lia|lia].
Qed.

Lemma wildcards_two target : (1 < wildcards target)%nat <-> two_wildcards target.
Proof.
  unfold two_wildcards. split; intros H.
  - destruct (wildcards_split target ltac:(lia)) as (a & t & r & -> & Ht & _ & E).
    destruct (wildcards_split r ltac:(lia)) as (b & u & c & -> & Hu & _). exists a, t, b, u, c. auto.
  - destruct H as (a & t & b & u & c & -> & Ht & Hu). rewrite wildcards_app. unfold wildcards at 2. cbn [filter].
    destruct (Z.ltb_spec t 0); [|lia]. cbn [length]. rewrite filter_app. cbn [filter]. destruct (Z.ltb_spec u 0); [|lia]. rewrite app_length. cbn [length]. lia.
Qed.

(** *** axes *)
Lemma drop_above k axes s : (forall a, In a axes -> a < k) -> drop k axes s = s.
Proof.
  revert k. induction s as [|d s IH]; intros k H; [reflexivity|]. cbn [drop].
  assert (E : existsb (Z.eqb k) axes = false).
  { apply not_true_is_false. intros C. apply existsb_exists in C. destruct C as (a & Ha & Ea). apply Z.eqb_eq in Ea. subst a. specialize (H k Ha). lia. }
  rewrite E. f_equal. apply IH. intros a Ha. specialize (H a Ha). lia.
Qed.

Lemma drop_app k axes s t : drop k axes (s ++ t) = drop k axes s ++ drop (k + Z.of_nat (length s)) axes t.
Proof.
  revert k. induction s as [|d s IH]; intros k; cbn [drop app length].
  - f_equal. lia.
  - rewrite IH. replace (k + 1 + Z.of_nat (length s)) with (k + Z.of_nat (S (length s))) by lia. destruct (existsb (Z.eqb k) axes); reflexivity.
Qed.

Lemma drop_ext k axes axes' s : (forall i, k <= i < k + Z.of_nat (length s) -> (In i axes <-> In i axes')) -> drop k axes s = drop k axes' s.
Proof.
  revert k. induction s as [|d s IH]; intros k H; [reflexivity|]. cbn [drop length] in *.
  assert (E : existsb (Z.eqb k) axes = existsb (Z.eqb k) axes').
  { apply eq_true_iff_eq. rewrite !existsb_exists. destruct (H k ltac:(lia)) as [H1 H2].
    split; intros (a & Ha & Ea); apply Z.eqb_eq in Ea; subst a; exists k; rewrite Z.eqb_refl; auto. }
  rewrite E, IH; [reflexivity|]. intros i Hi. apply H. lia.
Qed.

Lemma increasing_bound k axes : increasing k axes -> forall a, In a axes -> k <= a.
Proof.
  revert k. induction axes as [|b axes IH]; intros k H a Ha; [destruct Ha|]. destruct H as [H1 H2]. destruct Ha as [->|Ha]; [exact H1|].
  specialize (IH _ H2 a Ha). lia.
Qed.

(** what unsqueeze and squeeze do to increasing axes, one after the other *)
Lemma unsqueeze_run axes : forall done s x, increasing 0 (done ++ axes) ->
  Z.of_nat (length s) = Z.of_nat (length x) + Z.of_nat (length done) ->
  (forall a, In a (done ++ axes) -> a < Z.of_nat (length x) + Z.of_nat (length (done ++ axes))) ->
  (forall a, In a done -> a < Z.of_nat (length s)) ->
  (forall a, In a done -> nth_error s (Z.to_nat a) = Some 1) -> drop 0 done s = x ->
  exists s', unsqueeze_newshape axes s = SOk s' /\ Z.of_nat (length s') = Z.of_nat (length x) + Z.of_nat (length (done ++ axes)) /\
    (forall a, In a (done ++ axes) -> nth_error s' (Z.to_nat a) = Some 1) /\ drop 0 (done ++ axes) s' = x.
Proof.
  induction axes as [|a axes IH]; intros done s x Hi Hl Hb Hd H1 Hx.
  - rewrite app_nil_r in *. exists s. cbn. auto.
  - assert (Sp : increasing 0 done /\ (forall b, In b done -> b < a) /\ 0 <= a).
    { clear -Hi. revert Hi. enough (G : forall k, 0 <= k -> increasing k (done ++ a :: axes) -> increasing k done /\ (forall b, In b done -> b < a) /\ 0 <= a) by (apply G; lia).
      induction done as [|b done IH]; intros k Hk H; cbn [app increasing] in *.
      - split; [auto|]. split; [intros b []|lia].
      - destruct H as [H1 H2]. pose proof (increasing_bound _ _ H2 a (in_elt _ _ _)) as Ha. destruct (IH (b + 1) ltac:(lia) H2) as (G1 & G2 & G3). split; [auto|]. split; [|lia].
        intros c [->|Hc]; [lia|auto]. }
    destruct Sp as (Id & Lt & Ha). cbn [unsqueeze_newshape].
    assert (Hax : a <= Z.of_nat (length s)).
    { rewrite Hl. assert (G : forall l k, increasing k l -> forall e, (forall b, In b l -> b < e) -> k <= e -> k + Z.of_nat (length l) <= e).
      { induction l as [|b l IHl]; intros k Hk e He Hke; cbn [length]; [lia|]. destruct Hk as [K1 K2].
        specialize (IHl _ K2 e ltac:(intros c Hc; apply He; now right) ltac:(specialize (He b (or_introl eq_refl)); lia)). lia. }
      assert (Ia : increasing (a + 1) axes).
      { clear -Hi. revert Hi. generalize 0 as k. induction done as [|b done IH]; intros k H; cbn [app increasing] in H; [apply H|]. eapply IH, (proj2 H). }
      assert (Q : a + 1 + Z.of_nat (length axes) <= Z.of_nat (length x) + Z.of_nat (length (done ++ a :: axes))).
      { apply (G axes (a + 1) Ia); [intros b Hb'; apply Hb, in_or_app; right; now right|]. specialize (Hb a (in_elt _ _ _)). lia. }
      rewrite app_length in Q. cbn [length] in Q. lia. }
    destruct (Z.ltb_spec (Z.of_nat (length s)) a); [lia|]. destruct (Z.ltb_spec a (- Z.of_nat (length s))); [lia|]. cbn [orb].
    destruct (Z.leb_spec 0 a); [|lia]. set (n := Z.to_nat a). assert (En : Z.of_nat n = a) by (unfold n; lia).
    set (s1 := insert_at n 1 s).
    assert (Ls : length (firstn n s) = n) by (apply firstn_length_le; lia).
    assert (L1 : Z.of_nat (length s1) = Z.of_nat (length s) + 1).
    { unfold s1, insert_at. rewrite app_length. cbn [length]. rewrite Ls, skipn_length. lia. }
    replace (done ++ a :: axes) with ((done ++ [a]) ++ axes) in * by (rewrite <- app_assoc; reflexivity).
    apply IH; auto.
    + rewrite app_length. cbn [length]. lia.
    + intros b Hb'. apply in_app_iff in Hb'. destruct Hb' as [Hb'|[<-|[]]]; [specialize (Hd b Hb'); lia|lia].
    + intros b Hb'. apply in_app_iff in Hb'. unfold s1, insert_at. destruct Hb' as [Hb'|[<-|[]]].
      * specialize (Lt b Hb'). pose proof (increasing_bound _ _ Id b Hb'). rewrite nth_error_app1 by lia.
        rewrite <- (H1 b Hb'). rewrite <- (firstn_skipn n s) at 2. rewrite nth_error_app1 by lia. reflexivity.
      * fold n. rewrite nth_error_app2 by lia. rewrite Ls, Nat.sub_diag. reflexivity.
    + unfold s1, insert_at. rewrite drop_app, Ls. cbn [drop]. replace (0 + Z.of_nat n) with a by lia.
      assert (Ea : existsb (Z.eqb a) (done ++ [a]) = true) by (apply existsb_exists; exists a; split; [apply in_or_app; right; now left|apply Z.eqb_refl]).
      rewrite Ea. rewrite <- Hx. rewrite <- (firstn_skipn n s) at 3. rewrite drop_app, Ls.
      assert (Hdone : forall c, In c done -> c < a) by auto. f_equal.
      * apply drop_ext. rewrite Ls. intros i Hi'. split; intros Hin; [apply in_app_iff in Hin; destruct Hin as [Hin|[Hin|[]]]; [assumption|lia]|apply in_or_app; now left].
      * rewrite !drop_above; [reflexivity|intros c Hc; specialize (Hdone c Hc); lia|].
        intros c Hc. apply in_app_iff in Hc. destruct Hc as [Hc|[Hc|[]]]; [specialize (Hdone c Hc); lia|lia].
Qed.

Lemma squeeze_run axes : forall s, increasing 0 axes -> (forall a, In a axes -> a < Z.of_nat (length s)) ->
  (forall a, In a axes -> nth_error s (Z.to_nat a) = Some 1) -> squeeze_axes (rev axes) s = SOk (drop 0 axes s).
Proof.
  induction axes as [|a axes IH] using rev_ind; intros s Hi Hb H1.
  - cbn. now rewrite drop_above by (intros a []).
  - assert (Sp : increasing 0 axes /\ (forall b, In b axes -> b < a) /\ 0 <= a).
    { clear -Hi. revert Hi. enough (G : forall k, 0 <= k -> increasing k (axes ++ [a]) -> increasing k axes /\ (forall b, In b axes -> b < a) /\ 0 <= a) by (apply G; lia).
      induction axes as [|b axes IH]; intros k Hk H; cbn [app increasing] in *.
      - split; [auto|]. split; [intros b []|lia].
      - destruct H as [H1 H2]. pose proof (increasing_bound _ _ H2 a (in_elt _ _ _)) as Ha. destruct (IH (b + 1) ltac:(lia) H2) as (G1 & G2 & G3). split; [auto|]. split; [|lia].
        intros c [->|Hc]; [lia|auto]. }
    destruct Sp as (Ii & Lt & Ha). rewrite rev_app_distr. cbn [rev app squeeze_axes]. destruct (Z.leb_spec 0 a); [|lia].
    assert (Hba : a < Z.of_nat (length s)) by (apply Hb, in_or_app; right; now left).
    destruct (Z.ltb_spec a 0); [lia|]. destruct (Z.leb_spec (Z.of_nat (length s)) a); [lia|]. cbn [orb].
    assert (E1 : nth_error s (Z.to_nat a) = Some 1) by (apply H1, in_or_app; right; now left).
    rewrite (nth_error_nth _ _ 0 E1). cbn [Z.eqb Pos.eqb negb]. set (n := Z.to_nat a) in *. assert (En : Z.of_nat n = a) by (unfold n; lia).
    assert (Ls : length (firstn n s) = n) by (apply firstn_length_le; lia).
    assert (Es : s = firstn n s ++ 1 :: skipn (S n) s).
    { rewrite <- (firstn_skipn n s) at 1. f_equal. destruct (skipn n s) as [|d r] eqn:Er.
      - exfalso. apply (f_equal (@length _)) in Er. rewrite skipn_length in Er. cbn in Er. lia.
      - assert (d = 1) as ->. { rewrite <- (firstn_skipn n s) in E1. rewrite nth_error_app2, Ls, Nat.sub_diag, Er in E1 by lia. cbn in E1. congruence. }
        f_equal. change (S n) with (1 + n)%nat. replace (skipn (1 + n) s) with (skipn 1 (skipn n s)); [rewrite Er; reflexivity|].
        clear. revert s. induction n as [|n IHn]; intros s; [reflexivity|]. destruct s; [reflexivity|]. cbn [skipn Nat.add] in *. apply IHn. }
    rewrite IH; [|assumption|..].
    + f_equal. rewrite Es at 2. unfold erase_at. rewrite !drop_app, Ls. f_equal.
      * apply drop_ext. rewrite Ls. intros i Hi'. split; intros Hin; [apply in_or_app; now left|apply in_app_iff in Hin; destruct Hin as [Hin|[Hin|[]]]; [assumption|lia]].
      * cbn [drop]. replace (0 + Z.of_nat n) with a by lia.
        assert (Ea : existsb (Z.eqb a) (axes ++ [a]) = true) by (apply existsb_exists; exists a; split; [apply in_or_app; right; now left|apply Z.eqb_refl]).
        rewrite Ea. rewrite !drop_above; [reflexivity|..].
        -- intros c Hc. apply in_app_iff in Hc. destruct Hc as [Hc|[Hc|[]]]; [specialize (Lt c Hc); lia|lia].
        -- intros c Hc. specialize (Lt c Hc). lia.
    + intros b Hb'. specialize (Lt b Hb'). unfold erase_at. rewrite app_length, Ls. lia.
    + intros b Hb'. pose proof (Lt b Hb'). pose proof (increasing_bound _ _ Ii b Hb'). unfold erase_at. rewrite nth_error_app1 by lia.
      rewrite <- (H1 b) by (apply in_or_app; now left). rewrite Es at 2. rewrite nth_error_app1 by lia. reflexivity.
Qed.

Lemma elements_drop axes s : forall k, (forall a, In a axes -> k <= a < k + Z.of_nat (length s) -> nth_error s (Z.to_nat (a - k)) = Some 1) -> elements (drop k axes s) = elements s.
Proof.
  induction s as [|d s IH]; intros k H; [reflexivity|]. cbn [drop elements length] in *.
  assert (R : elements (drop (k + 1) axes s) = elements s).
  { apply IH. intros a Ha Hk. specialize (H a Ha ltac:(lia)). replace (Z.to_nat (a - k)) with (S (Z.to_nat (a - (k + 1)))) in H by lia. exact H. }
  destruct (existsb (Z.eqb k) axes) eqn:E; cbn [elements]; rewrite R; [|reflexivity].
  apply existsb_exists in E. destruct E as (a & Ha & Ea). apply Z.eqb_eq in Ea. subst a. specialize (H k Ha ltac:(lia)).
  rewrite Z.sub_diag in H. cbn in H. injection H as ->. lia.
Qed.

Lemma nonneg_drop axes s : forall k, nonneg s -> nonneg (drop k axes s).
Proof. induction s as [|d s IH]; intros k H; cbn [drop]; [constructor|]. inversion H; subst. destruct (existsb (Z.eqb k) axes); [auto|constructor; auto]. Qed.

Lemma nonneg_of_drop axes s : forall k, nonneg (drop k axes s) -> (forall a, In a axes -> k <= a < k + Z.of_nat (length s) -> nth_error s (Z.to_nat (a - k)) = Some 1) -> nonneg s.
Proof.
  induction s as [|d s IH]; intros k N H; [constructor|]. cbn [drop length] in *.
  assert (H' : forall a, In a axes -> k + 1 <= a < k + 1 + Z.of_nat (length s) -> nth_error s (Z.to_nat (a - (k + 1))) = Some 1).
  { intros a Ha Hk. specialize (H a Ha ltac:(lia)). replace (Z.to_nat (a - k)) with (S (Z.to_nat (a - (k + 1)))) in H by lia. exact H. }
  destruct (existsb (Z.eqb k) axes) eqn:E.
  - constructor; [|apply (IH (k + 1)); auto]. apply existsb_exists in E. destruct E as (a & Ha & Ea). apply Z.eqb_eq in Ea. subst a. specialize (H k Ha ltac:(lia)).
    rewrite Z.sub_diag in H. cbn in H. injection H as ->. lia.
  - inversion N; subst. constructor; [assumption|]. apply (IH (k + 1)); auto.
Qed.
