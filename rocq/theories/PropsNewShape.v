(** C98: operators that only change the shape. *)
From Coq Require Import List ZArith Bool Lia.
From Verif Require Import ShapeModel ShapeSpec ShapeProofs KernelBase KernelSpec KernelProofs NewShapeModel NewShapeSpec NewShapeProofs.
Import ListNotations.
Local Open Scope Z_scope.

(** C98: whatever these operators return holds the elements of the input in
    the same order, and as many as its shape says. *)
Theorem C98_elements_kept {A} (x y : tensor A) : wf x ->
  (exists t, reshape_op t x = SOk y) \/ (exists t, reshape_v2_op t x = SOk y) \/ (exists d, flatten_op d x = SOk y) \/
  (exists d, flatten2d_op d x = SOk y) \/ (exists a, squeeze_op a x = SOk y) \/ (exists a, unsqueeze_op a x = SOk y) \/
  (exists f b i d, expand_op f b i d x = SOk y) ->
  t_dtype y = t_dtype x /\ t_data y = t_data x /\ elements (t_shape y) = elements (t_shape x).
Proof.
  intros W H.
  assert (R : forall x0 s s', reshape x0 s = SOk s' -> elements s' = elements x0).
  { intros x0 s s'. unfold reshape. destruct (scan_wildcard s false) as [[fixed found]|]; [|discriminate].
    destruct (if found then if prod fixed =? 0 then SUndef else SOk (put_wildcard fixed (Z.quot (prod x0) (- prod fixed))) else SOk fixed) as [s0| |]; try discriminate.
    rewrite !prod_elements. destruct (Z.eqb_spec (elements s0) (elements x0)); [|discriminate]. intros E. now injection E as <-. }
  assert (G : forall f, new_shape_run f x = SOk y -> t_dtype y = t_dtype x /\ t_data y = t_data x /\ elements (t_shape y) = elements (t_shape x)).
  { intros f E. unfold new_shape_run in E. destruct (f (t_shape x)) as [s| |]; try discriminate. destruct (negb (prod (t_shape x) =? prod s)); [discriminate|].
    destruct (reshape (t_shape x) s) as [s'| |] eqn:Er; try discriminate. injection E as <-. cbn [t_dtype t_data t_shape]. repeat split. eapply R; eauto. }
  destruct H as [(t & H)|[(t & H)|[(t & H)|[(t & H)|[(t & H)|[(t & H)|(f & b & i & d & H)]]]]]]; try (eapply G; exact H).
  unfold expand_op in H. destruct (expand_shape f b i (t_shape x) d) as [s|]; [|discriminate].
  destruct (reshape (t_shape x) s) as [s'| |] eqn:Er; try discriminate. injection H as <-. cbn [t_dtype t_data t_shape]. repeat split. eapply R; eauto.
Qed.

(** C98: reshape gives the requested sizes, 0 keeping a size and a negative
    number standing for whatever is left ... *)
Theorem C98_reshape_result {A} (target : list Z) (x y : tensor A) : wf x -> reshape_op target x = SOk y ->
  exists s, with_shape x y s /\ stands_for target (t_shape x) s /\ elements s = elements (t_shape x) /\ Forall (fun d => 0 <= d) s.
Proof.
  intros [N _] H. unfold reshape_op in H.
  destruct (reshape_newshape target (t_shape x)) as [s| |] eqn:E; [|unfold new_shape_run in H; rewrite E in H; discriminate..].
  unfold reshape_newshape in E. destruct (Nat.ltb_spec 1 (wildcards target)) as [L|L]; [discriminate|].
  destruct (copy_zeros (t_shape x) target) as [s0|] eqn:Ec; [|discriminate]. destruct (copy_ok _ _ _ Ec) as [L0 P0].
  assert (Ew : wildcards s0 = wildcards target).
  { apply (wildcards_copy (t_shape x)); auto. intros i t d Ht Hd. destruct (P0 i t d Ht Hd) as [Q1 Q2]. split; [exact Q1|]. intros Z0. specialize (Q2 Z0).
    rewrite Forall_forall in N. apply N. eapply nth_error_In; eauto. }
  rewrite prod_elements in E. destruct (fill_ok _ _ _ ltac:(rewrite Ew; exact L) (elements_nonneg _ N) E) as (Ns & Ls & Ps & Es).
  assert (En : reshape_newshape target (t_shape x) = SOk s).
  { unfold reshape_newshape. destruct (Nat.ltb_spec 1 (wildcards target)); [lia|]. rewrite Ec, prod_elements. exact E. }
  destruct (new_shape_inv _ x y s En Ns H) as [Hw He]. exists s. split; [exact Hw|]. split; [|split; [exact He|exact Ns]].
  split; [lia|]. intros i t d Ht Hd. destruct (nth_error s0 i) as [d0|] eqn:E0.
  - destruct (P0 i t d0 Ht E0) as [Q1 Q2]. specialize (Ps i d0 d E0 Hd). split; [|split].
    + intros Hp. rewrite (Q1 ltac:(lia)) in *. now apply Ps; lia.
    + intros Z0. specialize (Q2 Z0). rewrite Ps; [exact Q2|]. rewrite Forall_forall in N. apply N. eapply nth_error_In; eauto.
    + intros _. rewrite Forall_forall in Ns. apply Ns. eapply nth_error_In; eauto.
  - apply nth_error_None in E0. assert (i < length s)%nat by (apply nth_error_Some; congruence). lia.
Qed.

(** ... and every shape that the request can stand for and that holds as many
    elements is found; only one can be. *)
Theorem C98_reshape_found {A} (target s : list Z) (x : tensor A) : wf x -> ~ two_wildcards target ->
  (wildcard target -> elements (t_shape x) <> 0) -> (forall i, nth_error target i = Some 0 -> (i < length (t_shape x))%nat) ->
  stands_for target (t_shape x) s -> elements s = elements (t_shape x) ->
  exists y, reshape_op target x = SOk y /\ with_shape x y s.
Proof.
  intros [N _] Hw Hz Hr [L P] E.
  assert (Ns : Forall (fun d => 0 <= d) s).
  { rewrite Forall_forall. intros d Hin. apply In_nth_error in Hin. destruct Hin as (i & Ei).
    destruct (nth_error target i) as [t|] eqn:Et.
    - destruct (P i t d Et Ei) as (P1 & P2 & P3). destruct (Z.lt_trichotomy t 0) as [T|[T|T]]; [auto| |specialize (P1 T); lia].
      specialize (P2 T). rewrite Forall_forall in N. apply N. eapply nth_error_In; eauto.
    - apply nth_error_None in Et. assert (i < length s)%nat by (apply nth_error_Some; congruence). lia. }
  destruct (copy_complete (t_shape x) target Hr) as (s0 & Ec). destruct (copy_ok _ _ _ Ec) as [L0 P0].
  assert (Ew : wildcards s0 = wildcards target).
  { apply (wildcards_copy (t_shape x)); auto. intros i t d Ht Hd. destruct (P0 i t d Ht Hd) as [Q1 Q2]. split; [exact Q1|]. intros Z0. specialize (Q2 Z0).
    rewrite Forall_forall in N. apply N. eapply nth_error_In; eauto. }
  assert (W1 : (wildcards target <= 1)%nat) by (destruct (Nat.le_gt_cases (wildcards target) 1); [assumption|exfalso; apply Hw, wildcards_two; lia]).
  assert (En : reshape_newshape target (t_shape x) = SOk s).
  { unfold reshape_newshape. destruct (Nat.ltb_spec 1 (wildcards target)); [lia|]. rewrite Ec, prod_elements. apply fill_complete; auto; try lia.
    - intros i d0 d E0 E1 H0. destruct (nth_error target i) as [t|] eqn:Et; [|apply nth_error_None in Et; assert (i < length s)%nat by (apply nth_error_Some; congruence); lia].
      destruct (P0 i t d0 Et E0) as [Q1 Q2]. destruct (P i t d Et E1) as (R1 & R2 & R3).
      destruct (Z.eq_dec t 0) as [T|T]; [specialize (Q2 T); specialize (R2 T); congruence|]. rewrite (Q1 T) in *. apply R1. lia.
    - rewrite Ew. intros Hc. apply wildcards_pos in Hc. specialize (Hz Hc). pose proof (elements_nonneg _ N). lia. }
  eexists. split; [apply new_shape_ok; eauto|]. unfold with_shape. auto.
Qed.

(** C98: reshape refuses two wildcards and a 0 beyond the sizes of the input. *)
Theorem C98_reshape_refused {A} (target : list Z) (x : tensor A) :
  two_wildcards target \/ (exists i, nth_error target i = Some 0 /\ (length (t_shape x) <= i)%nat) -> reshape_op target x = SErr.
Proof.
  intros H. unfold reshape_op, new_shape_run, reshape_newshape.
  destruct (Nat.ltb_spec 1 (wildcards target)) as [L|L]; [reflexivity|]. destruct H as [H|(i & Hi & Hl)]; [apply wildcards_two in H; lia|].
  destruct (copy_zeros (t_shape x) target) as [s|] eqn:Ec; [|reflexivity]. destruct (copy_ok _ _ _ Ec) as [L0 P0].
  destruct (nth_error s i) as [d|] eqn:Ed; [|apply nth_error_None in Ed; assert (i < length target)%nat by (apply nth_error_Some; congruence); lia].
  destruct (P0 i 0 d Hi Ed) as [_ Q]. specialize (Q eq_refl). apply nth_error_None in Hl. congruence.
Qed.

(** C98: reshape_v2 is reshape for tensors without empty axes. *)
Theorem C98_reshape_v2 {A} (target : list Z) (x : tensor A) : wf x -> positive_shape (t_shape x) -> ~ two_wildcards target ->
  (forall i, nth_error target i = Some 0 -> (i < length (t_shape x))%nat) ->
  reshape_v2_op target x = reshape_op target x.
Proof.
  intros [N _] Hp Hw Hr. unfold reshape_v2_op, reshape_op, new_shape_run. cut (reshape_v2_newshape target (t_shape x) = reshape_newshape target (t_shape x)); [intros ->; reflexivity|].
  destruct (copy_complete (t_shape x) target Hr) as (s0 & Ec). destruct (copy_ok _ _ _ Ec) as [L0 P0].
  destruct (copy_v2_ok (t_shape x) target) as [L2 P2].
  assert (Es : copy_zeros_v2 (t_shape x) target = s0).
  { apply nth_error_ext. intros i. destruct (nth_error target i) as [t|] eqn:Et.
    - assert (i < length target)%nat by (apply nth_error_Some; congruence).
      destruct (nth_error (copy_zeros_v2 (t_shape x) target) i) as [d2|] eqn:E2; [|apply nth_error_None in E2; lia].
      destruct (nth_error s0 i) as [d0|] eqn:E0; [|apply nth_error_None in E0; lia].
      destruct (P2 i t d2 Et E2) as [Q1 Q2]. destruct (P0 i t d0 Et E0) as [R1 R2].
      destruct (Z.eq_dec t 0) as [T|T]; [|rewrite (Q1 T), (R1 T); reflexivity].
      specialize (R2 T). destruct (Q2 T) as [Q|[_ Q]]; congruence.
    - apply nth_error_None in Et. assert (E1 : nth_error (copy_zeros_v2 (t_shape x) target) i = None) by (apply nth_error_None; lia).
      assert (E2 : nth_error s0 i = None) by (apply nth_error_None; lia). congruence. }
  assert (Ew : wildcards s0 = wildcards target).
  { apply (wildcards_copy (t_shape x)); auto. intros i t d Ht Hd. destruct (P0 i t d Ht Hd) as [Q1 Q2]. split; [exact Q1|]. intros Z0. specialize (Q2 Z0).
    rewrite Forall_forall in N. apply N. eapply nth_error_In; eauto. }
  assert (W1 : (wildcards target <= 1)%nat) by (destruct (Nat.le_gt_cases (wildcards target) 1); [assumption|exfalso; apply Hw, wildcards_two; lia]).
  unfold reshape_v2_newshape, reshape_newshape. rewrite Es, Ew, Ec.
  destruct (Nat.ltb_spec 1 (wildcards target)); [lia|].
  assert (Ez : existsb (fun d => d =? 0) s0 = false).
  { apply not_true_is_false. intros C. apply existsb_exists in C. destruct C as (d & Hin & Hd). apply Z.eqb_eq in Hd. subst d.
    apply In_nth_error in Hin. destruct Hin as (i & Ei).
    destruct (nth_error target i) as [t|] eqn:Et; [|apply nth_error_None in Et; assert (i < length s0)%nat by (apply nth_error_Some; congruence); lia].
    destruct (P0 i t 0 Et Ei) as [R1 R2]. destruct (Z.eq_dec t 0) as [T|T]; [|specialize (R1 T); congruence].
    specialize (R2 T). apply nth_error_In in R2. unfold positive_shape in Hp. rewrite Forall_forall in Hp. specialize (Hp 0 R2). lia. }
  rewrite Ez. reflexivity.
Qed.

(** C98 is not so for empty tensors: keeping the empty axis and asking for the
    rest divides by zero; reshape_v2 refuses every request, even the shape itself. *)
Theorem C98_empty_refuted {A} :
  reshape_op [0; -1] (Tn 10 [0; 3] (@nil A)) = SUndef /\
  reshape_v2_op [0; 3] (Tn 10 [0; 3] (@nil A)) = SErr /\ reshape_op [0; 3] (Tn 10 [0; 3] (@nil A)) = SOk (Tn 10 [0; 3] []).
Proof. repeat split. Qed.

(** C98: flatten keeps the axes in front of [dim] and joins the others; a
    [dim] at or beyond the rank appends axes of size one. *)
Theorem C98_flatten {A} (x : tensor A) (d : nat) : wf x ->
  ((d < length (t_shape x))%nat -> forall m, m = Z.of_nat d \/ m = Z.of_nat d - Z.of_nat (length (t_shape x)) ->
     exists y, flatten_op m x = SOk y /\ with_shape x y (firstn d (t_shape x) ++ [elements (skipn d (t_shape x))])) /\
  ((length (t_shape x) <= d)%nat ->
     exists y, flatten_op (Z.of_nat d) x = SOk y /\ with_shape x y (t_shape x ++ repeat 1 (d + 1 - length (t_shape x)))).
Proof.
  intros [N _]. split.
  - intros Hd m Hm. set (s := firstn d (t_shape x) ++ [elements (skipn d (t_shape x))]).
    assert (Ns : Forall (fun d => 0 <= d) s).
    { rewrite <- (firstn_skipn d (t_shape x)) in N. apply Forall_app in N. destruct N as [N1 N2]. apply Forall_app. split; [exact N1|]. constructor; [now apply elements_nonneg|constructor]. }
    assert (Es : elements s = elements (t_shape x)).
    { unfold s. rewrite elements_app. cbn [elements]. rewrite <- (firstn_skipn d (t_shape x)) at 3. rewrite elements_app. lia. }
    eexists. split; [apply (new_shape_ok _ _ s); auto|unfold with_shape; auto].
    unfold flatten_newshape. set (fixed := if m <? 0 then _ else _).
    assert (Ef : fixed = Z.of_nat d) by (unfold fixed; destruct (Z.ltb_spec m 0); lia). rewrite Ef.
    destruct (Z.ltb_spec (Z.of_nat d) (-1)); [lia|]. replace (Z.to_nat (Z.of_nat d + 1)) with (S d) by lia.
    destruct (Nat.ltb_spec (S d) (length (t_shape x))) as [L|L].
    + destruct (Z.ltb_spec (Z.of_nat d) 0); [lia|]. rewrite Nat2Z.id, prod_elements. f_equal. unfold s. f_equal.
      destruct (nth_error (t_shape x) d) as [v|] eqn:Ev; [|apply nth_error_None in Ev; lia].
      assert (Ef2 : firstn (S d) (t_shape x) = firstn d (t_shape x) ++ [v]).
      { clear -Ev. revert d Ev. generalize (t_shape x) as l. induction l as [|a l IH]; intros [|d] E; try discriminate; cbn in *; [congruence|]. f_equal. now apply IH. }
      rewrite Ef2. apply removelast_last.
    + destruct (Nat.ltb_spec (length (t_shape x)) (S d)); [lia|]. f_equal. unfold s. rewrite <- (firstn_skipn d (t_shape x)) at 1. f_equal.
      assert (Ll : length (skipn d (t_shape x)) = 1%nat) by (rewrite skipn_length; lia).
      destruct (skipn d (t_shape x)) as [|v [|]]; try discriminate. cbn [elements]. f_equal. lia.
  - intros Hd. set (s := t_shape x ++ repeat 1 (d + 1 - length (t_shape x))).
    eexists. split; [apply (new_shape_ok _ _ s)|unfold with_shape; auto].
    + unfold flatten_newshape. destruct (Z.ltb_spec (Z.of_nat d) 0); [lia|]. destruct (Z.ltb_spec (Z.of_nat d) (-1)); [lia|].
      replace (Z.to_nat (Z.of_nat d + 1)) with (d + 1)%nat by lia. destruct (Nat.ltb_spec (d + 1) (length (t_shape x))); [lia|].
      destruct (Nat.ltb_spec (length (t_shape x)) (d + 1)); [reflexivity|lia].
    + apply Forall_app. split; [exact N|]. apply Forall_forall. intros v Hv. apply repeat_spec in Hv. lia.
    + unfold s. rewrite elements_app, elements_ones. lia.
Qed.

(** C98 is not so for flatten with a dim below the axes: one too low writes
    the last entry of an empty vector. *)
Theorem C98_flatten_refuted {A} (a : A) : flatten_op (-2) (Tn 10 [1] [a]) = SUndef /\ flatten_op (-3) (Tn 10 [1] [a]) = SErr.
Proof. split; reflexivity. Qed.

(** C98: flatten2d makes a matrix, split at the axis (clamped to the rank). *)
Theorem C98_flatten2d {A} (x : tensor A) (m : Z) : wf x ->
  let rank := Z.of_nat (length (t_shape x)) in
  let d := Z.to_nat (Z.min rank (if m <? 0 then m + rank else m)) in
  exists y, flatten2d_op m x = SOk y /\ with_shape x y [elements (firstn d (t_shape x)); elements (skipn d (t_shape x))].
Proof.
  intros [N _] rank d. set (s := [elements (firstn d (t_shape x)); elements (skipn d (t_shape x))]).
  assert (Nf : Forall (fun d => 0 <= d) (firstn d (t_shape x)) /\ Forall (fun d => 0 <= d) (skipn d (t_shape x))).
  { rewrite <- (firstn_skipn d (t_shape x)) in N. now apply Forall_app in N. }
  eexists. split; [apply (new_shape_ok _ _ s)|unfold with_shape; auto].
  - unfold flatten2d_newshape. fold rank. unfold s, d. set (fixed := if m <? 0 then m + rank else m). rewrite !prod_elements.
    destruct (Z.leb_spec fixed 0) as [L|L].
    + replace (Z.to_nat (Z.min rank fixed)) with 0%nat by lia. reflexivity.
    + destruct (Z.leb_spec rank fixed) as [L2|L2].
      * replace (Z.to_nat (Z.min rank fixed)) with (length (t_shape x)) by (unfold rank in *; lia). rewrite firstn_all, skipn_all. reflexivity.
      * replace (Z.min rank fixed) with fixed by lia. reflexivity.
  - constructor; [apply elements_nonneg, Nf|]. constructor; [apply elements_nonneg, Nf|constructor].
  - unfold s. cbn [elements]. rewrite <- (firstn_skipn d (t_shape x)) at 3. rewrite elements_app. lia.
Qed.

(** C98: unsqueeze at increasing axes of the result puts size one there and
    leaves the other sizes in order; squeeze of the same axes undoes it. *)
Theorem C98_unsqueeze_squeeze {A} (axes : list Z) (x : tensor A) : wf x -> axes <> [] -> increasing 0 axes ->
  (forall a, In a axes -> a < Z.of_nat (length (t_shape x)) + Z.of_nat (length axes)) ->
  exists y, unsqueeze_op axes x = SOk y /\ t_dtype y = t_dtype x /\ t_data y = t_data x /\
    length (t_shape y) = (length (t_shape x) + length axes)%nat /\
    (forall a, In a axes -> nth_error (t_shape y) (Z.to_nat a) = Some 1) /\ drop 0 axes (t_shape y) = t_shape x /\
    squeeze_op axes y = SOk x.
Proof.
  intros [N _] Hne Hi Hb.
  destruct (unsqueeze_run axes [] (t_shape x) (t_shape x)) as (s & E & L & H1 & Hd); auto.
  { cbn. lia. } { intros a []. } { intros a []. } { apply drop_above. intros a []. }
  cbn [app] in L, H1, Hd.
  assert (Hone : forall a, In a axes -> 0 <= a < 0 + Z.of_nat (length s) -> nth_error s (Z.to_nat (a - 0)) = Some 1) by (intros a Ha _; rewrite Z.sub_0_r; auto).
  assert (Es : elements s = elements (t_shape x)) by (rewrite <- Hd; symmetry; apply elements_drop; exact Hone).
  assert (Ns : Forall (fun d => 0 <= d) s) by (apply (nonneg_of_drop axes s 0); [rewrite Hd; exact N|exact Hone]).
  exists (Tn (t_dtype x) s (t_data x)). split; [now apply new_shape_ok|]. cbn [t_dtype t_data t_shape]. split; [reflexivity|]. split; [reflexivity|].
  split; [lia|]. split; [exact H1|]. split; [exact Hd|].
  unfold squeeze_op. rewrite (new_shape_ok _ _ (t_shape x)); cbn [t_dtype t_data t_shape]; auto; [destruct x; reflexivity|].
  unfold squeeze_newshape. destruct axes as [|a0 axes']; [congruence|]. rewrite squeeze_run; [now rewrite Hd|exact Hi| |exact H1].
  intros a Ha. specialize (Hb a Ha). lia.
Qed.

(** C98: squeeze at increasing axes drops them when they have size one ... *)
Theorem C98_squeeze {A} (axes : list Z) (x : tensor A) : wf x -> axes <> [] -> increasing 0 axes ->
  (forall a, In a axes -> a < Z.of_nat (length (t_shape x))) ->
  (forall a, In a axes -> nth_error (t_shape x) (Z.to_nat a) = Some 1) ->
  exists y, squeeze_op axes x = SOk y /\ with_shape x y (drop 0 axes (t_shape x)).
Proof.
  intros [N _] Hne Hi Hb H1. eexists. split; [apply (new_shape_ok _ _ (drop 0 axes (t_shape x)))|unfold with_shape; auto].
  - unfold squeeze_newshape. destruct axes as [|a0 axes']; [congruence|]. now apply squeeze_run.
  - now apply nonneg_drop.
  - apply elements_drop. intros a Ha _. rewrite Z.sub_0_r. auto.
Qed.

(** ... and without axes it drops all of size one and no others. *)
Theorem C98_squeeze_all {A} (x : tensor A) : wf x ->
  exists y, squeeze_op [] x = SOk y /\ t_dtype y = t_dtype x /\ t_data y = t_data x /\
    t_shape y = filter (fun d => negb (d =? 1)) (t_shape x).
Proof.
  intros [N _]. set (s := filter (fun d => negb (d =? 1)) (t_shape x)). exists (Tn (t_dtype x) s (t_data x)). split; [|auto].
  apply new_shape_ok; [reflexivity| |].
  - unfold s. rewrite Forall_forall in *. intros d Hd. apply filter_In in Hd. now apply N.
  - unfold s. clear. induction (t_shape x) as [|d l IH]; [reflexivity|]. cbn [filter]. destruct (Z.eqb_spec d 1) as [->|]; cbn [negb elements]; rewrite IH; lia.
Qed.

(** C98 is not so for axes in another order: both axes have size one, and
    squeeze refuses; unsqueeze puts the ones elsewhere. *)
Theorem C98_order_refuted {A} (a b c : A) :
  squeeze_op [1; 0] (Tn 10 [1; 1; 3] [a; b; c]) = SErr /\ squeeze_op [0; 1] (Tn 10 [1; 1; 3] [a; b; c]) = SOk (Tn 10 [3] [a; b; c]) /\
  unsqueeze_op [1; 0] (Tn 10 [3] [a; b; c]) = SOk (Tn 10 [1; 3; 1] [a; b; c]) /\ unsqueeze_op [0; 1] (Tn 10 [3] [a; b; c]) = SOk (Tn 10 [1; 1; 3] [a; b; c]) /\
  unsqueeze_op [-2] (Tn 10 [3] [a; b; c]) = SErr.
Proof. repeat split. Qed.

(** C98: expand adds ones in front and behind, up to the given limits (no
    limit when negative), the front first unless inverse; exactly when the
    limits leave enough room. *)
Theorem C98_expand {A} (front back : Z) (inverse : bool) (dims : Z) (x : tensor A) : wf x ->
  let room := dims - Z.of_nat (length (t_shape x)) in
  (0 <= room /\ (0 <= front -> 0 <= back -> room <= front + back) ->
   exists y f b, expand_op front back inverse dims x = SOk y /\ with_shape x y (repeat 1 f ++ t_shape x ++ repeat 1 b) /\
     Z.of_nat f + Z.of_nat b = room /\
     (if inverse then Z.of_nat b = (if back <? 0 then room else Z.min room back) else Z.of_nat f = (if front <? 0 then room else Z.min room front))) /\
  (~ (0 <= room /\ (0 <= front -> 0 <= back -> room <= front + back)) -> expand_op front back inverse dims x = SErr).
Proof.
  intros [N _] room. set (r := length (t_shape x)) in *.
  assert (Ones : forall f b, Forall (fun d => 0 <= d) (repeat 1 f ++ t_shape x ++ repeat 1 b) /\ elements (repeat 1 f ++ t_shape x ++ repeat 1 b) = elements (t_shape x)).
  { intros f b. split; [|rewrite !elements_app, !elements_ones; lia].
    apply Forall_app. split; [apply Forall_forall; intros v Hv; apply repeat_spec in Hv; lia|]. apply Forall_app. split; [exact N|apply Forall_forall; intros v Hv; apply repeat_spec in Hv; lia]. }
  split.
  - intros [H0 H1].
    assert (G : exists f b, expand_shape front back inverse (t_shape x) dims = Some (repeat 1 f ++ t_shape x ++ repeat 1 b) /\
       Z.of_nat f + Z.of_nat b = room /\
       (if inverse then Z.of_nat b = (if back <? 0 then room else Z.min room back) else Z.of_nat f = (if front <? 0 then room else Z.min room front))).
    { unfold expand_shape. fold r. destruct (Z.ltb_spec dims 0); [lia|]. destruct (Nat.ltb_spec (Z.to_nat dims) r); [lia|].
      destruct (Nat.eqb_spec r (Z.to_nat dims)) as [E|E].
      { exists 0%nat, 0%nat. cbn [repeat app]. rewrite app_nil_r. split; [reflexivity|]. split; [lia|]. destruct inverse; [destruct (Z.ltb_spec back 0)|destruct (Z.ltb_spec front 0)]; lia. }
      replace ((0 <? front) && (0 <? back) && (r + Z.to_nat front + Z.to_nat back <? Z.to_nat dims)%nat) with false.
      2:{ symmetry. apply not_true_is_false. intros C. rewrite !andb_true_iff, !Z.ltb_lt, Nat.ltb_lt in C. lia. }
      unfold expand_side. rewrite !app_length, !repeat_length. fold r. destruct inverse.
      - destruct (Z.leb_spec 0 back) as [B|B]; destruct (Z.ltb_spec back 0) as [B'|B']; try lia; cbn [orb].
        + destruct (Nat.eqb_spec (r + Nat.min (Z.to_nat dims - r) (Z.to_nat back)) (Z.to_nat dims)) as [E2|E2].
          * exists 0%nat, (Nat.min (Z.to_nat dims - r) (Z.to_nat back)). cbn [repeat app]. split; [reflexivity|]. lia.
          * destruct (Z.leb_spec 0 front) as [F|F]; destruct (Z.ltb_spec front 0) as [F'|F']; try lia; cbn [orb].
            -- match goal with |- context [Nat.eqb ?u ?v] => destruct (Nat.eqb_spec u v) as [E3|E3]; [|rewrite ?app_length, ?repeat_length in E3; lia] end.
               eexists. eexists. split; [reflexivity|]. rewrite ?app_length, ?repeat_length in *. unfold room, r in *. lia.
            -- eexists. eexists. split; [reflexivity|]. rewrite ?app_length, ?repeat_length in *. unfold room, r in *. lia.
        + exists 0%nat, (Z.to_nat dims - r)%nat. cbn [repeat app]. split; [reflexivity|]. lia.
      - destruct (Z.leb_spec 0 front) as [F|F]; destruct (Z.ltb_spec front 0) as [F'|F']; try lia; cbn [orb].
        + destruct (Nat.eqb_spec (Nat.min (Z.to_nat dims - r) (Z.to_nat front) + r) (Z.to_nat dims)) as [E2|E2].
          * exists (Nat.min (Z.to_nat dims - r) (Z.to_nat front)), 0%nat. cbn [repeat]. rewrite app_nil_r. split; [reflexivity|]. lia.
          * destruct (Z.leb_spec 0 back) as [B|B]; destruct (Z.ltb_spec back 0) as [B'|B']; try lia; cbn [orb].
            -- match goal with |- context [Nat.eqb ?u ?v] => destruct (Nat.eqb_spec u v) as [E3|E3]; [|rewrite ?app_length, ?repeat_length in E3; lia] end.
               eexists. eexists. rewrite <- app_assoc. split; [reflexivity|]. rewrite ?app_length, ?repeat_length in *. unfold room, r in *. lia.
            -- eexists. eexists. rewrite <- app_assoc. split; [reflexivity|]. rewrite ?app_length, ?repeat_length in *. unfold room, r in *. lia.
        + exists (Z.to_nat dims - r)%nat, 0%nat. cbn [repeat]. rewrite app_nil_r. split; [reflexivity|]. lia. }
    destruct G as (f & b & G1 & G2 & G3). destruct (Ones f b) as [O1 O2].
    exists (Tn (t_dtype x) (repeat 1 f ++ t_shape x ++ repeat 1 b) (t_data x)), f, b.
    split; [unfold expand_op; rewrite G1, reshape_same by auto; reflexivity|]. unfold with_shape. auto.
  - intros H. unfold expand_op.
    assert (G : expand_shape front back inverse (t_shape x) dims = None); [|now rewrite G].
    unfold expand_shape. fold r. destruct (Z.ltb_spec dims 0); [reflexivity|]. destruct (Nat.ltb_spec (Z.to_nat dims) r); [reflexivity|].
    destruct (Nat.eqb_spec r (Z.to_nat dims)) as [E|E]; [exfalso; apply H; lia|].
    assert (Hf : 0 <= front /\ 0 <= back /\ front + back < room) by lia.
    destruct ((0 <? front) && (0 <? back) && (r + Z.to_nat front + Z.to_nat back <? Z.to_nat dims)%nat); [reflexivity|].
    unfold expand_side. destruct (Z.leb_spec 0 front); [|lia]. destruct (Z.leb_spec 0 back); [|lia].
    destruct (Z.ltb_spec front 0); [lia|]. destruct (Z.ltb_spec back 0); [lia|]. cbn [orb].
    rewrite !app_length, !repeat_length. fold r.
    destruct inverse.
    + destruct (Nat.eqb_spec (r + Nat.min (Z.to_nat dims - r) (Z.to_nat back)) (Z.to_nat dims)); [lia|].
      match goal with |- context [Nat.eqb ?u ?v] => destruct (Nat.eqb_spec u v); [rewrite ?app_length, ?repeat_length in *; lia|reflexivity] end.
    + destruct (Nat.eqb_spec (Nat.min (Z.to_nat dims - r) (Z.to_nat front) + r) (Z.to_nat dims)); [lia|].
      match goal with |- context [Nat.eqb ?u ?v] => destruct (Nat.eqb_spec u v); [rewrite ?app_length, ?repeat_length in *; lia|reflexivity] end.
Qed.

Theorem C98_example :
  reshape_op [0; -1; 2] (Tn 5 [2; 2; 3] [1;2;3;4;5;6;7;8;9;10;11;12]) = SOk (Tn 5 [2; 3; 2] [1;2;3;4;5;6;7;8;9;10;11;12]) /\
  reshape_v2_op [0; -1; 2] (Tn 5 [2; 2; 3] [1;2;3;4;5;6;7;8;9;10;11;12]) = SOk (Tn 5 [2; 3; 2] [1;2;3;4;5;6;7;8;9;10;11;12]) /\
  reshape_op [5; -1] (Tn 5 [2; 2] [1;2;3;4]) = SErr /\
  flatten_op (-2) (Tn 5 [2; 2; 1] [1;2;3;4]) = SOk (Tn 5 [2; 2] [1;2;3;4]) /\
  flatten2d_op 2 (Tn 5 [2; 1; 2] [1;2;3;4]) = SOk (Tn 5 [2; 2] [1;2;3;4]) /\
  unsqueeze_op [0; 2] (Tn 5 [2] [1;2]) = SOk (Tn 5 [1; 2; 1] [1;2]) /\
  squeeze_op [0; 2] (Tn 5 [1; 2; 1] [1;2]) = SOk (Tn 5 [2] [1;2]) /\
  expand_op 1 (-1) false 4 (Tn 5 [2] [1;2]) = SOk (Tn 5 [1; 2; 1; 1] [1;2]).
Proof. repeat split. Qed.

Print Assumptions C98_elements_kept.
Print Assumptions C98_reshape_result.
Print Assumptions C98_reshape_found.
Print Assumptions C98_reshape_refused.
Print Assumptions C98_reshape_v2.
Print Assumptions C98_empty_refuted.
Print Assumptions C98_flatten.
Print Assumptions C98_flatten_refuted.
Print Assumptions C98_flatten2d.
Print Assumptions C98_unsqueeze_squeeze.
Print Assumptions C98_squeeze.
Print Assumptions C98_squeeze_all.
Print Assumptions C98_order_refuted.
Print Assumptions C98_expand.
Print Assumptions C98_example.
