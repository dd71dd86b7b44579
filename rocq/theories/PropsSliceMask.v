(** C77, the part that holds: shrunk axes, new axes and an ellipsis that covers
    at least one axis. *)
From Coq Require Import List ZArith Bool Lia.
From Verif Require Import ShapeModel ShapeSpec ShapeProofs KernelBase KernelSpec KernelProofs SliceModel SliceSpec SliceProofs PropsSlice PropsSliceOp.
Import ListNotations.
Local Open Scope Z_scope.

(** the list without the entries at the places [gone] *)
Fixpoint without {A} (gone : nat -> bool) (i : nat) (l : list A) : list A :=
  match l with
  | [] => []
  | d :: r => if gone i then without gone (S i) r else d :: without gone (S i) r
  end.

Lemma without_app {A} g : forall (a b : list A) k, without g k (a ++ b) = without g k a ++ without g (k + length a) b.
Proof.
  induction a as [|x a IH]; intros b k; cbn [app without length]; [now rewrite Nat.add_0_r|].
  rewrite IH. replace (S k + length a)%nat with (k + S (length a))%nat by lia. destruct (g k); reflexivity.
Qed.
Lemma without_none {A} g : forall (l : list A) k, (forall j, (k <= j < k + length l)%nat -> g j = false) -> without g k l = l.
Proof.
  induction l as [|x l IH]; intros k H; [reflexivity|]. cbn [without]. rewrite (H k) by (cbn; lia). f_equal. apply IH. intros j Hj. apply H. cbn. lia.
Qed.
Lemma without_ext {A} g g' : forall (l : list A) k, (forall j, (k <= j < k + length l)%nat -> g j = g' j) -> without g k l = without g' k l.
Proof.
  induction l as [|x l IH]; intros k H; [reflexivity|]. cbn [without]. rewrite (H k) by (cbn; lia). rewrite (IH (S k)); [reflexivity|]. intros j Hj. apply H. cbn. lia.
Qed.

Definition gone_axes (n : nat) (mask : Z) (j : nat) : bool := Nat.ltb j n && Z.testbit mask (Z.of_nat j).

Lemma shrink_axes_ok shrink : forall n out, (n <= length out)%nat ->
  ((forall j, gone_axes n shrink j = true -> nth j out 0 = 1) -> shrink_axes n 0 [] shrink out = SOk (without (gone_axes n shrink) 0 out)) /\
  ((exists j, gone_axes n shrink j = true /\ nth j out 0 <> 1) -> shrink_axes n 0 [] shrink out = SErr).
Proof.
  induction n as [|n IH]; intros out Hn.
  - split.
    + intros _. cbn [shrink_axes]. rewrite without_none; [reflexivity|]. reflexivity.
    + intros (j & Hj & _). discriminate.
  - cbn [shrink_axes length Nat.eqb negb andb]. unfold bit.
    destruct (nth_error out n) as [d|] eqn:Ed; [|apply nth_error_None in Ed; lia].
    pose proof (axis_split n out d Ed) as Hsplit.
    assert (Hnth : nth n out 0 = d) by (apply nth_error_nth; exact Ed).
    assert (Hlf : length (firstn n out) = n) by (rewrite firstn_length; lia).
    assert (Hsmall : forall j, j <> n -> gone_axes (S n) shrink j = gone_axes n shrink j).
    { intros j Hj. unfold gone_axes. f_equal. destruct (Nat.ltb_spec j (S n)), (Nat.ltb_spec j n); lia. }
    destruct (Z.testbit shrink (Z.of_nat n)) eqn:Eb.
    + assert (Hg : gone_axes (S n) shrink n = true).
      { unfold gone_axes. rewrite Eb, (proj2 (Nat.ltb_lt _ _)) by lia. reflexivity. }
      destruct (Z.eqb_spec (nth n out 0) 1) as [E1|E1].
      * set (out' := firstn n out ++ skipn (S n) out).
        assert (Hl' : (n <= length out')%nat) by (unfold out'; rewrite app_length; lia).
        destruct (IH out' Hl') as [IH1 IH2].
        assert (Hnj : forall j, (j < n)%nat -> nth j out' 0 = nth j out 0).
        { intros j Hj. unfold out'. rewrite app_nth1 by lia. rewrite Hsplit at 2. rewrite app_nth1 by lia. reflexivity. }
        assert (Hlt : forall j, gone_axes n shrink j = true -> (j < n)%nat).
        { intros j Hj. unfold gone_axes in Hj. apply andb_true_iff in Hj. destruct Hj as [Hj _]. now apply Nat.ltb_lt in Hj. }
        split.
        -- intro Hall. rewrite IH1.
           ++ f_equal. unfold out'. rewrite Hsplit at 3. rewrite !without_app. rewrite Hlf. cbn [without Nat.add]. rewrite Hg.
              f_equal; [apply without_ext; intros j Hj; symmetry; apply Hsmall; lia|].
              rewrite !without_none; [reflexivity| |]; intros j Hj; unfold gone_axes; rewrite (proj2 (Nat.ltb_ge _ _)) by lia; reflexivity.
           ++ intros j Hj. rewrite Hnj by (now apply Hlt). apply Hall. rewrite Hsmall; [exact Hj|]. apply Hlt in Hj. lia.
        -- intros (j & Hj & Hne). apply IH2. assert (j <> n) by congruence. rewrite Hsmall in Hj by assumption. exists j. split; [exact Hj|]. rewrite Hnj by (now apply Hlt). exact Hne.
      * split; [|reflexivity]. intro Hall. exfalso. apply E1, Hall, Hg.
    + assert (Hg : forall j, gone_axes (S n) shrink j = gone_axes n shrink j).
      { intro j. destruct (Nat.eq_dec j n) as [->|Hj]; [|now apply Hsmall]. unfold gone_axes. rewrite Eb, !andb_false_r. reflexivity. }
      destruct (IH out ltac:(lia)) as [IH1 IH2]. split.
      * intro Hall. rewrite IH1 by (intros j Hj; apply Hall; now rewrite Hg). f_equal. apply without_ext. intros j _. now rewrite Hg.
      * intros (j & Hj & Hne). apply IH2. exists j. now rewrite Hg in Hj.
Qed.

Lemma elements_without g : forall s k, (forall j, g (k + j)%nat = true -> (j < length s)%nat -> nth j s 0 = 1) -> elements (without g k s) = elements s.
Proof.
  induction s as [|d s IH]; intros k H; [reflexivity|]. cbn [without].
  assert (IHs : elements (without g (S k) s) = elements s).
  { apply IH. intros j Hj Hl. apply (H (S j)); [now replace (k + S j)%nat with (S k + j)%nat by lia|cbn; lia]. }
  destruct (g k) eqn:E.
  - rewrite IHs. cbn [elements]. pose proof (H 0%nat) as H0. rewrite Nat.add_0_r in H0. specialize (H0 E (Nat.lt_0_succ _)). cbn [nth] in H0. rewrite H0. lia.
  - cbn [elements]. now rewrite IHs.
Qed.
Lemma position_without g : forall s c k, inside s c -> (forall j, g (k + j)%nat = true -> (j < length s)%nat -> nth j s 0 = 1) ->
  position (without g k s) (without g k c) = position s c /\ inside (without g k s) (without g k c).
Proof.
  intros s c k Hc. revert k. induction Hc as [|d x s c Hx Hc IH]; intros k H; [split; [reflexivity|constructor]|]. cbn [without].
  assert (H' : forall j, g (S k + j)%nat = true -> (j < length s)%nat -> nth j s 0 = 1).
  { intros j Hj Hl. apply (H (S j)); [now replace (k + S j)%nat with (S k + j)%nat by lia|cbn; lia]. }
  destruct (IH (S k) H') as [IH1 IH2]. destruct (g k) eqn:E.
  - pose proof (H 0%nat) as H0. rewrite Nat.add_0_r in H0. pose proof (H0 E (Nat.lt_0_succ _)) as Hd. cbn [nth] in Hd. subst d. split; [|exact IH2].
    rewrite IH1. cbn [position]. assert (Hx0 : x = 0) by (cbv beta in Hx; lia). rewrite Hx0. lia.
  - split; [|constructor; assumption]. cbn [position]. rewrite IH1, elements_without by exact H'. reflexivity.
Qed.

(** running with shrink bits, from running without *)
Lemma shrink_run {A} (x : tensor A) begin end_ stride bm em shrink dt sh m :
  slice_run begin end_ stride bm em 0 0 0 x = SOk (Tn dt sh m) -> (length begin <= length sh)%nat ->
  ((forall j, gone_axes (length begin) shrink j = true -> nth j sh 0 = 1) ->
     slice_run begin end_ stride bm em 0 0 shrink x = SOk (Tn dt (without (gone_axes (length begin) shrink) 0 sh) m)) /\
  ((exists j, gone_axes (length begin) shrink j = true /\ nth j sh 0 <> 1) -> slice_run begin end_ stride bm em 0 0 shrink x = SErr).
Proof.
  unfold slice_run, infer_slice, infer_rest. cbv zeta.
  destruct (negb (_ && _)); [discriminate|]. destruct (Nat.eqb (length begin) 0); [discriminate|]. rewrite no_ellipsis. cbn [Nat.ltb Nat.leb Nat.eqb].
  rewrite no_new_axes.
  match goal with |- context [negb (Nat.eqb (length ?i) ?s)] => destruct (negb (Nat.eqb (length i) s)); [discriminate|] end.
  rewrite no_shrink. cbn [p_in p_y p_begin p_stride p_out].
  match goal with |- context [shrink_axes (length begin) 0 [] shrink ?o] => set (out1 := o) end.
  match goal with |- context [negb ?b] => destruct (negb b) eqn:Eb; [discriminate|] end.
  match goal with |- context [exec ?a ?b] => destruct (exec a b) as [m0| |] eqn:Ex; [|discriminate|discriminate] end.
  match goal with |- context [prod out1 =? ?b] => destruct (Z.eqb_spec (prod out1) b) as [Ep|Ep]; [|discriminate] end.
  intros H Hl. injection H as <- <- <-. destruct (shrink_axes_ok shrink (length begin) out1 Hl) as [S1 S2]. split.
  - intro Hall. rewrite (S1 Hall). cbn [p_in p_y p_begin p_stride p_out]. rewrite Eb, Ex.
    rewrite prod_elements, elements_without.
    + rewrite <- prod_elements, Ep, Z.eqb_refl. reflexivity.
    + intros j Hj _. apply Hall. exact Hj.
  - intro Hex. now rewrite (S2 Hex).
Qed.

(** *** Shrunk axes: each has to keep exactly one index; it disappears, and
    everything else is as without shrinking. *)
Theorem C77_shrink_partial {A} (x : tensor A) begin end_ stride begin_mask end_mask shrink : wf x ->
  length end_ = length begin -> length stride = length begin -> (0 < length begin <= length (t_shape x))%nat ->
  Forall (fun s => s <> 0) stride ->
  (forall j, (j < length begin)%nat -> nth j stride 0 < 0 -> Z.testbit end_mask (Z.of_nat j) = false ->
     nth j end_ 0 <> - nth j (t_shape x) 0) ->
  let gone j := Nat.ltb j (length begin) && Z.testbit shrink (Z.of_nat j) in
  exists sel, length sel = length (t_shape x) /\
    (forall j, (j < length begin)%nat ->
       py_slice (nth j (t_shape x) 0) (unless (Z.testbit begin_mask (Z.of_nat j)) (nth j begin 0))
         (unless (Z.testbit end_mask (Z.of_nat j)) (nth j end_ 0)) (nth j stride 0) (nth j sel [])) /\
    (forall j, (length begin <= j < length (t_shape x))%nat -> nth j sel [] = upto (nth j (t_shape x) 0)) /\
    let whole := map (fun l => Z.of_nat (length l)) sel in
    ((forall j, gone j = true -> length (nth j sel []) = 1%nat) ->
       exists out, slice_run begin end_ stride begin_mask end_mask 0 0 shrink x = SOk (filled out) /\ wf out /\
         t_dtype out = t_dtype x /\ t_shape out = without gone 0 whole /\
         forall c, inside whole c -> inside (t_shape out) (without gone 0 c) /\ inside (t_shape x) (pick sel c) /\ elt out (without gone 0 c) = elt x (pick sel c)) /\
    ((exists j, gone j = true /\ length (nth j sel []) <> 1%nat) ->
       slice_run begin end_ stride begin_mask end_mask 0 0 shrink x = SErr).
Proof.
  intros W L1 L2 L3 Hs He gone.
  destruct (C36_tensor_partial x begin end_ stride begin_mask end_mask W L1 L2 L3 Hs He) as (y & sel & E & Wy & K1 & K2 & K3 & (S1 & S2 & S3)).
  exists sel. split; [exact K1|]. split; [exact K2|]. split; [exact K3|]. intro whole. fold whole in S2.
  assert (Hw : forall j, (j < length begin)%nat -> nth j whole 0 = Z.of_nat (length (nth j sel []))).
  { intros j Hj. unfold whole. rewrite (nth_indep _ 0 (Z.of_nat (length (@nil Z)))) by (rewrite map_length; lia).
    rewrite (map_nth (fun l : list Z => Z.of_nat (length l))). reflexivity. }
  assert (Hlt : forall j, gone j = true -> (j < length begin)%nat).
  { intros j Hj. unfold gone in Hj. apply andb_true_iff in Hj. now apply Nat.ltb_lt, Hj. }
  destruct y as [dt sh data]. unfold filled in E. cbn [t_dtype t_shape t_data] in *. subst dt sh.
  destruct (shrink_run x begin end_ stride begin_mask end_mask shrink (t_dtype x) whole (map Some data) E) as [R1 R2]; [unfold whole; rewrite map_length; lia|].
  split.
  - intro Hall. exists (Tn (t_dtype x) (without gone 0 whole) data).
    assert (Hone : forall j, gone (0 + j)%nat = true -> (j < length whole)%nat -> nth j whole 0 = 1).
    { intros j Hj _. cbn in Hj. rewrite Hw by (now apply Hlt). now rewrite (Hall j Hj). }
    split; [apply R1; intros j Hj; rewrite Hw by (now apply Hlt); now rewrite (Hall j Hj)|].
    destruct Wy as [Wn Wd]. cbn [t_shape t_data] in *. split; [split|].
    + cbn [t_shape]. clear -Wn. revert Wn. generalize 0%nat. induction whole as [|d s IH]; intros k H; [constructor|].
      inversion H; subst. cbn [without]. destruct (gone k); [|constructor; [assumption|]]; now apply IH.
    + cbn [t_shape t_data]. rewrite elements_without by exact Hone. exact Wd.
    + split; [reflexivity|]. split; [reflexivity|]. intros c Hc. destruct (position_without gone whole c 0 Hc Hone) as [P1 P2].
      split; [exact P2|]. destruct (S3 c Hc) as [S4 S5]. split; [exact S4|]. rewrite <- S5. unfold elt. cbn [t_shape t_data]. now rewrite P1.
  - intros (j & Hj & Hne). apply R2. exists j. split; [exact Hj|]. rewrite Hw by (now apply Hlt). lia.
Qed.
Print Assumptions C77_shrink_partial.
Example C77_shrink_example : slice_run [-1; 0] [2; 2] [1; 1] 0 0 0 0 1 (Tn 10 [2; 2] [5; 6; 7; 8]) = SOk (filled (Tn 10 [2] [7; 8])).
Proof. reflexivity. Qed.

(** *** New axes: slicing with new-axis bits is slicing the tensor to which axes
    of size one were added at those places. *)
Lemma skipn_cons {A} n (l : list A) d : nth_error l n = Some d -> skipn n l = d :: skipn (S n) l.
Proof. revert n. induction l as [|x l IH]; intros [|n] H; try discriminate; [injection H as ->; reflexivity|]. cbn [skipn]. now apply IH. Qed.
Lemma firstn_snoc {A} n (l : list A) d : nth_error l n = Some d -> firstn (S n) l = firstn n l ++ [d].
Proof. revert n. induction l as [|x l IH]; intros [|n] H; try discriminate; [injection H as ->; reflexivity|]. cbn [firstn app]. f_equal. now apply IH. Qed.

Lemma insert_ok new_axis n s : (forall j, gone_axes n new_axis j = true -> nth_error s j = Some 1) ->
  forall m k, (k + m = n)%nat ->
  insert_new_axes (seq k m) new_axis (firstn k s ++ without (gone_axes n new_axis) k (skipn k s)) = SOk s.
Proof.
  intros H. induction m as [|m IH]; intros k Hk.
  - cbn [seq insert_new_axes]. f_equal. rewrite without_none; [apply firstn_skipn|]. intros j Hj. unfold gone_axes. now rewrite (proj2 (Nat.ltb_ge _ _)) by lia.
  - cbn [seq insert_new_axes]. unfold bit. destruct (Z.testbit new_axis (Z.of_nat k)) eqn:Eb.
    + assert (Hg : gone_axes n new_axis k = true) by (unfold gone_axes; rewrite Eb, (proj2 (Nat.ltb_lt _ _)) by lia; reflexivity).
      pose proof (H k Hg) as Hn. assert (Hl : (k < length s)%nat) by (apply nth_error_Some; congruence).
      assert (Hf : length (firstn k s) = k) by (rewrite firstn_length; lia).
      rewrite (proj2 (Nat.ltb_ge _ _)) by (rewrite app_length; lia).
      specialize (IH (S k) ltac:(lia)). rewrite (firstn_snoc _ _ _ Hn), <- app_assoc in IH. cbn [app] in IH.
      rewrite (skipn_cons _ _ _ Hn). cbn [without]. rewrite Hg.
      rewrite firstn_app, skipn_app, Hf, Nat.sub_diag. cbn [firstn skipn].
      rewrite (firstn_all2 (firstn k s)) by lia. rewrite (skipn_all2 (firstn k s)) by lia. rewrite app_nil_r. cbn [app]. exact IH.
    + assert (Hg : gone_axes n new_axis k = false) by (unfold gone_axes; rewrite Eb, andb_false_r; reflexivity).
      specialize (IH (S k) ltac:(lia)). destruct (nth_error s k) as [d|] eqn:Ed.
      * rewrite (skipn_cons _ _ _ Ed). cbn [without]. rewrite Hg. rewrite (firstn_snoc _ _ _ Ed), <- app_assoc in IH. exact IH.
      * apply nth_error_None in Ed. assert (F1 : firstn k s = s) by (apply firstn_all2; lia). assert (F2 : firstn (S k) s = s) by (apply firstn_all2; lia).
        assert (F3 : skipn k s = []) by (apply skipn_all2; lia). assert (F4 : skipn (S k) s = []) by (apply skipn_all2; lia).
        rewrite F1, F3. rewrite F2, F4 in IH. exact IH.
Qed.

Theorem C77_new_axis_partial {A} (x : tensor A) begin end_ stride begin_mask end_mask new_axis shrink shape :
  let fresh j := Nat.ltb j (length begin) && Z.testbit new_axis (Z.of_nat j) in
  (forall j, fresh j = true -> nth_error shape j = Some 1) -> without fresh 0 shape = t_shape x ->
  slice_run begin end_ stride begin_mask end_mask 0 new_axis shrink x =
  slice_run begin end_ stride begin_mask end_mask 0 0 shrink (Tn (t_dtype x) shape (t_data x)).
Proof.
  intros fresh H1 H2. unfold slice_run, infer_slice. cbn [t_shape t_data t_dtype].
  destruct (negb (_ && _)); [reflexivity|]. destruct (Nat.eqb (length begin) 0); [reflexivity|]. rewrite no_ellipsis. cbn [Nat.ltb Nat.leb Nat.eqb].
  unfold infer_rest. rewrite no_new_axes.
  pose proof (insert_ok new_axis (length begin) shape H1 (length begin) 0 (eq_refl _)) as E. cbn [firstn skipn app] in E.
  change (gone_axes (length begin) new_axis) with fresh in E. rewrite H2 in E. rewrite E.
  assert (Hp : prod (t_shape x) = prod shape).
  { rewrite !prod_elements, <- H2. apply elements_without. intros j Hj _. apply nth_error_nth. apply H1. exact Hj. }
  rewrite Hp. reflexivity.
Qed.
Print Assumptions C77_new_axis_partial.
Example C77_new_axis_example : slice_run [0; 0; 0] [2; 1; 1] [1; 1; 1] 0 0 0 2 0 (Tn 10 [2; 2] [5; 6; 7; 8]) = SOk (filled (Tn 10 [2; 1; 1] [5; 7])) /\
  slice_run [0; 0; 0] [2; 1; 1] [1; 1; 1] 0 0 0 0 0 (Tn 10 [2; 1; 2] [5; 6; 7; 8]) = SOk (filled (Tn 10 [2; 1; 1] [5; 7])).
Proof. split; reflexivity. Qed.

(** *** An ellipsis that covers at least one axis stands for whole axes. *)
Lemma one_bit k : (k < 32)%nat -> bit_ones (2 ^ Z.of_nat k) = 1%nat.
Proof. intro H. do 32 (destruct k as [|k]; [reflexivity|]). lia. Qed.
Lemma bit_pow k j : bit (2 ^ Z.of_nat k) j = Nat.eqb k j.
Proof.
  unfold bit. rewrite Z.pow2_bits_eqb by lia. destruct (Nat.eqb_spec k j) as [->|H]; [apply Z.eqb_refl|]. apply Z.eqb_neq. lia.
Qed.
Lemma left_ok k : forall fuel i c, (i <= k < i + fuel)%nat -> left_axes fuel i (2 ^ Z.of_nat k) 0 c = (k, c + Z.of_nat (k - i)).
Proof.
  induction fuel as [|fuel IH]; intros i c H; [lia|]. cbn [left_axes]. rewrite bit_pow. destruct (Nat.eqb_spec k i) as [->|Hne].
  - rewrite Nat.sub_diag. f_equal. lia.
  - unfold bit. rewrite Z.bits_0, IH by lia. f_equal. lia.
Qed.
Lemma right_ok i n : right_axes i n 0 = Z.of_nat (n - i).
Proof.
  unfold right_axes. f_equal. rewrite <- (seq_length (n - i) i) at 2. generalize (seq i (n - i)) as l. intro l.
  induction l as [|a l IH]; [reflexivity|]. cbn [filter]. unfold bit at 1. rewrite Z.bits_0. cbn [negb length]. now rewrite IH.
Qed.

Lemma shrink_ellipsis k mid : mid <> [] -> forall n out, (k < n)%nat -> (n <= length out)%nat ->
  shrink_axes n k mid 0 out = SOk (firstn k out ++ mid ++ skipn (S k) out).
Proof.
  intros Hm. assert (Hz : Nat.eqb (length mid) 0 = false) by (destruct mid; [congruence|reflexivity]).
  assert (Hdone : forall n out, (n <= k)%nat -> shrink_axes n k mid 0 out = SOk out).
  { induction n as [|n IH]; intros out H; [reflexivity|]. cbn [shrink_axes]. rewrite (proj2 (Nat.eqb_neq n k)) by lia. rewrite andb_false_r.
    unfold bit. rewrite Z.bits_0. apply IH. lia. }
  induction n as [|n IH]; intros out Hk Hl; [lia|]. cbn [shrink_axes]. rewrite Hz. cbn [negb andb].
  destruct (Nat.eqb_spec n k) as [->|Hne].
  - apply Hdone. lia.
  - unfold bit. rewrite Z.bits_0. apply IH; lia.
Qed.

(** the tensor with the covered axes [k], ..., [k + m - 1] made one *)
Definition merged {A} (k m : nat) (x : tensor A) : tensor A :=
  Tn (t_dtype x) (firstn k (t_shape x) ++ [elements (firstn m (skipn k (t_shape x)))] ++ skipn (k + m) (t_shape x)) (t_data x).

Lemma skipn_skipn' {A} m : forall k (s : list A), skipn m (skipn k s) = skipn (k + m) s.
Proof. induction k as [|k IH]; intros s; [reflexivity|]. destruct s as [|a s]; [now rewrite !skipn_nil|]. cbn [skipn Nat.add]. apply IH. Qed.
Lemma merged_elements k m (s : list Z) : elements (firstn k s ++ [elements (firstn m (skipn k s))] ++ skipn (k + m) s) = elements s.
Proof.
  rewrite !elements_app. cbn [elements]. rewrite <- (firstn_skipn k s) at 4. rewrite elements_app.
  rewrite <- (firstn_skipn m (skipn k s)) at 2. rewrite elements_app. rewrite (skipn_skipn' m k s). nia.
Qed.

Lemma bit_set mask k j : bit (Z.setbit mask (Z.of_nat k)) j = bit mask j || Nat.eqb j k.
Proof.
  unfold bit. rewrite Z.setbit_eqb by lia. rewrite orb_comm. f_equal.
  destruct (Nat.eqb_spec j k) as [->|H]; [apply Z.eqb_refl|]. apply Z.eqb_neq. lia.
Qed.

Lemma ellipsis_run {A} (x : tensor A) begin end_ stride bm em k dt y m0 :
  (k < length begin)%nat -> (k < 32)%nat -> (length begin <= length (t_shape x))%nat ->
  let m := (length (t_shape x) - (length begin - 1))%nat in
  let mid := firstn m (skipn k (t_shape x)) in
  slice_run begin end_ (set_nth k 1 stride) (Z.setbit bm (Z.of_nat k)) (Z.setbit em (Z.of_nat k)) 0 0 0 (merged k m x) = SOk (Tn dt y m0) ->
  length stride = length begin ->
  elements (firstn k y ++ mid ++ skipn (S k) y) = elements y -> (length begin <= length y)%nat ->
  slice_run begin end_ stride bm em (2 ^ Z.of_nat k) 0 0 x = SOk (Tn dt (firstn k y ++ mid ++ skipn (S k) y) m0).
Proof.
  intros Hk Hk32 Hr m mid H Ls Hel Hly.
  assert (Hmid : mid <> []).
  { intro E. apply (f_equal (@length Z)) in E. unfold mid in E. rewrite firstn_length, skipn_length in E. cbn in E. unfold m in E. lia. }
  assert (Hsm : length (t_shape (merged k m x)) = length begin).
  { unfold merged. cbn [t_shape]. rewrite !app_length, firstn_length, skipn_length. cbn [length]. unfold m. lia. }
  unfold slice_run, infer_slice in *. rewrite Ls.
  assert (Lset : length (set_nth k 1 stride) = length begin).
  { rewrite <- Ls. clear. revert k. induction stride as [|a l IH]; intros [|k]; cbn; auto. }
  rewrite Lset in H. rewrite Nat.eqb_refl in *. destruct (negb (_ && true)); [discriminate|].
  rewrite (proj2 (Nat.eqb_neq (length begin) 0)) in * by lia.
  rewrite no_ellipsis in H. cbn [Nat.ltb Nat.leb Nat.eqb] in H.
  rewrite one_bit by exact Hk32. cbn [Nat.ltb Nat.leb Nat.eqb]. rewrite left_ok by lia. rewrite right_ok. rewrite Nat.sub_0_r, Z.add_0_l.
  assert (Hcount : Z.of_nat (length (t_shape x)) - Z.of_nat k - Z.of_nat (length begin - S k) = Z.of_nat m) by (unfold m; lia).
  rewrite Hcount. rewrite (proj2 (Z.ltb_ge _ 0)) by lia. rewrite (proj2 (Nat.leb_gt (length begin) k)) by exact Hk. cbn [orb].
  rewrite !Nat2Z.id. fold mid. rewrite prod_elements.
  change (firstn k (t_shape x) ++ [elements mid] ++ skipn (k + m) (t_shape x)) with (t_shape (merged k m x)).
  unfold infer_rest in *. rewrite no_new_axes in *.
  rewrite Hsm in *. rewrite Nat.ltb_irrefl in *. cbn [andb] in *.
  rewrite Hsm in *. rewrite Nat.eqb_refl in *. cbn [negb] in *.
  rewrite no_shrink in H. cbn [p_in p_y p_begin p_stride p_out] in H.
  rewrite (infer_axes_ext (t_shape (merged k m x)) 0 begin end_ (set_nth k 1 stride) (fun i => (bit bm i || Nat.eqb i k) || false) (fun i => (bit em i || Nat.eqb i k) || false)
             (fun i => bit (Z.setbit bm (Z.of_nat k)) i || false) (fun i => bit (Z.setbit em (Z.of_nat k)) i || false)).
  2:{ intros j _. rewrite !bit_set. now split. }
  set (axes := infer_axes 0 _ begin end_ (set_nth k 1 stride) _ _) in *.
  assert (Hd : t_data (merged k m x) = t_data x) by reflexivity. assert (Ht : t_dtype (merged k m x) = t_dtype x) by reflexivity. rewrite Hd, Ht in H.
  assert (Hpm : prod (t_shape (merged k m x)) = prod (t_shape x)) by (rewrite !prod_elements; apply merged_elements).
  destruct (Z.eqb_spec (prod (t_shape (merged k m x))) (prod (t_shape (merged k m x)))) as [_|]; [|congruence]. cbn [negb] in H.
  assert (Ey : map fst axes = y /\ exec (fresh (prod (map fst axes))) (slice_stores (t_data x) (t_shape (merged k m x)) (map fst axes) (map snd axes) (set_nth k 1 stride)
        (Z.to_nat (prod (map fst axes))) 0 (start (map fst axes))) = SOk m0 /\ t_dtype x = dt).
  { match type of H with context [exec ?a ?b] => destruct (exec a b) as [mm| |]; [|discriminate|discriminate] end.
    rewrite Z.eqb_refl in H. injection H as H1 H2 H3. subst. now repeat split. }
  destruct Ey as (Ey & Ex & Ed).
  rewrite shrink_ellipsis; [|exact Hmid|exact Hk|rewrite Ey; exact Hly].
  cbn [p_in p_y p_begin p_stride p_out]. rewrite Hpm, Z.eqb_refl. cbn [negb]. rewrite Ex, Ey.
  rewrite !prod_elements, Hel, Z.eqb_refl, Ed. reflexivity.
Qed.

Lemma app_inj_len {A} (a : list A) : forall a' b b', length a = length a' -> a ++ b = a' ++ b' -> a = a' /\ b = b'.
Proof.
  induction a as [|x a IH]; intros [|y a'] b b' L E; try discriminate; [now split|]. injection E as -> E. injection L as L. destruct (IH a' b b' L E) as [-> ->]. now split.
Qed.

Theorem C77_ellipsis_partial {A} (x : tensor A) begin end_ stride begin_mask end_mask k : wf x ->
  length end_ = length begin -> length stride = length begin -> (k < length begin <= length (t_shape x))%nat -> (k < 32)%nat ->
  (forall j, (j < length begin)%nat -> j <> k -> nth j stride 0 <> 0) ->
  let covered := (length (t_shape x) - (length begin - 1))%nat in
  let axis j := if Nat.ltb j k then j else (j - 1 + covered)%nat in
  (forall j, (j < length begin)%nat -> j <> k -> nth j stride 0 < 0 -> Z.testbit end_mask (Z.of_nat j) = false ->
     nth j end_ 0 <> - nth (axis j) (t_shape x) 0) ->
  exists out sel, slice_run begin end_ stride begin_mask end_mask (2 ^ Z.of_nat k) 0 0 x = SOk (filled out) /\ wf out /\
    length sel = length (t_shape x) /\
    (forall j, (j < length begin)%nat -> j <> k ->
       py_slice (nth (axis j) (t_shape x) 0) (unless (Z.testbit begin_mask (Z.of_nat j)) (nth j begin 0))
         (unless (Z.testbit end_mask (Z.of_nat j)) (nth j end_ 0)) (nth j stride 0) (nth (axis j) sel [])) /\
    (forall j, (k <= j < k + covered)%nat -> nth j sel [] = upto (nth j (t_shape x) 0)) /\
    selected sel x out.
Proof.
  intros W L1 L2 Hk Hk32 Hs covered axis He. set (m := covered) in *.
  set (s := t_shape x) in *. set (s1 := firstn k s). set (mid := firstn m (skipn k s)). set (s3 := skipn (k + m) s).
  assert (Hm : (1 <= m /\ k + m <= length s)%nat) by (unfold m, covered; lia).
  assert (Ls1 : length s1 = k) by (unfold s1; rewrite firstn_length; lia).
  assert (Lmid : length mid = m) by (unfold mid; rewrite firstn_length, skipn_length; lia).
  assert (Ls3 : length s3 = (length s - k - m)%nat) by (unfold s3; rewrite skipn_length; lia).
  assert (Es : s = s1 ++ mid ++ s3).
  { unfold s1, mid, s3. rewrite <- (skipn_skipn' m k s), firstn_skipn, firstn_skipn. reflexivity. }
  destruct W as [Wn Wd]. fold s in Wn, Wd.
  assert (Wn' : Forall (fun d => 0 <= d) s1 /\ Forall (fun d => 0 <= d) mid /\ Forall (fun d => 0 <= d) s3).
  { rewrite Es in Wn. apply Forall_app in Wn. destruct Wn as [Wa Wb]. apply Forall_app in Wb. now split. }
  destruct Wn' as (W1 & W2 & W3).
  pose proof (elements_nonneg mid W2) as Emid.
  set (xm := merged k m x). set (bm' := Z.setbit begin_mask (Z.of_nat k)). set (em' := Z.setbit end_mask (Z.of_nat k)). set (stride' := set_nth k 1 stride).
  assert (Hsm : t_shape xm = s1 ++ [elements mid] ++ s3) by reflexivity.
  assert (Lsm : length (t_shape xm) = length begin) by (rewrite Hsm, !app_length; cbn [length]; unfold m, covered in *; lia).
  assert (Hst : forall j, nth j stride' 0 = if Nat.eqb k j then 1 else nth j stride 0) by (intro j; unfold stride'; apply nth_set_nth; lia).
  destruct (slice_ok xm begin end_ stride' bm' em') as (out0 & sel0 & E0 & W0 & (K1 & K2 & _) & (S1 & S2 & S3)).
  { split; [rewrite Hsm; apply Forall_app; split; [exact W1|]; constructor; assumption|].
    unfold xm, merged. cbn [t_shape t_data]. fold s. rewrite merged_elements. exact Wd. }
  { exact L1. }
  { unfold stride'. rewrite <- L2. clear. revert k. induction stride as [|a l IH]; intros [|k]; cbn; auto. }
  { lia. }
  { apply Forall_forall. intros v Hv. apply (In_nth _ _ 0) in Hv. destruct Hv as (j & Hj & <-). rewrite Hst.
    assert (Ll : length stride' = length begin) by (unfold stride'; rewrite <- L2; clear; revert k; induction stride as [|a l IH]; intros [|k]; cbn; auto).
    destruct (Nat.eqb_spec k j); [lia|]. apply Hs; lia. }
  (* the covered axis is whole *)
  assert (Hkk : nth k sel0 [] = upto (elements mid)).
  { pose proof (K2 k ltac:(lia)) as H. rewrite Hst, Nat.eqb_refl in H. unfold bm', em' in H. rewrite !bit_set, Nat.eqb_refl, !orb_true_r in H.
    rewrite Hsm in H. rewrite app_nth2 in H by lia. rewrite Ls1, Nat.sub_diag in H. cbn [app nth unless end_of] in H.
    eapply C36_determined; [exact H|]. now apply py_slice_all. }
  set (sel1 := firstn k sel0). set (sel3 := skipn (S k) sel0).
  assert (Lsel1 : length sel1 = k) by (unfold sel1; rewrite firstn_length; lia).
  assert (Esel : sel0 = sel1 ++ [upto (elements mid)] ++ sel3).
  { rewrite <- Hkk. unfold sel1, sel3. cbn [app]. apply axis_split. apply nth_error_nth'. lia. }
  destruct out0 as [dt y data]. cbn [t_shape t_dtype t_data] in *.
  set (len := fun l : list Z => Z.of_nat (length l)) in *.
  assert (Ey : y = map len sel1 ++ [elements mid] ++ map len sel3).
  { rewrite S2, Esel, !map_app. cbn [map]. unfold len at 2. rewrite length_upto, Z2Nat.id by exact Emid. reflexivity. }
  assert (Ef : firstn k y = map len sel1).
  { rewrite Ey, firstn_app, map_length, Lsel1, Nat.sub_diag. cbn [firstn]. rewrite app_nil_r. apply firstn_all2. rewrite map_length. lia. }
  assert (Eg : skipn (S k) y = map len sel3).
  { rewrite Ey. rewrite skipn_app, map_length, Lsel1. rewrite (skipn_all2 (map len sel1)) by (rewrite map_length; lia). replace (S k - k)%nat with 1%nat by lia. reflexivity. }
  set (shape := map len sel1 ++ mid ++ map len sel3).
  assert (Hel : elements shape = elements y).
  { unfold shape. rewrite Ey, !elements_app. cbn [elements]. lia. }
  assert (Run : slice_run begin end_ stride begin_mask end_mask (2 ^ Z.of_nat k) 0 0 x = SOk (Tn dt shape (map Some data))).
  { pose proof (ellipsis_run x begin end_ stride begin_mask end_mask k dt y (map Some data)) as R. cbv zeta in R. fold s in R. fold covered in R. fold m mid in R.
    rewrite Ef, Eg in R. fold shape in R. apply R; [lia|exact Hk32|lia|exact E0|exact L2|exact Hel|].
    rewrite S2, map_length. lia. }
  set (sel := sel1 ++ map upto mid ++ sel3).
  assert (Lsel3 : length sel3 = (length begin - k - 1)%nat) by (unfold sel3; rewrite skipn_length; lia).
  exists (Tn dt shape data), sel. split; [exact Run|]. split; [|split; [|split; [|split]]].
  - destruct W0 as [Wy Wdata]. cbn [t_shape t_data] in *. split; [|cbn [t_shape t_data]; now rewrite Hel].
    cbn [t_shape]. unfold shape. rewrite Ey in Wy. apply Forall_app in Wy. destruct Wy as [Wy1 Wy2]. apply Forall_app in Wy2. destruct Wy2 as [_ Wy3].
    apply Forall_app. split; [exact Wy1|]. apply Forall_app. now split.
  - unfold sel. rewrite !app_length, map_length. unfold m, covered in *. lia.
  - intros j Hj Hjk. pose proof (K2 j Hj) as H. rewrite Hst, (proj2 (Nat.eqb_neq k j)) in H by congruence.
    unfold bm', em' in H. rewrite !bit_set, (proj2 (Nat.eqb_neq j k) Hjk), !orb_false_r in H. rewrite Hsm in H.
    assert (Hax : nth j (s1 ++ [elements mid] ++ s3) 0 = nth (axis j) s 0 /\ nth j sel0 [] = nth (axis j) sel []).
    { unfold axis. destruct (Nat.ltb_spec j k) as [Hlt|Hge].
      - split; [rewrite Es, !app_nth1 by lia; reflexivity|]. rewrite Esel. unfold sel. rewrite !app_nth1 by lia. reflexivity.
      - assert (Hgt : (k < j)%nat) by lia. split.
        + rewrite Es. rewrite !app_nth2 by (rewrite ?app_length; cbn [length]; lia). rewrite Ls1, Lmid. cbn [length]. f_equal. lia.
        + rewrite Esel. unfold sel. rewrite !app_nth2 by (rewrite ?app_length, ?map_length; cbn [length]; lia). rewrite Lsel1, map_length, Lmid. cbn [length]. f_equal. lia. }
    destruct Hax as [Hax1 Hax2]. rewrite Hax1, Hax2 in H. specialize (He j Hj Hjk). unfold end_of, code_end, bit in H. unfold unless at 2.
    destruct (Z.testbit end_mask (Z.of_nat j)); [exact H|].
    destruct (Z.ltb_spec (nth j stride 0) 0); destruct (Z.eqb_spec (nth j end_ 0) (- nth (axis j) s 0)); cbn [andb] in H; auto.
    exfalso. now apply He.
  - intros j Hj. unfold sel. rewrite app_nth2 by lia. rewrite app_nth1 by (rewrite map_length; lia).
    rewrite Es. rewrite app_nth2 by lia. rewrite app_nth1 by lia. rewrite Ls1, Lsel1. replace (@nil Z) with (upto 0) by reflexivity. apply map_nth.
  - split; [exact S1|]. split.
    + cbn [t_shape]. unfold shape, sel. rewrite !map_app. f_equal. f_equal. rewrite map_map.
      clear -W2 len. induction W2 as [|d r Hd H IH]; [reflexivity|]. cbn [map]. rewrite <- IH. unfold len. rewrite length_upto, Z2Nat.id by exact Hd. reflexivity.
    + cbn [t_shape]. intros c Hc. unfold shape in Hc. apply inside_app_inv in Hc. destruct Hc as (c1 & c' & -> & H1 & Hc). apply inside_app_inv in Hc. destruct Hc as (cm & c3 & -> & H2 & H3).
      pose proof (inside_length _ _ H1) as Lc1. rewrite map_length in Lc1. pose proof (inside_length _ _ H2) as Lcm. pose proof (position_bound _ _ H2) as Hp.
      assert (Hcy : inside y (c1 ++ [position mid cm] ++ c3)).
      { rewrite Ey. apply Forall2_app; [exact H1|]. constructor; [exact Hp|exact H3]. }
      destruct (S3 _ Hcy) as [I1 I2].
      assert (Lup : nth (Z.to_nat (position mid cm)) (upto (elements mid)) 0 = position mid cm) by (apply nth_error_nth; apply nth_error_upto; exact Hp).
      assert (Pk : pick sel0 (c1 ++ [position mid cm] ++ c3) = pick sel1 c1 ++ [position mid cm] ++ pick sel3 c3).
      { rewrite Esel, pick_app by lia. f_equal. unfold pick. cbn [app combine map fst snd]. rewrite Lup. reflexivity. }
      assert (Pk2 : pick sel (c1 ++ cm ++ c3) = pick sel1 c1 ++ cm ++ pick sel3 c3).
      { unfold sel. rewrite pick_app by lia. f_equal. rewrite pick_app by (rewrite map_length; exact Lcm). f_equal. now apply pick_upto. }
      rewrite Pk in I1, I2. rewrite Hsm in I1. rewrite Pk2.
      assert (Lp1 : length (pick sel1 c1) = length s1).
      { unfold pick. rewrite map_length, combine_length. lia. }
      assert (J : inside s1 (pick sel1 c1) /\ inside s3 (pick sel3 c3)).
      { apply inside_app_inv in I1. destruct I1 as (a & b & Eab & Ha & Hb). pose proof (inside_length _ _ Ha) as La.
        assert (Ea : pick sel1 c1 = a /\ [position mid cm] ++ pick sel3 c3 = b).
        { apply app_inj_len; [lia|exact Eab]. }
        destruct Ea as [-> <-]. split; [exact Ha|]. now inversion Hb. }
      destruct J as [J1 J3]. fold s. rewrite Es. split.
      * apply Forall2_app; [exact J1|]. apply Forall2_app; assumption.
      * assert (P1 : position shape (c1 ++ cm ++ c3) = position y (c1 ++ [position mid cm] ++ c3)).
        { unfold shape. rewrite Ey. rewrite !position_app by (rewrite ?map_length; lia). rewrite !elements_app. cbn [position elements app]. ring. }
        assert (P2 : position s (pick sel1 c1 ++ cm ++ pick sel3 c3) = position (t_shape xm) (pick sel1 c1 ++ [position mid cm] ++ pick sel3 c3)).
        { rewrite Es, Hsm. rewrite !position_app by lia. rewrite !elements_app. cbn [position elements app]. ring. }
        unfold elt in *. cbn [t_shape t_data] in *. fold s. rewrite P1, I2, P2. reflexivity.
Qed.
Print Assumptions C77_ellipsis_partial.
Example C77_ellipsis_example : slice_run [1; 9; 0] [2; 9; 1] [1; 9; 1] 0 0 2 0 0 (Tn 10 [2; 2; 1; 2] [1; 2; 3; 4; 5; 6; 7; 8]) = SOk (filled (Tn 10 [1; 2; 1; 1] [5; 7])).
Proof. reflexivity. Qed.
