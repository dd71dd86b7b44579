(** The element-wise operators, whole. *)
From Coq Require Import List ZArith Lia Bool Arith.
From Verif Require Import ShapeModel ShapeSpec ShapeProofs KernelBase KernelSpec KernelProofs CoordProofs TileModel EltwiseModel EltwiseSpec EltwiseProofs EltwiseKernelProofs.
Import ListNotations.
Local Open Scope Z_scope.

(** *** No element, no step *)
Lemma simd_zero : simd_order 0 = [].
Proof. reflexivity. Qed.

Lemma flat_map_nil {X Y} (f : X -> list Y) (xs : list X) : (forall x, In x xs -> f x = []) -> flat_map f xs = [].
Proof. induction xs as [|x xs IH]; intros H; [reflexivity|]. cbn [flat_map]. rewrite (H x), IH; auto; [|now left]. intros y Hy. apply H. now right. Qed.

Lemma elements_axis (os : list Z) dim : (dim < length os)%nat ->
  elements os = elements (firstn dim os) * nth dim os 0 * elements (skipn (S dim) os).
Proof.
  revert dim. induction os as [|d os IH]; intros [|dim] H; cbn [length] in H; try lia.
  - cbn [firstn nth skipn elements]. lia.
  - cbn [firstn nth elements]. change (skipn (S (S dim)) (d :: os)) with (skipn (S dim) os). rewrite (IH dim) by lia. ring.
Qed.

Lemma dispatch_empty {A} (k : kernel A) dtype l r ls rs os b : elements os = 0 -> dispatch k dtype l r ls rs os b = [].
Proof.
  intros E.
  assert (Ebias : forall u (x : list A) dim, bias_updates k dtype u x os dim = []).
  { intros u x dim. unfold bias_updates. rewrite !prod_elements.
    destruct (Nat.lt_ge_cases dim (length os)) as [Hd|Hd].
    - rewrite (elements_axis os dim Hd) in E.
      assert (elements (firstn dim os) = 0 \/ nth dim os 0 = 0 \/ elements (skipn (S dim) os) = 0) as [H|[H|H]] by nia.
      + rewrite H. destruct (_ =? 1); reflexivity.
      + rewrite H. destruct (_ =? 1); apply flat_map_nil; reflexivity.
      + rewrite H. cbn [Z.eqb]. apply flat_map_nil. intros n0 _. apply flat_map_nil. intros c _. destruct (vec k dtype); reflexivity.
    - rewrite (nth_overflow os 0 Hd). destruct (_ =? 1); apply flat_map_nil; reflexivity. }
  assert (Cp : forall x : list A, copy x 0 = []) by reflexivity.
  assert (Eb : forall x y dim, bias_run k dtype x y os dim = []) by (intros; unfold bias_run; now rewrite prod_elements, E, Ebias).
  assert (Ec : forall x y dim, bias_cross_run k dtype x y os dim = []) by (intros; unfold bias_cross_run; now rewrite prod_elements, E, Ebias).
  assert (Eg : forall x y a b, broadcast_run k x y a b os = []) by (intros; unfold broadcast_run; now rewrite prod_elements, E).
  assert (Es : forall x y, same_run k dtype x y 0 = []) by (intros; unfold same_run; destruct (vec k dtype); reflexivity).
  assert (Et : forall x y, scalar_run k dtype x y 0 = []) by (intros; unfold scalar_run; destruct (vec k dtype); reflexivity).
  assert (Eu : forall x y, scalar_cross_run k dtype x y 0 = []) by (intros; unfold scalar_cross_run; destruct (vec k dtype); reflexivity).
  unfold dispatch. rewrite prod_elements, E.
  destruct b, (is_scalar rs), (is_scalar ls), (k_cross k), (is_bias ls rs), (is_bias rs ls); cbn [negb]; auto.
Qed.

(** *** All the paths *)
Lemma dispatch_computes {A} (k : kernel A) dtype (l r : list A) ls rs os d0 :
  same_rank_broadcast ls rs os -> positive_shape os -> Z.of_nat (length l) = elements ls -> Z.of_nat (length r) = elements rs ->
  (k_cross k = Swap -> forall a b, k_op k a b = k_op k b a) ->
  computes (elements os) (fun p => k_op k (lv l ls os d0 p) (rv r rs os d0 p)) (dispatch k dtype l r ls rs os true).
Proof.
  intros Hs Po Hl Hr Hc. unfold dispatch. cbn [negb]. rewrite prod_elements.
  pose proof (srb_sym _ _ _ Hs) as Hs'.
  pose proof (srb_positive _ _ _ Hs Po) as Pl. pose proof (srb_positive _ _ _ Hs' Po) as Pr.
  assert (Sw : k_cross k = Swap -> forall n p, computes n (fun p => k_op k (lv r rs os d0 p) (rv l ls os d0 p)) p ->
     computes n (fun p => k_op k (lv l ls os d0 p) (rv r rs os d0 p)) p).
  { intros E n p H. unfold computes in *. rewrite H. do 2 f_equal. apply map_ext. intros i. apply (Hc E). }
  destruct (is_scalar rs) eqn:Sr.
  { unfold is_scalar in Sr. rewrite prod_elements in Sr. apply Z.eqb_eq in Sr. pose proof (elements_one_ones _ Pr Sr) as Or.
    apply scalar_path; auto. exact (srb_ones _ _ _ Hs' Or). }
  destruct (is_scalar ls) eqn:Sl.
  { unfold is_scalar in Sl. rewrite prod_elements in Sl. apply Z.eqb_eq in Sl. pose proof (elements_one_ones _ Pl Sl) as Ol.
    pose proof (srb_ones _ _ _ Hs Ol) as Ero.
    destruct (k_cross k) eqn:Ek.
    - apply (Sw eq_refl). apply scalar_path; auto.
    - apply scalar_cross_path; auto.
    - apply broadcast_path; auto. }
  destruct (is_bias ls rs) as [dim|] eqn:B1; [apply (bias_path k dtype l r ls rs os d0); auto|].
  destruct (is_bias rs ls) as [dim|] eqn:B2; [|apply broadcast_path; auto].
  destruct (k_cross k) eqn:Ek.
  - apply (Sw eq_refl). apply (bias_path k dtype r l rs ls os d0); auto.
  - apply (bias_cross_path k dtype l r ls rs os d0); auto.
  - apply broadcast_path; auto.
Qed.

Lemma aligned_elements rank s : elements (aligned rank s) = elements s.
Proof. unfold aligned. rewrite elements_app. rewrite ones_elements; [lia|]. apply Forall_forall. intros x Hx. now apply repeat_spec in Hx. Qed.

Lemma position_zeros n s c : position (repeat 1 n ++ s) (repeat 0 n ++ c) = position s c.
Proof. induction n as [|n IH]; [reflexivity|]. cbn [repeat app position]. rewrite IH. lia. Qed.

Lemma inside_zeros n s c : inside (repeat 1 n ++ s) (repeat 0 n ++ c) -> inside s c.
Proof. induction n as [|n IH]; [auto|]. cbn [repeat app]. intros H. inversion H; subst. now apply IH. Qed.

Lemma shown_aligned_ones n : forall s c, length c = (n + length s)%nat ->
  shown_aligned (repeat 1 n ++ s) c = repeat 0 n ++ shown s c.
Proof.
  induction n as [|n IH]; intros s c L.
  - unfold shown, shown_aligned. rewrite L, Nat.add_0_l, Nat.sub_diag. reflexivity.
  - destruct c as [|x c]; [discriminate|]. cbn [length] in L. injection L as L.
    cbn [repeat app]. unfold shown_aligned in *. cbn [combine map fst snd]. rewrite Z.eqb_refl. f_equal.
    rewrite IH by exact L. f_equal. unfold shown. rewrite L. cbn [length].
    replace (S (length c) - length s)%nat with (S n) by lia. replace (n + length s - length s)%nat with n by lia. reflexivity.
Qed.

Lemma cfits_length l o : cfits l o -> length l = length o.
Proof. induction 1; cbn; auto. Qed.

Lemma shown_in rank s o c : cfits (aligned rank s) o -> inside o c ->
  inside s (shown s c) /\ position (aligned rank s) (shown_aligned (aligned rank s) c) = position s (shown s c).
Proof.
  intros F Hc. destruct (src_position _ _ _ F Hc) as [I _].
  assert (L : length c = (rank - length s + length s)%nat).
  { rewrite <- (inside_length _ _ Hc). rewrite <- (cfits_length _ _ F). unfold aligned. rewrite app_length, repeat_length. reflexivity. }
  unfold aligned in *. rewrite shown_aligned_ones in * by exact L. split; [exact (inside_zeros _ _ _ I)|apply position_zeros].
Qed.

Definition convert {A} (cast : Z -> Z -> A -> A) (dtype from : Z) (a : A) : A := if from =? dtype then a else cast from dtype a.

Lemma map_convert {A} cast dtype from (x : list A) : (if from =? dtype then x else map (cast from dtype) x) = map (convert cast dtype from) x.
Proof. unfold convert. destruct (from =? dtype); [now rewrite map_id|reflexivity]. Qed.

Lemma srb_nonneg l r o : same_rank_broadcast l r o -> nonneg_shape l -> nonneg_shape r -> nonneg_shape o.
Proof.
  induction 1 as [|a b o l r s Ha H IH]; intros Nl Nr; [constructor|]. inversion Nl; subst. inversion Nr; subst.
  constructor; [|now apply IH]. unfold axis_broadcast in Ha. intuition lia.
Qed.

Lemma aligned_nonneg rank s : nonneg_shape s -> nonneg_shape (aligned rank s).
Proof. intros H. apply Forall_app. split; [|exact H]. apply Forall_forall. intros x Hx. apply repeat_spec in Hx. lia. Qed.

Theorem eltwise_ok {A} (k : kernel A) cast (l r : tensor A) dtype o : wf l -> wf r ->
  upcast_dtype (t_dtype l) (t_dtype r) = SOk dtype -> broadcast (t_shape l) (t_shape r) o -> k_supports k dtype = true ->
  (k_cross k = Swap -> forall a b, k_op k a b = k_op k b a) ->
  exists out, eltwise_run k cast l r = SOk (filled out) /\ wf out /\ combined (k_op k) dtype (convert cast dtype) l r out.
Proof.
  intros Wl Wr Hd Hb Hk Hc.
  unfold eltwise_run. rewrite Hd, Hk. cbn [negb].
  pose proof (reduce_ok (t_shape l) (t_shape r)) as R.
  destruct (reduce (t_shape l) (t_shape r)) as [[[[ls rs] os] b]|]; [|exfalso; exact (R o Hb)].
  destruct R as (Els & Ers & Hb' & Hf). unfold broadcast in Hb, Hb'. rewrite <- Els, <- Ers in *.
  pose proof (srb_det _ _ _ _ Hb Hb') as <-. clear Hb'.
  pose proof (reduce_shape_ok (length o) ls rs o Hb (le_n _)) as Rs.
  destruct (reduce_shape (length o) ls rs o) as [[ls2 rs2] os2]. destruct Rs as (Hs2 & (L1 & L2 & L3) & (R1 & R2 & R3)).
  rewrite !map_convert. rewrite prod_elements.
  set (ld := map _ (t_data l)). set (rd := map _ (t_data r)).
  assert (Hld : Z.of_nat (length ld) = elements ls) by (unfold ld; rewrite map_length, (proj2 Wl), Els; symmetry; apply aligned_elements).
  assert (Hrd : Z.of_nat (length rd) = elements rs) by (unfold rd; rewrite map_length, (proj2 Wr), Ers; symmetry; apply aligned_elements).
  assert (No : nonneg_shape o).
  { eapply srb_nonneg; [exact Hb| |]; rewrite ?Els, ?Ers; apply aligned_nonneg; [apply Wl|apply Wr]. }
  destruct (positive_or_empty o No) as [Po|Eo].
  - destruct (L3 Po) as [Po2 L4]. destruct (R3 Po) as [_ R4].
    pose proof (elements_pos _ (srb_positive _ _ _ Hb Po)) as Epl.
    assert (exists d0 : A, True) as [d0 _] by (destruct ld as [|d0 ?]; [cbn in Hld; lia|now exists d0]).
    set (V := fun p => k_op k (lv ld ls o d0 p) (rv rd rs o d0 p)).
    assert (C : computes (elements o) V (dispatch k dtype ld rd ls2 rs2 os2 b)).
    { destruct b.
      - pose proof (dispatch_computes k dtype ld rd ls2 rs2 os2 d0 Hs2 Po2 ltac:(now rewrite L1) ltac:(now rewrite R1) Hc) as C.
        unfold computes in *. rewrite L2 in C. rewrite C. do 2 f_equal. apply map_ext_in. intros p Hp. apply In_upto in Hp.
        unfold V, lv, rv. now rewrite L4, R4.
      - specialize (Hf eq_refl). rewrite <- Hf in Hb. pose proof (srb_same _ _ Hb) as Eo.
        unfold dispatch. cbn [negb]. rewrite prod_elements, L2. unfold V. rewrite <- Hf in *. rewrite Eo in *.
        exact (same_path k dtype ld rd o o o d0 Hb Po Hld Hrd eq_refl eq_refl). }
    unfold computes in C. rewrite C.
    exists (Tn dtype o (map V (upto (elements o)))).
    split; [reflexivity|]. split; [now apply wf_map|].
    split; [reflexivity|]. cbn [t_shape t_dtype]. split; [unfold broadcast; now rewrite <- Els, <- Ers|].
    intros c Hin. destruct (srb_fits _ _ _ Hb) as [Fl Fr].
    assert (Fl' := Fl). assert (Fr' := Fr). rewrite Els in Fl'. rewrite Ers in Fr'.
    destruct (shown_in _ _ _ _ Fl' Hin) as [Il Pl]. destruct (shown_in _ _ _ _ Fr' Hin) as [Ir Pr].
    split; [exact Il|]. split; [exact Ir|].
    destruct (elt_some l _ Wl Il) as (a & Ha). destruct (elt_some r _ Wr Ir) as (b' & Hb2).
    exists a, b'. split; [exact Ha|]. split; [exact Hb2|].
    rewrite elt_map by exact Hin. f_equal. unfold V, lv, rv.
    destruct (src_position _ _ _ Fl Hin) as [_ Ql]. destruct (src_position _ _ _ Fr Hin) as [_ Qr].
    rewrite Ql, Qr. rewrite Els, Ers, Pl, Pr.
    unfold elt in Ha, Hb2. f_equal.
    + apply nth_error_nth. unfold ld. rewrite nth_error_map, Ha. reflexivity.
    + apply nth_error_nth. unfold rd. rewrite nth_error_map, Hb2. reflexivity.
  - rewrite dispatch_empty by (rewrite L2; exact Eo). rewrite Eo. cbn [exec_instrs].
    exists (Tn dtype o []). split; [reflexivity|]. split; [split; [exact No|cbn; now rewrite Eo]|].
    split; [reflexivity|]. cbn [t_shape t_dtype]. split; [unfold broadcast; now rewrite <- Els, <- Ers|].
    intros c Hin. exfalso. pose proof (position_bound _ _ Hin). lia.
Qed.
