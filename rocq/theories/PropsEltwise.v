(** Properties of the element-wise operators. *)
From Coq Require Import List ZArith Lia Bool Arith.
From Verif Require Import ShapeModel ShapeSpec ShapeProofs KernelBase KernelSpec KernelProofs CoordProofs TileModel
  EltwiseModel EltwiseSpec EltwiseProofs EltwiseKernelProofs EltwiseMainProofs.
Import ListNotations.
Local Open Scope Z_scope.

(** ** C41: the operators broadcast as numpy does.  Every element of the
    output is written, and is the operator applied to the elements both
    operands show there, converted to the common type. *)

(** Subtraction, division and maximum: whatever the operator is. *)
Theorem C41_broadcasting_partial {A} (op : A -> A -> A) (k : kernel A) cast (l r : tensor A) dtype o :
  k = sub_kernel op \/ k = div_kernel op \/ k = maximum_kernel op ->
  wf l -> wf r -> upcast_dtype (t_dtype l) (t_dtype r) = SOk dtype -> tile_supports dtype = true ->
  broadcast (t_shape l) (t_shape r) o ->
  exists out, eltwise_run k cast l r = SOk (filled out) /\ wf out /\ combined op dtype (convert cast dtype) l r out.
Proof.
  intros Hk Wl Wr Hd Hs Hb.
  assert (E : k_op k = op /\ k_supports k dtype = true /\ k_cross k <> Swap).
  { destruct Hk as [E|[E|E]]; subst k; cbn; repeat split; auto; discriminate. }
  destruct E as (E1 & E2 & E3). rewrite <- E1. eapply eltwise_ok; eauto. intros E. now destruct E3.
Qed.
Print Assumptions C41_broadcasting_partial.

(** Addition and multiplication exchange the operands in some cases: they
    rely on the operator being commutative. *)
Theorem C41_broadcasting_commutative_partial {A} (op : A -> A -> A) (k : kernel A) cast (l r : tensor A) dtype o :
  k = add_kernel op \/ k = mul_kernel op -> (forall a b, op a b = op b a) ->
  wf l -> wf r -> upcast_dtype (t_dtype l) (t_dtype r) = SOk dtype -> tile_supports dtype = true ->
  broadcast (t_shape l) (t_shape r) o ->
  exists out, eltwise_run k cast l r = SOk (filled out) /\ wf out /\ combined op dtype (convert cast dtype) l r out.
Proof.
  intros Hk Hc Wl Wr Hd Hs Hb.
  assert (E : k_op k = op /\ k_supports k dtype = true) by (destruct Hk as [E|E]; subst k; cbn; auto).
  destruct E as (E1 & E2). rewrite <- E1 in *. eapply eltwise_ok; eauto.
Qed.
Print Assumptions C41_broadcasting_commutative_partial.

(** The shapes are refused exactly when numpy refuses them. *)
Theorem C41_refused {A} (k : kernel A) cast (l r : tensor A) :
  upcast_dtype (t_dtype l) (t_dtype r) <> SUndef ->
  (forall o, ~ broadcast (t_shape l) (t_shape r) o) -> eltwise_run k cast l r = SErr.
Proof.
  intros Hd H. unfold eltwise_run. destruct (upcast_dtype (t_dtype l) (t_dtype r)); [|reflexivity|congruence].
  pose proof (reduce_ok (t_shape l) (t_shape r)) as R.
  destruct (reduce (t_shape l) (t_shape r)) as [[[[ls rs] os] b]|]; [|reflexivity]. destruct R as (_ & _ & Hb & _). exfalso. exact (H _ Hb).
Qed.
Print Assumptions C41_refused.

(** The broadcast of two shapes is unique and symmetric; it is the result's
    shape (see [combined]). *)
Theorem C41_shape_unique l r o o' : broadcast l r o -> broadcast l r o' -> o = o'.
Proof. apply srb_det. Qed.
Print Assumptions C41_shape_unique.

Theorem C41_shape_symmetric l r o : broadcast l r o -> broadcast r l o.
Proof. unfold broadcast. rewrite Nat.max_comm. apply srb_sym. Qed.
Print Assumptions C41_shape_symmetric.

(** Type promotion is symmetric, and a type meets itself. *)
Theorem C41_promotion_symmetric l r : 0 <= l -> 0 <= r -> upcast_dtype l r = upcast_dtype r l.
Proof.
  intros Hl Hr. unfold upcast_dtype. rewrite (Z.eqb_sym r l). destruct (Z.eqb_spec l r) as [->|N]; [reflexivity|].
  rewrite (orb_comm (uncorr_cast_dtype r)).
  destruct (uncorr_cast_dtype l || uncorr_cast_dtype r) eqn:U; [reflexivity|].
  apply orb_false_iff in U as [Ul Ur].
  assert (B : forall t, 0 <= t -> uncorr_cast_dtype t = false -> In t [1;2;3;4;5;6;7;8;9;10;11;13;14;15;21]).
  { intros t Ht U. unfold uncorr_cast_dtype in U. apply orb_false_iff in U as [U U2]. apply orb_false_iff in U as [U0 U1].
    apply Z.eqb_neq in U0, U1. apply andb_false_iff in U2. cbn [In].
    destruct U2 as [U2|U2]; [apply Z.ltb_ge in U2; lia|apply negb_false_iff, Z.eqb_eq in U2; lia]. }
  apply B in Ul; [|exact Hl]. apply B in Ur; [|exact Hr]. clear B N Hl Hr.
  cbn [In] in Ul, Ur.
  repeat (destruct Ul as [Ul|Ul]; [subst l; repeat (destruct Ur as [Ur|Ur]; [subst r; reflexivity|]); destruct Ur|]). destruct Ul.
Qed.
Print Assumptions C41_promotion_symmetric.

(** With a commutative operator the operands can be exchanged. *)
Theorem C41_exchange {A} (op : A -> A -> A) cast (l r : tensor A) dtype o :
  (forall a b, op a b = op b a) -> wf l -> wf r -> 0 <= t_dtype l -> 0 <= t_dtype r ->
  upcast_dtype (t_dtype l) (t_dtype r) = SOk dtype -> tile_supports dtype = true -> broadcast (t_shape l) (t_shape r) o ->
  eltwise_run (add_kernel op) cast l r = eltwise_run (add_kernel op) cast r l.
Proof.
  intros Hc Wl Wr Dl Dr Hd Hs Hb.
  destruct (eltwise_ok (add_kernel op) cast l r dtype o) as (x & Ex & Wx & Dx & Bx & Px); auto.
  destruct (eltwise_ok (add_kernel op) cast r l dtype o) as (y & Ey & Wy & Dy & By & Py); auto;
    [rewrite C41_promotion_symmetric by assumption; exact Hd|now apply C41_shape_symmetric|].
  rewrite Ex, Ey. do 2 f_equal.
  assert (Es : t_shape x = t_shape y) by (apply (C41_shape_unique _ _ _ _ Bx); now apply C41_shape_symmetric).
  apply tensor_ext; auto; [congruence|]. intros c Hin.
  destruct (Px c Hin) as (_ & _ & a & b & Ha & Hb' & ->). rewrite Es in Hin.
  destruct (Py c Hin) as (_ & _ & b' & a' & Hb2 & Ha2 & ->).
  cbn [k_op add_kernel]. rewrite Hc. congruence.
Qed.
Print Assumptions C41_exchange.

(** Example: [2;1;2] and [3;1], and a column of biases on the left. *)
Example C41_example :
  eltwise_run (sub_kernel Z.sub) (fun _ _ a => a) (Tn 10 [2;1;2] [10;20;30;40]) (Tn 10 [3;1] [1;2;3])
  = SOk (filled (Tn 10 [2;3;2] [9;19;8;18;7;17;29;39;28;38;27;37])) /\
  eltwise_run (sub_kernel Z.sub) (fun _ _ a => a) (Tn 5 [2;1] [100;200]) (Tn 5 [2;2;2] [1;2;3;4;5;6;7;8])
  = SOk (filled (Tn 5 [2;2;2] [99;98;197;196;95;94;193;192])) /\
  eltwise_run (add_kernel Z.add) (fun _ _ a => a) (Tn 5 [2;3] [1;2;3;4;5;6]) (Tn 5 [2] [1;2]) = SErr /\
  broadcast [2;1;2] [3;1] [2;3;2].
Proof.
  split; [vm_compute; reflexivity|]. split; [vm_compute; reflexivity|]. split; [vm_compute; reflexivity|].
  unfold broadcast. cbn. repeat constructor; unfold axis_broadcast; lia.
Qed.

(** REFUTED for the modulus: with the smaller operand on the left the
    operands are exchanged, and the modulus is not commutative.
    7 mod [3, 4] is [1, 3]; the operator answers [3, 4]. *)
Theorem C41_modulus_refuted : exists (l r : tensor Z), wf l /\ wf r /\ t_shape l = [] /\
  eltwise_run (mod_kernel Z.rem) (fun _ _ a => a) l r = SOk (filled (Tn 5 [2] [Z.rem 3 7; Z.rem 4 7])) /\
  ~ exists out, eltwise_run (mod_kernel Z.rem) (fun _ _ a => a) l r = SOk (filled out) /\
      combined Z.rem 5 (fun _ a => a) l r out.
Proof.
  exists (Tn 5 [] [7]), (Tn 5 [2] [3;4]).
  split; [split; [constructor|reflexivity]|]. split; [split; [repeat constructor; lia|reflexivity]|]. split; [reflexivity|].
  assert (E : eltwise_run (mod_kernel Z.rem) (fun _ _ a => a) (Tn 5 [] [7]) (Tn 5 [2] [3;4]) = SOk (filled (Tn 5 [2] [Z.rem 3 7; Z.rem 4 7])))
    by (vm_compute; reflexivity).
  split; [exact E|]. rewrite E. intros (out & Eo & Do & Bo & Po).
  injection Eo as E1 E2 E3. destruct out as [dt s d]. cbn in E1, E2, E3. subst dt s.
  destruct (Po [0]) as (_ & _ & a & b & Ha & Hb & Hc); [repeat constructor; lia|].
  cbn in Ha, Hb. injection Ha as <-. injection Hb as <-. unfold elt in Hc. cbn in Hc.
  destruct d as [|x d]; [discriminate|]. cbn in Hc, E3. injection Hc as ->. discriminate.
Qed.
Print Assumptions C41_modulus_refuted.

(** REFUTED for half floats: the promotion has an answer, the kernels not. *)
Theorem C41_half_refuted {A} (op : A -> A -> A) cast (l r : tensor A) : t_dtype l = 9 -> t_dtype r = 9 ->
  eltwise_run (add_kernel op) cast l r = SErr.
Proof.
  intros El Er. unfold eltwise_run. rewrite El, Er. cbn [upcast_dtype Z.eqb Pos.eqb].
  destruct (reduce (t_shape l) (t_shape r)) as [[[[ls rs] os] b]|]; [|reflexivity].
  destruct (reduce_shape (length os) ls rs os) as [[ls2 rs2] os2]. reflexivity.
Qed.
Print Assumptions C41_half_refuted.

(** ** C81: comparison for equality *)

Lemma equal_reads_own_shape {A} (k : kernel A) (l r : list A) ls rs os n i c m :
  (length ls < length c)%nat \/ (length rs < length c)%nat ->
  exec_instrs m (compute_run k l r ls rs os (S n) i c) = SUndef.
Proof.
  assert (M : forall (x : list A) s c, (length s < length c)%nat -> mod_load x s c = SUndef).
  { intros x s c' H. unfold mod_load. assert (E : mod_coordinate s c' = SUndef); [|now rewrite E].
    revert s H. induction c' as [|y c' IH]; intros s H; [cbn in H; lia|]. destruct s as [|d s]; [reflexivity|].
    cbn [mod_coordinate]. destruct (d =? 0); [reflexivity|]. rewrite IH by (cbn in H; lia). reflexivity. }
  intros H. cbn [compute_run exec_instrs].
  assert (E : lift2 (k_op k) (mod_load l ls c) (mod_load r rs c) = SUndef); [|now rewrite E].
  destruct H as [H|H]; rewrite (M _ _ _ H); [reflexivity|]. destruct (mod_load l ls c); reflexivity.
Qed.

Lemma reduce_axes_refl l : reduce_axes l l = Some (l, false).
Proof. induction l as [|a l IH]; [reflexivity|]. cbn [reduce_axes]. now rewrite Z.eqb_refl, IH. Qed.

Lemma reduce_same l r ls rs os b : reduce l r = Some (ls, rs, os, b) -> ls = rs -> b = false.
Proof.
  unfold reduce. destruct (shape_eqb l r); [intros [= _ _ _ <-]; reflexivity|]. intros H E.
  destruct (reduce_axes _ _) as [[o b']|] eqn:R; [|discriminate]. injection H as H1 H2 _ <-. rewrite <- H1, <- H2 in E. rewrite E, reduce_axes_refl in R. congruence.
Qed.

(** Operands of the same rank, or of the same shape up to ones in front, or one of them a single element, are compared
    element by element; the answer has the type BOOLEAN. *)
Theorem C81_equal_partial {A} (eq : A -> A -> A) cast (l r : tensor A) dtype o : (forall a b, eq a b = eq b a) ->
  wf l -> wf r -> upcast_dtype (t_dtype l) (t_dtype r) = SOk dtype -> tile_supports dtype = true ->
  broadcast (t_shape l) (t_shape r) o ->
  length (t_shape l) = length (t_shape r) \/ elements (t_shape l) = 1 \/ elements (t_shape r) = 1 \/
  (let rank := Nat.max (length (t_shape l)) (length (t_shape r)) in aligned rank (t_shape l) = aligned rank (t_shape r)) ->
  exists out, equal_run eq cast l r = SOk (filled out) /\ wf out /\ combined eq 21 (convert cast dtype) l r out.
Proof.
  intros Hc Wl Wr Hd Hs Hb Hrank. unfold equal_run. rewrite Hd, Hs. cbn [negb].
  pose proof (reduce_ok (t_shape l) (t_shape r)) as R.
  pose proof (fun ls rs os b => reduce_same (t_shape l) (t_shape r) ls rs os b) as Hsame.
  destruct (reduce (t_shape l) (t_shape r)) as [[[[ls rs] os] b]|]; [|exfalso; exact (R o Hb)].
  specialize (Hsame _ _ _ _ eq_refl).
  destruct R as (Els & Ers & Hb' & Hf). unfold broadcast in Hb, Hb'. cbv zeta in Hrank. rewrite <- Els, <- Ers in *.
  pose proof (srb_det _ _ _ _ Hb Hb') as <-. clear Hb'.
  rewrite !map_convert. rewrite prod_elements.
  set (ld := map _ (t_data l)). set (rd := map _ (t_data r)).
  assert (Hld : Z.of_nat (length ld) = elements ls) by (unfold ld; rewrite map_length, (proj2 Wl), Els; symmetry; apply aligned_elements).
  assert (Hrd : Z.of_nat (length rd) = elements rs) by (unfold rd; rewrite map_length, (proj2 Wr), Ers; symmetry; apply aligned_elements).
  assert (No : nonneg_shape o).
  { eapply srb_nonneg; [exact Hb| |]; rewrite ?Els, ?Ers; apply aligned_nonneg; [apply Wl|apply Wr]. }
  set (k := Kernel eq false Swap tile_supports).
  match goal with |- context [exec_instrs _ ?p] => set (prog := p) end.
  destruct (positive_or_empty o No) as [Po|Eo].
  - pose proof (srb_sym _ _ _ Hb) as Hb2.
    pose proof (srb_positive _ _ _ Hb Po) as Pl. pose proof (srb_positive _ _ _ Hb2 Po) as Pr.
    pose proof (elements_pos _ Pl) as Epl.
    assert (exists d0 : A, True) as [d0 _] by (destruct ld as [|d0 ?]; [cbn in Hld; lia|now exists d0]).
    set (V := fun p => eq (lv ld ls o d0 p) (rv rd rs o d0 p)).
    assert (C : computes (elements o) V prog).
    { assert (HL := Hlv ld ls rs o d0 Hb Po Hld). assert (HR := Hrv rd ls rs o d0 Hb Po Hrd).
      unfold prog. destruct b; cbn [negb].
      - destruct (is_scalar rs) eqn:Sr.
        { unfold is_scalar in Sr. rewrite prod_elements in Sr. apply Z.eqb_eq in Sr. pose proof (elements_one_ones _ Pr Sr) as Or.
          pose proof (srb_ones _ _ _ Hb2 Or) as El.
          apply puts_compute; [intros i; apply In_upto|]. intros i Hi. rewrite <- (src_refl o i Po Hi) at 1.
          specialize (HL i Hi). specialize (HR i Hi). rewrite src_all_ones in HR by exact Or. rewrite El in HL at 1.
          rewrite HL, HR. reflexivity. }
        destruct (is_scalar ls) eqn:Sl.
        { unfold is_scalar in Sl. rewrite prod_elements in Sl. apply Z.eqb_eq in Sl. pose proof (elements_one_ones _ Pl Sl) as Ol.
          pose proof (srb_ones _ _ _ Hb Ol) as Er.
          apply puts_compute; [intros i; apply In_upto|]. intros i Hi. rewrite <- (src_refl o i Po Hi) at 1.
          specialize (HL i Hi). specialize (HR i Hi). rewrite src_all_ones in HL by exact Ol. rewrite Er in HR at 1.
          rewrite HL, HR. unfold V. cbn [lift2]. f_equal. apply Hc. }
        assert (Hr : length (t_shape l) = length (t_shape r)).
        { unfold is_scalar in Sr, Sl. rewrite prod_elements in Sr, Sl. apply Z.eqb_neq in Sr, Sl.
          rewrite Els, aligned_elements in Sl. rewrite Ers, aligned_elements in Sr. destruct Hrank as [H|[H|[H|H]]]; [exact H|contradiction|contradiction|]. specialize (Hsame H). discriminate. }
        assert (E1 : t_shape l = ls) by (rewrite Els; unfold aligned; rewrite <- Hr, Nat.max_id, Nat.sub_diag; reflexivity).
        assert (E2 : t_shape r = rs) by (rewrite Ers; unfold aligned; rewrite Hr, Nat.max_id, Nat.sub_diag; reflexivity).
        rewrite E1, E2. apply (broadcast_path k 10 ld rd ls rs o d0); auto.
      - specialize (Hf eq_refl). assert (Hb0 := Hb). rewrite <- Hf in Hb0. pose proof (srb_same _ _ Hb0) as Eo.
        apply puts_compute; [intros i; apply In_upto|]. intros i Hi. specialize (HL i Hi). specialize (HR i Hi).
        assert (X1 : src ls o i = i) by (rewrite Eo; now apply src_refl).
        assert (X2 : src rs o i = i) by (rewrite <- Hf, Eo; now apply src_refl).
        rewrite X1 in HL. rewrite X2 in HR. rewrite HL, HR. reflexivity. }
    unfold computes in C. rewrite C.
    exists (Tn 21 o (map V (upto (elements o)))).
    split; [reflexivity|]. split; [now apply wf_map|].
    split; [reflexivity|]. cbn [t_shape t_dtype]. split; [unfold broadcast; now rewrite <- Els, <- Ers|].
    intros c Hin. destruct (srb_fits _ _ _ Hb) as [Fl Fr].
    assert (Fl' := Fl). assert (Fr' := Fr). rewrite Els in Fl'. rewrite Ers in Fr'.
    destruct (shown_in _ _ _ _ Fl' Hin) as [Il Pl']. destruct (shown_in _ _ _ _ Fr' Hin) as [Ir Pr'].
    split; [exact Il|]. split; [exact Ir|].
    destruct (elt_some l _ Wl Il) as (a & Ha). destruct (elt_some r _ Wr Ir) as (b' & Hb3).
    exists a, b'. split; [exact Ha|]. split; [exact Hb3|].
    rewrite elt_map by exact Hin. f_equal. unfold V, lv, rv.
    destruct (src_position _ _ _ Fl Hin) as [_ Ql]. destruct (src_position _ _ _ Fr Hin) as [_ Qr].
    rewrite Ql, Qr. rewrite Els, Ers, Pl', Pr'.
    unfold elt in Ha, Hb3. f_equal.
    + apply nth_error_nth. unfold ld. rewrite nth_error_map, Ha. reflexivity.
    + apply nth_error_nth. unfold rd. rewrite nth_error_map, Hb3. reflexivity.
  - assert (E : prog = []).
    { unfold prog, broadcast_run. rewrite prod_elements, Eo. destruct (negb b), (is_scalar rs), (is_scalar ls); reflexivity. }
    rewrite E, Eo. cbn [exec_instrs].
    exists (Tn 21 o []). split; [reflexivity|]. split; [split; [exact No|cbn; now rewrite Eo]|].
    split; [reflexivity|]. cbn [t_shape t_dtype]. split; [unfold broadcast; now rewrite <- Els, <- Ers|].
    intros c Hin. exfalso. pose proof (position_bound _ _ Hin). lia.
Qed.
Print Assumptions C81_equal_partial.

Example C81_example :
  equal_run (fun a b => if a =? b then 1 else 0) (fun _ _ a => a) (Tn 5 [2;1] [1;2]) (Tn 5 [1;3] [2;1;2])
  = SOk (filled (Tn 21 [2;3] [0;1;0;1;0;1])).
Proof. vm_compute. reflexivity. Qed.

(** REFUTED for operands of different ranks, unless the longer one only has
    ones in front or one is a single element: the operands keep their own
    shapes, and the kernel reads past the shorter one, whatever the data. *)
Theorem C81_equal_ranks_refuted {A} (eq : A -> A -> A) cast (l r : tensor A) dtype o :
  upcast_dtype (t_dtype l) (t_dtype r) = SOk dtype -> tile_supports dtype = true ->
  broadcast (t_shape l) (t_shape r) o -> positive_shape o ->
  length (t_shape l) <> length (t_shape r) -> elements (t_shape l) <> 1 -> elements (t_shape r) <> 1 ->
  (let rank := Nat.max (length (t_shape l)) (length (t_shape r)) in aligned rank (t_shape l) <> aligned rank (t_shape r)) ->
  equal_run eq cast l r = SUndef.
Proof.
  intros Hd Hs Hb Po Hr El Er Ha. unfold equal_run. rewrite Hd, Hs. cbn [negb].
  pose proof (reduce_ok (t_shape l) (t_shape r)) as R.
  destruct (reduce (t_shape l) (t_shape r)) as [[[[ls rs] os] b]|]; [|exfalso; exact (R o Hb)].
  destruct R as (Els & Ers & Hb' & Hf). unfold broadcast in Hb, Hb'. cbv zeta in Ha. rewrite <- Els, <- Ers in *.
  pose proof (srb_det _ _ _ _ Hb Hb') as <-. clear Hb'.
  destruct b; [|exfalso; apply Ha; now apply Hf]. cbn [negb].
  assert (Sr : is_scalar rs = false) by (unfold is_scalar; rewrite prod_elements; apply Z.eqb_neq; now rewrite Ers, aligned_elements).
  assert (Sl : is_scalar ls = false) by (unfold is_scalar; rewrite prod_elements; apply Z.eqb_neq; now rewrite Els, aligned_elements).
  rewrite Sr, Sl. unfold broadcast_run. rewrite prod_elements.
  pose proof (elements_pos _ Po) as Ep. destruct (Z.to_nat (elements o)) as [|n] eqn:En; [lia|].
  rewrite equal_reads_own_shape; [reflexivity|].
  assert (Lc : length (start o) = Nat.max (length (t_shape l)) (length (t_shape r))).
  { destruct (srb_length _ _ _ Hb) as [L1 _]. unfold start. rewrite repeat_length, <- L1, Els. unfold aligned. rewrite app_length, repeat_length. lia. }
  rewrite Lc. lia.
Qed.
Print Assumptions C81_equal_ranks_refuted.

(** Example: a row of three added to every row works, compared it does not. *)
Example C81_ranks_example :
  broadcast [2;3] [3] [2;3] /\
  equal_run (fun a b => if a =? b then 1 else 0) (fun _ _ a => a) (Tn 5 [2;3] [1;2;3;4;5;6]) (Tn 5 [3] [1;2;3]) = SUndef /\
  eltwise_run (add_kernel Z.add) (fun _ _ a => a) (Tn 5 [2;3] [1;2;3;4;5;6]) (Tn 5 [3] [1;2;3])
  = SOk (filled (Tn 5 [2;3] [2;4;6;5;7;9])).
Proof.
  split; [unfold broadcast; cbn; repeat constructor; unfold axis_broadcast; lia|]. split; vm_compute; reflexivity.
Qed.

(** ** C82: which promotions keep the values *)

(** the values of an integer type *)
Definition holds (t v : Z) : Prop :=
  match t with
  | 1 => -2^7 <= v < 2^7    | 2 => 0 <= v < 2^8
  | 3 => -2^15 <= v < 2^15  | 4 => 0 <= v < 2^16
  | 5 => -2^31 <= v < 2^31  | 6 => 0 <= v < 2^32
  | 7 => -2^63 <= v < 2^63  | 8 => 0 <= v < 2^64
  | _ => False
  end.
Definition integer_type (t : Z) : Prop := 1 <= t <= 8.
Definition signed (t : Z) : Prop := t = 1 \/ t = 3 \/ t = 5 \/ t = 7.

(** The common type holds the values of both operands exactly when they have
    the same signedness or the signed one is wider -- except for UINT8 with
    UINT16 and UINT8 with UINT64, which become signed. *)
Theorem C82_promotion_keeps_values_iff l r : integer_type l -> integer_type r ->
  exists t, upcast_dtype l r = SOk t /\ integer_type t /\
    ((forall v, holds l v \/ holds r v -> holds t v) <->
     ((signed l <-> signed r) \/ (signed l /\ r < l) \/ (signed r /\ l < r)) /\
     ~ (l = 2 /\ (r = 4 \/ r = 8)) /\ ~ (r = 2 /\ (l = 4 \/ l = 8))).
Proof.
  intros Hl Hr.
  assert (Il : l = 1 \/ l = 2 \/ l = 3 \/ l = 4 \/ l = 5 \/ l = 6 \/ l = 7 \/ l = 8) by (unfold integer_type in *; lia).
  assert (Ir : r = 1 \/ r = 2 \/ r = 3 \/ r = 4 \/ r = 5 \/ r = 6 \/ r = 7 \/ r = 8) by (unfold integer_type in *; lia).
  unfold signed, integer_type.
  destruct Il as [E|[E|[E|[E|[E|[E|[E|E]]]]]]]; subst l; clear Hl;
  destruct Ir as [E|[E|[E|[E|[E|[E|[E|E]]]]]]]; subst r; clear Hr;
  (eexists; split; [reflexivity|]; split; [lia|]; cbn [holds]; split;
    [ intros H; try lia; exfalso;
      first [ specialize (H (2^7) ltac:(lia)); lia | specialize (H (2^8 - 1) ltac:(lia)); lia | specialize (H (2^16 - 1) ltac:(lia)); lia
            | specialize (H (2^32 - 1) ltac:(lia)); lia | specialize (H (2^64 - 1) ltac:(lia)); lia ]
    | intros H v Hv; lia ]).
Qed.
Print Assumptions C82_promotion_keeps_values_iff.

(** REFUTED in general: 200 in UINT8 meets INT8 and becomes an INT8; and
    although both are unsigned, 60000 in UINT16 meets UINT8 and becomes an
    INT16. *)
Theorem C82_promotion_refuted :
  (upcast_dtype 1 2 = SOk 1 /\ holds 2 200 /\ ~ holds 1 200) /\
  (upcast_dtype 2 4 = SOk 3 /\ holds 4 60000 /\ ~ holds 3 60000).
Proof. split; split; try reflexivity; cbn; lia. Qed.
Print Assumptions C82_promotion_refuted.
