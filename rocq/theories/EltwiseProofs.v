(** Broadcasting: the element of an operand that an output element shows. *)
From Coq Require Import List ZArith Lia Bool Arith.
From Verif Require Import ShapeModel ShapeSpec ShapeProofs KernelBase KernelSpec KernelProofs CoordProofs EltwiseModel EltwiseSpec.
Import ListNotations.
Local Open Scope Z_scope.

Notation srb := same_rank_broadcast.
Definition ones (l : list Z) : Prop := Forall (fun d => d = 1) l.

Lemma srb_length l r o : srb l r o -> length l = length o /\ length r = length o.
Proof. induction 1; cbn; lia. Qed.

Lemma axis_sym a b o : axis_broadcast a b o -> axis_broadcast b a o.
Proof. unfold axis_broadcast. intuition lia. Qed.
Lemma srb_sym l r o : srb l r o -> srb r l o.
Proof. induction 1; constructor; auto. now apply axis_sym. Qed.

Lemma axis_det a b o o' : axis_broadcast a b o -> axis_broadcast a b o' -> o = o'.
Proof. unfold axis_broadcast. intuition lia. Qed.
Lemma srb_det l r o o' : srb l r o -> srb l r o' -> o = o'.
Proof.
  intros H. revert o'. induction H as [|a b o l r s Ha H IH]; intros o' H'; inversion H' as [|? ? ? ? ? ? Ha' Hs']; subst; auto.
  f_equal; [exact (axis_det _ _ _ _ Ha Ha')|auto].
Qed.

Lemma srb_app l r o : srb l r o -> forall l' r' o', srb l' r' o' -> srb (l ++ l') (r ++ r') (o ++ o').
Proof. induction 1; intros; cbn; auto. constructor; auto. Qed.

Lemma srb_firstn k l r o : srb l r o -> srb (firstn k l) (firstn k r) (firstn k o) /\ srb (skipn k l) (skipn k r) (skipn k o).
Proof.
  intros H. revert k. induction H as [|a b o l r s Ha H IH]; intros [|k]; cbn [firstn skipn]; try (split; constructor; auto; fail).
  destruct (IH k). split; [constructor; auto|auto].
Qed.

Lemma srb_ones l r o : srb l r o -> ones l -> r = o.
Proof.
  induction 1 as [|a b o l r s Ha H IH]; intros Ho; [reflexivity|]. inversion Ho; subst. f_equal; [|auto].
  unfold axis_broadcast in Ha. intuition lia.
Qed.

Lemma srb_same l o : srb l l o -> l = o.
Proof.
  revert o. induction l as [|a l IH]; intros o H; inversion H as [|? ? ? ? ? ? Ha Hs]; subst; auto. f_equal; [|auto].
  unfold axis_broadcast in Ha. intuition lia.
Qed.

Lemma ones_elements l : ones l -> elements l = 1.
Proof. induction 1; cbn [elements]; lia. Qed.

Lemma elements_one_ones l : positive_shape l -> elements l = 1 -> ones l.
Proof.
  induction 1 as [|d l Hd H IH]; intros E; constructor; cbn [elements] in E.
  - pose proof (elements_pos l H). nia.
  - apply IH. pose proof (elements_pos l H). nia.
Qed.

Lemma srb_positive l r o : srb l r o -> positive_shape o -> positive_shape l.
Proof.
  induction 1 as [|a b o l r s Ha H IH]; intros P; [constructor|]. inversion P; subst. constructor; [|apply IH; assumption].
  unfold axis_broadcast in Ha. intuition lia.
Qed.

(** *** The model's shape computation *)
Lemma reduce_axes_ok l : forall r, length l = length r ->
  match reduce_axes l r with
  | Some (o, b) => srb l r o /\ (b = false -> l = r)
  | None => forall o, ~ srb l r o
  end.
Proof.
  induction l as [|a l IH]; intros [|b r] L; try discriminate; cbn [reduce_axes].
  - split; [constructor|auto].
  - specialize (IH r ltac:(now injection L)).
    destruct (Z.eqb_spec a b) as [->|N]; cbn [negb andb].
    + destruct (reduce_axes l r) as [[o bb]|].
      * destruct IH as [I1 I2]. split; [constructor; [left; auto|exact I1]|]. intros E. now rewrite (I2 E).
      * intros o H. inversion H; subst. eapply IH; eauto.
    + destruct (Z.eqb_spec a 1) as [->|N1]; [|destruct (Z.eqb_spec b 1) as [->|N2]]; cbn [negb andb].
      * destruct (reduce_axes l r) as [[o bb]|].
        -- destruct IH as [I1 I2]. split; [constructor; [unfold axis_broadcast; right; left; lia|exact I1]|discriminate].
        -- intros o H. inversion H; subst. eapply IH; eauto.
      * destruct (reduce_axes l r) as [[o bb]|].
        -- destruct IH as [I1 I2]. split; [constructor; [unfold axis_broadcast; right; right; lia|exact I1]|discriminate].
        -- intros o H. inversion H; subst. eapply IH; eauto.
      * intros o H. inversion H as [|? ? ? ? ? ? Ha Hs]; subst. unfold axis_broadcast in Ha. intuition lia.
Qed.

Lemma shape_eqb_eq l : forall r, shape_eqb l r = true <-> l = r.
Proof.
  induction l as [|a l IH]; intros [|b r]; cbn [shape_eqb]; try (split; congruence).
  rewrite andb_true_iff, Z.eqb_eq, IH. split; [intros [-> ->]; reflexivity|intros [= -> ->]; auto].
Qed.

Lemma srb_refl l : srb l l l.
Proof. induction l; constructor; auto. left. auto. Qed.

Lemma reduce_ok l r :
  match reduce l r with
  | Some (l', r', o, b) =>
      l' = aligned (Nat.max (length l) (length r)) l /\ r' = aligned (Nat.max (length l) (length r)) r /\
      broadcast l r o /\ (b = false -> l' = r')
  | None => forall o, ~ broadcast l r o
  end.
Proof.
  unfold reduce. destruct (shape_eqb l r) eqn:E.
  - apply shape_eqb_eq in E. subst r. unfold broadcast, aligned. rewrite Nat.max_id, Nat.sub_diag. cbn [repeat app].
    split; [reflexivity|]. split; [reflexivity|]. split; [apply srb_refl|auto].
  - assert (El : front_append_ones l (length r - length l) = aligned (Nat.max (length l) (length r)) l)
      by (unfold front_append_ones, aligned; do 2 f_equal; lia).
    assert (Er : front_append_ones r (length l - length r) = aligned (Nat.max (length l) (length r)) r)
      by (unfold front_append_ones, aligned; do 2 f_equal; lia).
    rewrite El, Er.
    pose proof (reduce_axes_ok (aligned (Nat.max (length l) (length r)) l) (aligned (Nat.max (length l) (length r)) r)) as H.
    unfold broadcast. destruct (reduce_axes _ _) as [[o b]|].
    + destruct H as [H1 H2]; [unfold aligned; rewrite !app_length, !repeat_length; lia|]. auto.
    + apply H. unfold aligned; rewrite !app_length, !repeat_length; lia.
Qed.

(** *** The position an operand shows *)
Fixpoint src (l o : list Z) (p : Z) : Z :=
  match l, o with
  | a :: l', _ :: o' => (if a =? 1 then 0 else p / elements o') * elements l' + src l' o' (p mod elements o')
  | _, _ => 0
  end.

Definition cfits (l o : list Z) : Prop := Forall2 (fun a d => a = 1 \/ a = d) l o.
Lemma srb_fits l r o : srb l r o -> cfits l o /\ cfits r o.
Proof.
  induction 1 as [|a b o l r s Ha H [I1 I2]]; split; constructor; auto; unfold axis_broadcast in Ha; intuition lia.
Qed.

Definition shown_aligned (l c : list Z) : list Z := map (fun dk => if fst dk =? 1 then 0 else snd dk) (combine l c).

Lemma src_position l o c : cfits l o -> inside o c ->
  inside l (shown_aligned l c) /\ src l o (position o c) = position l (shown_aligned l c).
Proof.
  intros H. revert c. induction H as [|a d l o Ha H IH]; intros c Hc.
  - inversion Hc. split; [constructor|reflexivity].
  - inversion Hc as [|? k ? c' Hk Hc']; subst. destruct (IH c' Hc') as [I1 I2].
    unfold shown_aligned in *. cbn [combine map fst snd src position].
    pose proof (position_bound _ _ Hc') as B.
    replace ((k * elements o + position o c') mod elements o) with (position o c').
    2:{ rewrite Z.add_comm, Z.mod_add by lia. symmetry. now apply Z.mod_small. }
    replace ((k * elements o + position o c') / elements o) with k.
    2:{ rewrite Z.div_add_l by lia. rewrite Z.div_small by lia. lia. }
    destruct (Z.eqb_spec a 1) as [->|N].
    + split; [constructor; [lia|exact I1]|]. rewrite I2. reflexivity.
    + destruct Ha as [E1|E1]; subst a; [lia|]. split; [constructor; [lia|exact I1]|]. now rewrite I2.
Qed.

Lemma src_bound l o p : cfits l o -> positive_shape o -> 0 <= p < elements o -> 0 <= src l o p < elements l.
Proof.
  intros F P Hp. destruct (coordinate_of o p) as (c & Hc & <-); [eapply Forall_impl; [|exact P]; cbn; lia|exact Hp|].
  destruct (src_position l o c F Hc) as [I ->]. now apply position_bound.
Qed.

Lemma mod_mod_mul p a b : 0 < a -> 0 < b -> (p mod (a * b)) mod b = p mod b.
Proof.
  intros Ha Hb. symmetry. apply Znumtheory.Zmod_div_mod; [lia|nia|]. exists a. ring.
Qed.

Lemma div_split p a b : 0 < a -> 0 < b -> (p / (a * b)) * a + (p mod (a * b)) / b = p / b.
Proof.
  intros Ha Hb.
  assert (0 < a * b) by nia.
  pose proof (Z.div_mod p (a * b) ltac:(lia)) as E. pose proof (Z.mod_pos_bound p (a * b) ltac:(lia)) as B.
  set (q := p / (a * b)) in *. set (r := p mod (a * b)) in *.
  replace p with (r + (q * a) * b) by lia. rewrite Z.div_add by lia. lia.
Qed.

Lemma src_same O : forall l' o' p, positive_shape (O ++ o') -> 0 <= p < elements (O ++ o') ->
  src (O ++ l') (O ++ o') p = (p / elements o') * elements l' + src l' o' (p mod elements o').
Proof.
  induction O as [|d O IH]; intros l' o' p P Hp.
  - cbn [app] in *. rewrite Z.div_small, Z.mod_small by lia. lia.
  - cbn [app] in P, Hp. inversion P as [|? ? Hd P']; subst. cbn [app src elements] in *.
    pose proof (elements_pos _ P') as E. pose proof (Z.mod_pos_bound p (elements (O ++ o')) E) as M.
    rewrite IH by (try assumption; lia).
    rewrite !elements_app in *. apply Forall_app in P' as [P1 P2].
    pose proof (elements_pos _ P1) as E1. pose proof (elements_pos _ P2) as E2.
    rewrite mod_mod_mul by assumption.
    rewrite <- (div_split p (elements O) (elements o') E1 E2).
    destruct (Z.eqb_spec d 1) as [->|N]; [|ring].
    rewrite Z.mul_1_l in Hp. rewrite (Z.div_small p (elements O * elements o')) by lia. ring.
Qed.

Lemma src_ones O : forall L l' o' p, ones L -> length L = length O -> positive_shape (O ++ o') -> 0 <= p < elements (O ++ o') ->
  src (L ++ l') (O ++ o') p = src l' o' (p mod elements o').
Proof.
  induction O as [|d O IH]; intros [|a L] l' o' p HL Len P Hp; try discriminate.
  - cbn [app] in *. now rewrite Z.mod_small.
  - inversion HL; subst. cbn [app] in P, Hp. inversion P as [|? ? Hd P']; subst. cbn [app src elements] in *.
    pose proof (elements_pos _ P') as E. pose proof (Z.mod_pos_bound p (elements (O ++ o')) E) as M.
    cbn [Z.eqb Pos.eqb]. rewrite Z.mul_0_l, Z.add_0_l. rewrite IH by (try assumption; try lia; now injection Len).
    rewrite !elements_app in *. apply Forall_app in P' as [P1 P2].
    now rewrite mod_mod_mul by (now apply elements_pos).
Qed.

Lemma src_merge L O l' o' p : ones L /\ length L = length O \/ L = O -> positive_shape (O ++ o') -> 0 <= p < elements (O ++ o') ->
  src (L ++ l') (O ++ o') p = src (elements L :: l') (elements O :: o') p.
Proof.
  intros [[H1 H2]|HLO] P Hp; [|subst L].
  - rewrite (src_ones O L) by assumption. cbn [src]. rewrite (ones_elements L H1). reflexivity.
  - rewrite src_same by assumption. cbn [src].
    destruct (Z.eqb_spec (elements O) 1) as [E|N]; [|reflexivity].
    rewrite elements_app, E, Z.mul_1_l in Hp. rewrite (Z.div_small p) by lia. ring.
Qed.

(** the loop that looks for a group *)
Lemma extend_spec l : forall r lo ro eq, (lo || ro || eq)%bool = true ->
  let k := extend lo ro eq l r in
  (k <= length l)%nat /\ (k <= length r)%nat /\
  (lo = true /\ ones (firstn k l) \/ ro = true /\ ones (firstn k r) \/ eq = true /\ firstn k l = firstn k r).
Proof.
  induction l as [|a l IH]; intros r lo ro eq H.
  - cbn [extend]. cbv zeta. cbn [firstn]. split; [lia|]. split; [lia|].
    destruct lo; [left; split; [reflexivity|constructor]|]. destruct ro; [right; left; split; [reflexivity|constructor]|].
    right. right. auto.
  - destruct r as [|b r].
    + cbn [extend]. cbv zeta. cbn [firstn]. split; [lia|]. split; [lia|].
      destruct lo; [left; split; [reflexivity|constructor]|]. destruct ro; [right; left; split; [reflexivity|constructor]|].
      right. right. auto.
    + cbn [extend]. cbv zeta.
      set (lo' := if lo then a =? 1 else false). set (ro' := if ro then b =? 1 else false). set (eq' := if eq then a =? b else false).
      destruct (lo' || ro' || eq')%bool eqn:E.
      * destruct (IH r lo' ro' eq' E) as (I1 & I2 & I3). cbn [length firstn]. split; [lia|]. split; [lia|].
        destruct I3 as [[I3 I4]|[[I3 I4]|[I3 I4]]].
        -- left. unfold lo' in I3. destruct lo; [|discriminate]. apply Z.eqb_eq in I3. split; [reflexivity|]. constructor; auto.
        -- right. left. unfold ro' in I3. destruct ro; [|discriminate]. apply Z.eqb_eq in I3. split; [reflexivity|]. constructor; auto.
        -- right. right. unfold eq' in I3. destruct eq; [|discriminate]. apply Z.eqb_eq in I3. split; [reflexivity|]. now rewrite I3, I4.
      * cbn [firstn]. split; [lia|]. split; [lia|].
        destruct lo; [left; split; [reflexivity|constructor]|]. destruct ro; [right; left; split; [reflexivity|constructor]|].
        right. right. auto.
Qed.

(** the shapes used for the computation describe the same elements *)
Definition equivalent (l o l2 o2 : list Z) : Prop :=
  elements l2 = elements l /\ elements o2 = elements o /\
  (positive_shape o -> positive_shape o2 /\ forall p, 0 <= p < elements o -> src l2 o2 p = src l o p).

Lemma equivalent_refl l o : equivalent l o l o.
Proof. split; [reflexivity|]. split; [reflexivity|]. auto. Qed.

Lemma equivalent_cons a c l o l2 o2 : equivalent l o l2 o2 -> equivalent (a :: l) (c :: o) (a :: l2) (c :: o2).
Proof.
  intros (H1 & H2 & H3). unfold equivalent. cbn [elements]. rewrite H1, H2. split; [reflexivity|]. split; [reflexivity|].
  intros P. inversion P as [|? ? Pc Po]; subst. destruct (H3 Po) as [H4 H5]. split; [now constructor|]. intros p Hp.
  cbn [src]. rewrite H1, H2, H5; [reflexivity|]. apply Z.mod_pos_bound. now apply elements_pos.
Qed.

Lemma equivalent_trans l o l2 o2 l3 o3 : equivalent l o l2 o2 -> equivalent l2 o2 l3 o3 -> equivalent l o l3 o3.
Proof.
  intros (A1 & A2 & A3) (B1 & B2 & B3). split; [congruence|]. split; [congruence|]. intros P. destruct (A3 P) as [P2 A4].
  destruct (B3 P2) as [P3 B4]. split; [exact P3|]. intros p Hp. rewrite B4 by (rewrite A2; exact Hp). now apply A4.
Qed.

Lemma equivalent_merge L O l o : ones L /\ length L = length O \/ L = O ->
  equivalent (L ++ l) (O ++ o) (elements L :: l) (elements O :: o).
Proof.
  intros H. unfold equivalent. rewrite !elements_app. cbn [elements]. split; [reflexivity|]. split; [reflexivity|]. intros P. split.
  - apply Forall_app in P as [P1 P2]. constructor; [now apply elements_pos|exact P2].
  - intros p Hp. symmetry. apply src_merge; auto. now rewrite elements_app.
Qed.

Lemma reduce_shape_ok fuel : forall l r o, srb l r o -> (length o <= fuel)%nat ->
  let '(l2, r2, o2) := reduce_shape fuel l r o in
  srb l2 r2 o2 /\ equivalent l o l2 o2 /\ equivalent r o r2 o2.
Proof.
  induction fuel as [|fuel IH]; intros l r o H Hf.
  - cbn [reduce_shape]. split; [exact H|]. split; apply equivalent_refl.
  - cbn [reduce_shape]. destruct H as [|a b c l r o Ha H].
    { split; [constructor|]. split; apply equivalent_refl. }
    cbn [length] in Hf.
    destruct (negb ((a =? 1) || (b =? 1) || (a =? b))) eqn:En.
    + specialize (IH l r o H ltac:(lia)). destruct (reduce_shape fuel l r o) as [[l2 r2] o2]. destruct IH as (I1 & I2 & I3).
      split; [constructor; auto|]. split; now apply equivalent_cons.
    + apply negb_false_iff in En.
      pose proof (extend_spec l r (a =? 1) (b =? 1) (a =? b) En) as Hx. cbv zeta in Hx.
      destruct (extend (a =? 1) (b =? 1) (a =? b) l r) as [|k] eqn:Ek.
      * destruct H as [|a' b' c' l r o Ha' H].
        { split; [constructor; [exact Ha|constructor]|]. split; apply equivalent_refl. }
        cbn [length] in Hf. specialize (IH l r o H ltac:(lia)). destruct (reduce_shape fuel l r o) as [[l2 r2] o2].
        destruct IH as (I1 & I2 & I3). split; [constructor; [exact Ha|constructor; [exact Ha'|exact I1]]|]. split; now apply equivalent_cons, equivalent_cons.
      * destruct (srb_firstn (S k) l r o H) as [Hb Ht].
        assert (Lo : (length (skipn (S k) o) <= fuel)%nat) by (rewrite skipn_length; lia).
        remember (S k) as n eqn:En'. clear En' Ek.
        specialize (IH _ _ _ Ht Lo). destruct (reduce_shape fuel (skipn n l) (skipn n r) (skipn n o)) as [[l2 r2] o2].
        destruct IH as (I1 & I2 & I3). rewrite !prod_elements.
        assert (Hb' : srb (a :: firstn n l) (b :: firstn n r) (c :: firstn n o)) by (constructor; auto).
        assert (Cl : a :: l = (a :: firstn n l) ++ skipn n l) by (cbn [app]; now rewrite firstn_skipn).
        assert (Cr : b :: r = (b :: firstn n r) ++ skipn n r) by (cbn [app]; now rewrite firstn_skipn).
        assert (Co : c :: o = (c :: firstn n o) ++ skipn n o) by (cbn [app]; now rewrite firstn_skipn).
        rewrite Cl, Cr, Co.
        set (L := a :: firstn n l) in *. set (R := b :: firstn n r) in *. set (O := c :: firstn n o) in *.
        destruct (srb_length _ _ _ Hb') as [L1 L2].
        assert (K : ones L \/ ones R \/ L = R).
        { destruct Hx as (_ & _ & [[E1 E2]|[[E1 E2]|[E1 E2]]]); apply Z.eqb_eq in E1.
          - left. now constructor.
          - right. left. now constructor.
          - right. right. unfold L, R. now rewrite E1, E2. }
        assert (Kl : ones L /\ length L = length O \/ L = O).
        { destruct K as [K|[K|K]]; [left; auto|right; now apply (srb_ones R L O (srb_sym _ _ _ Hb'))|].
          right. apply srb_same. rewrite <- K in Hb'. exact Hb'. }
        assert (Kr : ones R /\ length R = length O \/ R = O).
        { destruct K as [K|[K|K]]; [right; now apply (srb_ones L R O)|left; auto|].
          right. apply srb_same. rewrite K in Hb'. exact Hb'. }
        split; [|split].
        -- constructor; [|exact I1]. unfold axis_broadcast.
           destruct K as [K|[K|K]].
           ++ right. left. split; [now apply ones_elements|]. now rewrite (srb_ones L R O Hb' K).
           ++ right. right. split; [now apply ones_elements|]. now rewrite (srb_ones R L O (srb_sym _ _ _ Hb') K).
           ++ left. rewrite K. split; [reflexivity|]. f_equal. symmetry. apply srb_same. rewrite <- K in Hb' |- *. exact Hb'.
        -- eapply equivalent_trans; [apply equivalent_merge; exact Kl|]. now apply equivalent_cons.
        -- eapply equivalent_trans; [apply equivalent_merge; exact Kr|]. now apply equivalent_cons.
Qed.

Lemma src_refl o p : positive_shape o -> 0 <= p < elements o -> src o o p = p.
Proof.
  intros P Hp. pose proof (src_same o [] [] p) as H. rewrite !app_nil_r in H. rewrite H by assumption. cbn [elements src].
  rewrite Z.div_1_r. lia.
Qed.

Lemma src_all_ones l : forall o p, ones l -> src l o p = 0.
Proof.
  induction l as [|a l IH]; intros [|d o] p H; try reflexivity. inversion H; subst. cbn [src Z.eqb Pos.eqb]. rewrite IH by assumption. lia.
Qed.

(** one axis only *)
Lemma src_bias R1 R2 O1 O2 ch n c i : ones R1 -> ones R2 -> length R1 = length O1 -> positive_shape (O1 ++ ch :: O2) ->
  0 <= n < elements O1 -> 0 <= c < ch -> 0 <= i < elements O2 ->
  src (R1 ++ ch :: R2) (O1 ++ ch :: O2) ((n * ch + c) * elements O2 + i) = c.
Proof.
  intros H1 H2 L P Hn Hc Hi.
  assert (B : 0 <= (n * ch + c) * elements O2 + i < elements (O1 ++ ch :: O2)).
  { rewrite elements_app. cbn [elements]. assert (0 <= n * ch + c < elements O1 * ch) by nia. nia. }
  rewrite (src_ones O1 R1) by assumption. cbn [elements src].
  replace ((n * ch + c) * elements O2 + i) with (c * elements O2 + i + n * (ch * elements O2)) by ring.
  rewrite Z.mod_add by nia. rewrite (Z.mod_small (c * elements O2 + i)) by nia.
  rewrite (ones_elements R2 H2), src_all_ones by assumption. rewrite Z.div_add_l, Z.div_small by lia.
  destruct (Z.eqb_spec ch 1); lia.
Qed.
