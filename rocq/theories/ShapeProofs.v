(** Shape arithmetic. *)
From Coq Require Import List ZArith Bool Lia Arith.
From Verif Require Import ShapeModel ShapeSpec.
Import ListNotations.
Local Open Scope Z_scope.

Lemma fold_mul l : forall a, fold_left Z.mul l a = a * elements l.
Proof. induction l as [|x l IH]; intros a; simpl; [lia|]. rewrite IH. ring. Qed.

Lemma prod_elements l : prod l = elements l.
Proof. unfold prod. rewrite fold_mul. lia. Qed.

Lemma elements_app a b : elements (a ++ b) = elements a * elements b.
Proof. induction a as [|x a IH]; simpl; [destruct (elements b); reflexivity|]. rewrite IH. ring. Qed.

Lemma elements_pos s : positive_shape s -> 0 < elements s.
Proof. induction 1; simpl; lia. Qed.

Lemma elements_nonneg s : Forall (fun d => 0 <= d) s -> 0 <= elements s.
Proof. induction 1; simpl; [lia|]. nia. Qed.

(** ** reshape *)
Lemma scan_true shape : forall fixed f, scan_wildcard shape true = Some (fixed, f) ->
  fixed = shape /\ f = true /\ Forall (fun d => 0 <= d) shape.
Proof.
  induction shape as [|x rest IH]; simpl; intros fixed f H.
  - injection H as <- <-. auto.
  - destruct (Z.ltb_spec x 0); [discriminate|].
    destruct (scan_wildcard rest true) as [[l f']|]; [|discriminate]. injection H as <- <-.
    destruct (IH l f' eq_refl) as (-> & -> & HF). auto.
Qed.

Lemma scan_true_none shape : scan_wildcard shape true = None -> (0 < length (filter (fun w => (w <? 0)%Z) shape))%nat.
Proof.
  induction shape as [|x rest IH]; simpl; [discriminate|].
  destruct (x <? 0) eqn:E; simpl; [lia|].
  destruct (scan_wildcard rest true) as [[l f]|]; [discriminate|]. auto.
Qed.

Lemma scan_false shape : forall fixed f, scan_wildcard shape false = Some (fixed, f) ->
  (f = false /\ fixed = shape /\ Forall (fun d => 0 <= d) shape) \/
  (f = true /\ exists a w b, shape = a ++ w :: b /\ w < 0 /\ fixed = a ++ -1 :: b /\
     Forall (fun d => 0 <= d) (a ++ b)).
Proof.
  induction shape as [|x rest IH]; simpl; intros fixed f H.
  - injection H as <- <-. auto.
  - destruct (Z.ltb_spec x 0).
    + destruct (scan_wildcard rest true) as [[l f']|] eqn:E; [|discriminate]. injection H as <- <-.
      apply scan_true in E as (-> & -> & HF). right. split; auto. exists [], x, rest. auto.
    + destruct (scan_wildcard rest false) as [[l f']|] eqn:E; [|discriminate]. injection H as <- <-.
      destruct (IH l f' eq_refl) as [(-> & -> & HF)|(-> & a & w & b & -> & Hw & -> & HF)]; [left; auto|].
      right. split; auto. exists (x :: a), w, b. split; [reflexivity|]. split; auto. split; [reflexivity|].
      simpl. auto.
Qed.

Lemma scan_false_none shape : scan_wildcard shape false = None <->
  (1 < length (filter (fun w => (w <? 0)%Z) shape))%nat.
Proof.
  assert (T : forall shape, (0 < length (filter (fun w => (w <? 0)%Z) shape))%nat -> scan_wildcard shape true = None).
  { clear. induction shape as [|x rest IH]; simpl; [lia|]. destruct (x <? 0); [auto|]. intros H. now rewrite IH. }
  split.
  - induction shape as [|x rest IH]; simpl; [discriminate|]. destruct (x <? 0) eqn:E; simpl.
    + destruct (scan_wildcard rest true) as [[l f]|] eqn:E'; [discriminate|].
      apply scan_true_none in E'. lia.
    + destruct (scan_wildcard rest false) as [[l f]|]; [discriminate|]. auto.
  - induction shape as [|x rest IH]; simpl; [lia|]. destruct (x <? 0) eqn:E; simpl.
    + intros H. rewrite T; auto. lia.
    + intros H. now rewrite IH.
Qed.

Lemma put_wildcard_app a b v : Forall (fun d => 0 <= d) a -> put_wildcard (a ++ -1 :: b) v = a ++ v :: b.
Proof.
  induction 1; simpl; auto. destruct (Z.ltb_spec x 0); [lia|]. now f_equal.
Qed.

Lemma fits_refl s : Forall (fun d => 0 <= d) s -> fits s s.
Proof. induction 1; constructor; auto. destruct (Z.ltb_spec x 0); lia. Qed.

Lemma fits_app a b s : fits (a ++ b) s -> exists s1 s2, s = s1 ++ s2 /\ fits a s1 /\ fits b s2.
Proof. intros H. apply Forall2_app_inv_l in H as (x & y & H1 & H2 & ->). exists x, y. auto. Qed.

Lemma fits_nonneg a s : Forall (fun d => 0 <= d) a -> fits a s -> s = a.
Proof.
  intros HF H. induction H; auto. inversion HF; subst. destruct (Z.ltb_spec x 0); [lia|]. subst. f_equal. auto.
Qed.

Lemma elements_mid a w b : elements (a ++ w :: b) = w * elements (a ++ b).
Proof. rewrite !elements_app. simpl. ring. Qed.

(** scan followed by fill, in one case analysis *)
Lemma reshape_ok_iff sizes shape s : positive_shape sizes ->
  (reshape sizes shape = SOk s <->
   one_wildcard shape /\ fits shape s /\ elements s = elements sizes).
Proof.
  intros Hp. pose proof (elements_pos _ Hp) as Hpos. unfold reshape, one_wildcard.
  destruct (scan_wildcard shape false) as [[fixed f]|] eqn:E.
  - assert (Hle : (length (filter (fun w => (w <? 0)%Z) shape) <= 1)%nat).
    { destruct (le_lt_dec (length (filter (fun w => (w <? 0)%Z) shape)) 1); auto.
      apply scan_false_none in l. congruence. }
    apply scan_false in E as [(-> & -> & HF)|(-> & a & w & b & -> & Hw & -> & HF)].
    + rewrite !prod_elements. split.
      * destruct (Z.eqb_spec (elements shape) (elements sizes)); [|discriminate].
        intros H. injection H as <-. split; auto. split; auto. now apply fits_refl.
      * intros (_ & Hf & He). apply fits_nonneg in Hf; auto. subst. now rewrite He, Z.eqb_refl.
    + rewrite !prod_elements, elements_mid.
      apply Forall_app in HF as HF'. destruct HF' as [HFa HFb].
      assert (Hk : 0 <= elements (a ++ b)) by now apply elements_nonneg.
      destruct (Z.eqb_spec (-1 * elements (a ++ b)) 0) as [Hz|Hz].
      * split; [discriminate|]. intros (_ & Hf & He).
        apply fits_app in Hf as (s1 & s2 & -> & F1 & F2).
        inversion F2 as [|? y ? s2' Hy F3]; subst. apply fits_nonneg in F1; auto. apply fits_nonneg in F3; auto. subst.
        rewrite elements_mid in He. nia.
      * rewrite put_wildcard_app by auto.
        replace (- (-1 * elements (a ++ b))) with (elements (a ++ b)) by ring.
        rewrite prod_elements, elements_mid.
        rewrite Z.quot_div_nonneg by lia.
        split.
        -- destruct (Z.eqb_spec (elements sizes / elements (a ++ b) * elements (a ++ b)) (elements sizes)); [|discriminate].
           intros H. injection H as <-. split; auto. split; [|now rewrite elements_mid].
           apply Forall2_app; [now apply fits_refl|]. constructor; [|now apply fits_refl].
           destruct (Z.ltb_spec w 0); [|lia]. apply Z.div_pos; lia.
        -- intros (_ & Hf & He).
           apply fits_app in Hf as (s1 & s2 & -> & F1 & F2).
           inversion F2 as [|? y ? s2' Hy F3]; subst. apply fits_nonneg in F1; auto. apply fits_nonneg in F3; auto. subst.
           rewrite elements_mid in He. rewrite <- He. rewrite Z.div_mul by lia.
           now rewrite Z.eqb_refl.
  - apply scan_false_none in E. split; [discriminate|]. intros (H & _). lia.
Qed.

(** Division by zero happens exactly with a wildcard and a zero. *)
Lemma reshape_undef_iff sizes shape : positive_shape sizes ->
  (reshape sizes shape = SUndef <->
   (length (filter (fun w => (w <? 0)%Z) shape) = 1)%nat /\ In 0 shape).
Proof.
  intros Hp. unfold reshape.
  destruct (scan_wildcard shape false) as [[fixed f]|] eqn:E.
  - apply scan_false in E as [(-> & -> & HF)|(-> & a & w & b & -> & Hw & -> & HF)].
    + split; [destruct (_ =? _); discriminate|]. intros [H _].
      assert (H0 : filter (fun w => (w <? 0)%Z) shape = []).
      { clear -HF. induction HF; simpl; auto. destruct (Z.ltb_spec x 0); [lia|auto]. }
      rewrite H0 in H. discriminate.
    + rewrite !prod_elements, elements_mid.
      assert (Hlen : length (filter (fun w => (w <? 0)%Z) (a ++ w :: b)) = 1%nat).
      { rewrite filter_app. simpl. destruct (Z.ltb_spec w 0); [|lia].
        assert (G : forall l, Forall (fun d => 0 <= d) l -> filter (fun w => (w <? 0)%Z) l = []).
        { induction 1; simpl; auto. destruct (Z.ltb_spec x 0); [lia|auto]. }
        apply Forall_app in HF as [Ha Hb]. now rewrite !G. }
      assert (Hin : In 0 (a ++ w :: b) <-> elements (a ++ b) = 0).
      { clear -Hw. assert (G : In 0 (a ++ b) <-> elements (a ++ b) = 0).
        { generalize (a ++ b). clear. induction l as [|x l IH]; simpl; [lia|].
          split; [intros [->|H]; [lia|apply IH in H; rewrite H; lia]|].
          intros H. apply Z.mul_eq_0 in H. tauto. }
        rewrite <- G, !in_app_iff. simpl. intuition lia. }
      destruct (Z.eqb_spec (-1 * elements (a ++ b)) 0).
      * split; auto. intros _. split; auto. apply Hin. lia.
      * split; [destruct (_ =? _); discriminate|]. intros [_ H]. apply Hin in H. lia.
  - apply scan_false_none in E. split; [discriminate|]. intros [H _]. lia.
Qed.

(** ** flatten *)
Lemma flatten_length sizes dim : length (flatten sizes dim) = S (Z.to_nat dim).
Proof.
  unfold flatten, flatten_shape.
  replace (Z.to_nat (if dim <? 0 then 0 else dim)) with (Z.to_nat dim)
    by (destruct (Z.ltb_spec dim 0); lia).
  destruct (Nat.ltb_spec (S (Z.to_nat dim)) (length sizes)).
  - rewrite removelast_firstn by lia. rewrite app_length, firstn_length. simpl. lia.
  - destruct (Nat.ltb_spec (length sizes) (S (Z.to_nat dim))).
    + rewrite app_length, repeat_length. lia.
    + lia.
Qed.

Lemma elements_ones n : elements (repeat 1 n) = 1.
Proof. induction n; auto. cbn [repeat elements]. rewrite IHn. reflexivity. Qed.

Lemma flatten_elements sizes dim : elements (flatten sizes dim) = elements sizes.
Proof.
  unfold flatten, flatten_shape. set (d := Z.to_nat _).
  destruct (Nat.ltb_spec (S d) (length sizes)).
  - rewrite removelast_firstn by lia.
    rewrite elements_app, prod_elements. simpl. rewrite Z.mul_1_r, <- elements_app. now rewrite firstn_skipn.
  - destruct (Nat.ltb_spec (length sizes) (S d)); auto.
    rewrite elements_app, elements_ones. lia.
Qed.

Lemma flatten_prefix sizes dim i : (i < Z.to_nat dim)%nat ->
  nth i (flatten sizes dim) 1 = nth i sizes 1.
Proof.
  intros Hi. unfold flatten, flatten_shape.
  replace (Z.to_nat (if dim <? 0 then 0 else dim)) with (Z.to_nat dim)
    by (destruct (Z.ltb_spec dim 0); lia).
  destruct (Nat.ltb_spec (S (Z.to_nat dim)) (length sizes)).
  - rewrite removelast_firstn by lia. rewrite app_nth1 by (rewrite firstn_length; lia).
    rewrite <- (firstn_skipn (Z.to_nat dim) sizes) at 2. rewrite app_nth1; auto. rewrite firstn_length. lia.
  - destruct (Nat.ltb_spec (length sizes) (S (Z.to_nat dim))); auto.
    destruct (le_lt_dec (length sizes) i).
    + rewrite app_nth2, nth_overflow with (l := sizes) by lia.
      assert (G : forall n k, nth k (repeat 1 n) 1 = 1) by (clear; induction n; destruct k; simpl; auto).
      apply G.
    + now rewrite app_nth1.
Qed.

(** ** HypeShape *)
Lemma weights_length s : length (weights s) = length s.
Proof.
  induction s as [|d rest IH]; auto. destruct rest as [|e rest]; auto.
  change (weights (d :: e :: rest)) with (match weights (e :: rest) with w :: ws => (w * d) :: w :: ws | [] => [d] end).
  destruct (weights (e :: rest)) as [|w ws] eqn:E; simpl in *; [discriminate|]. lia.
Qed.

Lemma weights_cons d rest : weights (d :: rest) = elements (d :: rest) :: weights rest.
Proof.
  revert d. induction rest as [|e rest IH]; intros d; [simpl; f_equal; lia|].
  change (weights (d :: e :: rest)) with (match weights (e :: rest) with w :: ws => (w * d) :: w :: ws | [] => [d] end).
  rewrite (IH e). f_equal. simpl. ring.
Qed.

Lemma weights_skipn k : forall s, skipn k (weights s) = weights (skipn k s).
Proof.
  induction k as [|k IH]; intros s; auto. destruct s as [|d rest]; auto.
  rewrite weights_cons. simpl. apply IH.
Qed.

Lemma to_index_loop_ok cs : forall ds acc, length ds = length cs -> cs <> [] ->
  to_index_loop (tl (weights ds)) cs acc = SOk (acc + position ds cs).
Proof.
  induction cs as [|c cs IH]; intros ds acc Hl Hn; [congruence|].
  destruct ds as [|d ds]; [discriminate|]. simpl in Hl.
  rewrite weights_cons. simpl tl. destruct cs as [|c' cs].
  - destruct ds; [|discriminate]. simpl. f_equal. lia.
  - destruct ds as [|d' ds]; [discriminate|].
    rewrite weights_cons. 
    change (to_index_loop (elements (d' :: ds) :: weights ds) (c :: c' :: cs) acc)
      with (to_index_loop (weights ds) (c' :: cs) (acc + elements (d' :: ds) * c)).
    specialize (IH (d' :: ds) (acc + elements (d' :: ds) * c)).
    rewrite weights_cons in IH. simpl tl in IH. rewrite IH; [|simpl in *; lia|discriminate].
    f_equal. cbn [position]. ring.
Qed.

(** A coordinate with fewer entries addresses the trailing axes. *)
Lemma to_index_ok ds cs : (length cs <= length ds)%nat ->
  to_index ds cs = SOk (position (skipn (length ds - length cs) ds) cs).
Proof.
  intros Hl. destruct cs as [|c cs].
  - simpl. now destruct (skipn _ ds).
  - unfold to_index. rewrite weights_length.
    destruct (Nat.ltb_spec (S (length ds)) (length (c :: cs))); [lia|].
    assert (E : (S (length ds) - length (c :: cs))%nat = S (length ds - length (c :: cs))) by (simpl in *; lia).
    rewrite E, weights_skipn.
    set (k := (length ds - length (c :: cs))%nat) in *.
    assert (Hd : length (skipn k ds) = length (c :: cs)) by (rewrite skipn_length; lia).
    replace (weights (skipn (S k) ds)) with (tl (weights (skipn k ds))).
    + rewrite to_index_loop_ok; [f_equal; lia|auto|discriminate].
    + destruct (skipn k ds) as [|d ds'] eqn:Ed; [discriminate|].
      rewrite weights_cons. simpl tl. f_equal.
      clearbody k. clear -Ed. revert ds Ed. induction k as [|k IH]; intros ds Ed.
      * simpl in Ed. subst. reflexivity.
      * destruct ds as [|x ds]; [discriminate|]. simpl in Ed. simpl. apply IH in Ed. simpl in Ed. exact Ed.
Qed.

Lemma position_bound ds cs : inside ds cs -> 0 <= position ds cs < elements ds.
Proof.
  induction 1 as [|d c ds cs Hc H IH]; simpl; [lia|]. nia.
Qed.

Lemma inside_positive ds cs : inside ds cs -> positive_shape ds.
Proof. induction 1; constructor; auto; lia. Qed.

Lemma position_inj ds : forall cs cs', inside ds cs -> inside ds cs' -> position ds cs = position ds cs' -> cs = cs'.
Proof.
  induction ds as [|d ds IH]; intros cs cs' H H' E; inversion H; inversion H'; subst; auto.
  simpl in E. pose proof (position_bound _ _ H4). pose proof (position_bound _ _ H9).
  assert (y = y0) by nia. subst. f_equal. apply IH; auto. lia.
Qed.

Lemma to_coordinate_loop_ok ds : forall d i, positive_shape (d :: ds) -> 0 <= i < elements (d :: ds) ->
  exists cs, to_coordinate_loop (weights ds) i = SOk cs /\ inside (d :: ds) cs /\ position (d :: ds) cs = i.
Proof.
  induction ds as [|e ds IH]; intros d i Hp Hi.
  - simpl in *. exists [i]. split; auto. split; [constructor; [lia|constructor]|lia].
  - rewrite weights_cons. inversion Hp as [|? ? Hd Hp']; subst.
    pose proof (elements_pos _ Hp') as He. cbn [to_coordinate_loop].
    destruct (Z.eqb_spec (elements (e :: ds)) 0); [lia|].
    change (elements (d :: e :: ds)) with (d * elements (e :: ds)) in Hi.
    rewrite Z.rem_mod_nonneg by lia. rewrite Z.quot_div_nonneg by lia.
    destruct (IH e (i mod elements (e :: ds)) Hp' (Z.mod_pos_bound _ _ He)) as (cs & E & Hin & Hpos).
    rewrite E. exists (i / elements (e :: ds) :: cs). split; auto. split.
    + constructor; auto. split; [apply Z.div_pos; lia|]. apply Z.div_lt_upper_bound; lia.
    + change (position (d :: e :: ds) (i / elements (e :: ds) :: cs))
        with (i / elements (e :: ds) * elements (e :: ds) + position (e :: ds) cs).
      rewrite Hpos. rewrite Z.mul_comm. symmetry. apply Z.div_mod. lia.
Qed.

Lemma to_coordinate_ok ds i : positive_shape ds -> 0 <= i < elements ds ->
  exists cs, to_coordinate ds i = SOk cs /\ inside ds cs /\ position ds cs = i.
Proof.
  intros Hp Hi. destruct ds as [|d ds].
  - simpl in *. exists []. split; auto. split; [constructor|lia].
  - unfold to_coordinate. rewrite weights_cons. simpl tl. now apply to_coordinate_loop_ok.
Qed.

Lemma hype_count_ok ds : hype_count ds = elements ds.
Proof. unfold hype_count. destruct ds as [|d ds]; auto. now rewrite weights_cons. Qed.

(** ** ShapeIterator: little-endian positions on the reversed lists *)
Fixpoint le (ds cs : list Z) : Z :=
  match ds, cs with d :: ds', c :: cs' => c + d * le ds' cs' | _, _ => 0 end.

Lemma inside_app a b x y : inside a x -> inside b y -> inside (a ++ b) (x ++ y).
Proof. apply Forall2_app. Qed.

Lemma le_snoc ds cs d c : length ds = length cs ->
  le (ds ++ [d]) (cs ++ [c]) = le ds cs + elements ds * c.
Proof.
  revert cs. induction ds as [|e ds IH]; intros [|x cs] Hl; try discriminate.
  - cbn [le app elements]. lia.
  - cbn [le app elements]. rewrite IH by (simpl in Hl; lia). ring.
Qed.

Lemma elements_rev ds : elements (rev ds) = elements ds.
Proof. induction ds; simpl; auto. rewrite elements_app. simpl. rewrite IHds. ring. Qed.

Lemma position_le ds cs : length ds = length cs -> position ds cs = le (rev ds) (rev cs).
Proof.
  revert cs. induction ds as [|d ds IH]; intros [|c cs] Hl; try discriminate; auto.
  simpl. rewrite le_snoc by (rewrite !rev_length; simpl in Hl; lia).
  rewrite elements_rev, IH by (simpl in Hl; lia). ring.
Qed.

Lemma inside_rev ds cs : inside ds cs -> inside (rev ds) (rev cs).
Proof.
  induction 1; simpl; [constructor|]. apply inside_app; auto. constructor; auto.
Qed.

Lemma inside_rev_iff ds cs : inside (rev ds) (rev cs) -> inside ds cs.
Proof. intros H. rewrite <- (rev_involutive ds), <- (rev_involutive cs). now apply inside_rev. Qed.

Lemma inside_length ds cs : inside ds cs -> length ds = length cs.
Proof. induction 1; simpl; auto. Qed.

Lemma le_bound ds cs : inside ds cs -> 0 <= le ds cs < elements ds.
Proof. induction 1 as [|d c ds cs Hc H IH]; simpl; [lia|]. nia. Qed.

Lemma increase_rev_ok ds cs : inside ds cs ->
  inside ds (increase_rev ds cs) /\
  le ds (increase_rev ds cs) = (if le ds cs + 1 =? elements ds then 0 else le ds cs + 1).
Proof.
  induction 1 as [|d c ds cs Hc H IH].
  - simpl. split; [constructor|reflexivity].
  - destruct IH as [I1 I2]. pose proof (le_bound _ _ H) as B. simpl.
    destruct (Z.eqb_spec (c + 1) d) as [E|E].
    + split; [constructor; auto; lia|]. simpl. rewrite I2.
      destruct (Z.eqb_spec (le ds cs + 1) (elements ds)); destruct (Z.eqb_spec (c + d * le ds cs + 1) (d * elements ds)); nia.
    + split; [constructor; auto; lia|]. simpl.
      destruct (Z.eqb_spec (c + d * le ds cs + 1) (d * elements ds)); [nia|lia].
Qed.

Lemma increase_ok ds cs : inside ds cs ->
  inside ds (increase ds cs) /\ position ds (increase ds cs) = (position ds cs + 1) mod elements ds.
Proof.
  intros H. destruct (increase_rev_ok _ _ (inside_rev _ _ H)) as [I1 I2]. unfold increase.
  assert (Hin : inside ds (rev (increase_rev (rev ds) (rev cs)))).
  { apply inside_rev_iff. now rewrite rev_involutive. }
  split; auto.
  rewrite (position_le ds (rev _)) by now apply inside_length.
  rewrite rev_involutive, I2, <- position_le, elements_rev by now apply inside_length.
  pose proof (position_bound _ _ H) as B.
  destruct (Z.eqb_spec (position ds cs + 1) (elements ds)) as [->|]; [now rewrite Z.mod_same by lia|].
  rewrite Z.mod_small; lia.
Qed.

Lemma decrease_rev_ok ds cs : inside ds cs ->
  inside ds (decrease_rev ds cs) /\
  le ds (decrease_rev ds cs) = (if le ds cs =? 0 then elements ds - 1 else le ds cs - 1).
Proof.
  induction 1 as [|d c ds cs Hc H IH].
  - simpl. split; [constructor|reflexivity].
  - destruct IH as [I1 I2]. pose proof (le_bound _ _ H) as B. simpl.
    destruct (Z.ltb_spec (c - 1) 0) as [E|E].
    + assert (c = 0) by lia. subst. split; [constructor; auto; lia|]. simpl. rewrite I2.
      destruct (Z.eqb_spec (le ds cs) 0); destruct (Z.eqb_spec (d * le ds cs) 0); nia.
    + split; [constructor; auto; lia|]. simpl.
      destruct (Z.eqb_spec (c + d * le ds cs) 0); [nia|lia].
Qed.

Lemma decrease_ok ds cs : inside ds cs ->
  inside ds (decrease ds cs) /\ position ds (decrease ds cs) = (position ds cs - 1) mod elements ds.
Proof.
  intros H. destruct (decrease_rev_ok _ _ (inside_rev _ _ H)) as [I1 I2]. unfold decrease.
  assert (Hin : inside ds (rev (decrease_rev (rev ds) (rev cs)))).
  { apply inside_rev_iff. now rewrite rev_involutive. }
  split; auto.
  rewrite (position_le ds (rev _)) by now apply inside_length.
  rewrite rev_involutive, I2, <- position_le, elements_rev by now apply inside_length.
  pose proof (position_bound _ _ H) as B.
  destruct (Z.eqb_spec (position ds cs) 0) as [->|].
  - symmetry. replace (0 - 1) with (elements ds - 1 + (-1) * elements ds) by ring.
    rewrite Z.mod_add by lia. apply Z.mod_small. lia.
  - rewrite Z.mod_small; lia.
Qed.

Lemma increase_decrease ds cs : inside ds cs -> decrease ds (increase ds cs) = cs /\ increase ds (decrease ds cs) = cs.
Proof.
  intros H. pose proof (position_bound _ _ H) as B.
  destruct (increase_ok _ _ H) as [I1 P1]. destruct (decrease_ok _ _ H) as [I2 P2].
  destruct (decrease_ok _ _ I1) as [I3 P3]. destruct (increase_ok _ _ I2) as [I4 P4].
  split; apply (position_inj ds); auto.
  - rewrite P3, P1, Zminus_mod_idemp_l. replace (position ds cs + 1 - 1) with (position ds cs) by ring.
    apply Z.mod_small. lia.
  - rewrite P4, P2, Zplus_mod_idemp_l. replace (position ds cs - 1 + 1) with (position ds cs) by ring.
    apply Z.mod_small. lia.
Qed.

Lemma start_ok ds : positive_shape ds -> inside ds (start ds) /\ position ds (start ds) = 0.
Proof.
  unfold start. induction 1 as [|d ds Hd H [I P]]; simpl; [split; [constructor|auto]|].
  split; [constructor; auto; lia|]. rewrite P. lia.
Qed.

Lemma iterate_ok ds k : positive_shape ds ->
  inside ds (times k (increase ds) (start ds)) /\
  position ds (times k (increase ds) (start ds)) = Z.of_nat k mod elements ds.
Proof.
  intros Hp. pose proof (elements_pos _ Hp) as He. destruct (start_ok ds Hp) as [I P].
  induction k as [|k [IH1 IH2]].
  - simpl times. split; auto; rewrite P; now rewrite Z.mod_0_l by lia.
  - simpl times. destruct (increase_ok _ _ IH1) as [I1 P1]. split; auto.
    rewrite P1, IH2, Zplus_mod_idemp_l. f_equal. lia.
Qed.

Lemma iterate_wraps ds : positive_shape ds -> times (Z.to_nat (elements ds)) (increase ds) (start ds) = start ds.
Proof.
  intros Hp. pose proof (elements_pos _ Hp) as He. destruct (start_ok ds Hp) as [I P].
  destruct (iterate_ok ds (Z.to_nat (elements ds)) Hp) as [I1 P1].
  apply (position_inj ds); auto. rewrite P1, P. rewrite Z2Nat.id by lia. apply Z.mod_same. lia.
Qed.

(** ** slice *)
Lemma slice_ok {A} (sizes : list Z) (data : list A) n rest b e :
  sizes = n :: rest -> positive_shape sizes -> Z.of_nat (length data) = elements sizes ->
  0 <= b < e -> e <= n ->
  exists part, slice sizes data b e = SOk ((e - b) :: rest, part) /\
    Z.of_nat (length part) = elements ((e - b) :: rest) /\
    forall i, (i < length part)%nat ->
      nth_error part i = nth_error data (Z.to_nat (b * elements rest) + i).
Proof.
  intros -> Hp Hl Hb He. inversion Hp as [|? ? Hn Hr]; subst. pose proof (elements_pos _ Hr) as Hw.
  unfold slice. destruct (Z.ltb_spec b e); [|lia]. cbn [negb].
  rewrite prod_elements.
  change (elements (n :: rest)) with (n * elements rest) in Hl.
  destruct (Z.ltb_spec (b * elements rest) 0); [nia|].
  destruct (Z.ltb_spec ((e - b) * elements rest) 0); [nia|].
  destruct (Z.ltb_spec (Z.of_nat (length data)) (b * elements rest + (e - b) * elements rest)); [nia|].
  eexists. split; [reflexivity|].
  assert (Hlen : length (firstn (Z.to_nat ((e - b) * elements rest)) (skipn (Z.to_nat (b * elements rest)) data))
                 = Z.to_nat ((e - b) * elements rest)).
  { rewrite firstn_length, skipn_length. nia. }
  split.
  - rewrite Hlen. change (elements (e - b :: rest)) with ((e - b) * elements rest). lia.
  - intros i Hi. rewrite Hlen in Hi.
    rewrite <- (firstn_skipn (Z.to_nat (b * elements rest)) data) at 2.
    rewrite nth_error_app2 by (rewrite firstn_length; lia).
    replace (Z.to_nat (b * elements rest) + i - length (firstn (Z.to_nat (b * elements rest)) data))%nat with i
      by (rewrite firstn_length; nia).
    rewrite <- (firstn_skipn (Z.to_nat ((e - b) * elements rest)) (skipn (Z.to_nat (b * elements rest)) data)) at 2.
    rewrite nth_error_app1; auto. rewrite Hlen. auto.
Qed.

(** ** has_shape *)
Lemma has_shape_iff sizes : Forall (fun d => 0 <= d) sizes -> forall shape, has_shape sizes shape = true <-> fits shape sizes.
Proof.
  intros HF. induction HF as [|d ds Hd HF IH]; intros [|x shape]; simpl; try (split; [discriminate|intros H; inversion H]).
  - split; auto. constructor.
  - rewrite andb_true_iff, IH. split.
    + intros [H1 H2]. constructor; auto. destruct (Z.leb_spec 0 x); destruct (Z.ltb_spec x 0); try lia; try (now apply Z.eqb_eq in H1).
    + intros H. inversion H; subst. split; auto.
      destruct (Z.leb_spec 0 x); destruct (Z.ltb_spec x 0); try lia; auto; try (now apply Z.eqb_eq).
Qed.
