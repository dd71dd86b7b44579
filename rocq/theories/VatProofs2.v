(** Histories of the pooled allocator, and the order of its idle list. *)
From Coq Require Import ZArith List Bool Arith Lia Permutation Sorted.
From Verif Require Import VatModel VatSpec VatProofs.
Import ListNotations.
Local Open Scope Z_scope.

(** *** The ledger *)
Definition entry (kp : Z * pot) : region := (fst kp, used (snd kp)).
Definition led_ok (w : world) (led : list region) : Prop :=
  Permutation (map entry (dict (pool w))) led /\
  forall k p, In (k, p) (dict (pool w)) -> 0 < used p <= cap p.

Definition next_ledger (led : list region) (o : op) (a : reply) : list region :=
  match o, a with
  | Malloc n _, Ptr p => if n =? 0 then led else (p, n) :: led
  | Free p, Done => filter (fun b => negb (fst b =? p)) led
  | Reset, _ | Dispose, _ => []
  | _, _ => led
  end.

Lemma filter_perm {A} (f : A -> bool) l l' : Permutation l l' -> Permutation (filter f l) (filter f l').
Proof.
  induction 1 as [|x l l' _ IH|x y l|l1 l2 l3 _ IH1 _ IH2]; cbn [filter].
  - constructor.
  - destruct (f x); [now constructor|exact IH].
  - destruct (f x), (f y); try reflexivity. apply perm_swap.
  - now rewrite IH1.
Qed.
Lemma filter_all {A} (f : A -> bool) l : (forall x, In x l -> f x = true) -> filter f l = l.
Proof.
  induction l as [|x l IH]; intros H; [reflexivity|]. cbn. rewrite H by now left. f_equal. apply IH. intros y Hy.
  apply H. now right.
Qed.

Lemma dict_pots v k p : In (k, p) (dict v) -> In p (pots v).
Proof. intros H. apply in_or_app. right. change p with (snd (k, p)). now apply in_map. Qed.

Lemma erased_keys w ptr p k q : inv w -> lookup (dict (pool w)) ptr = Some p ->
  In (k, q) (erase (dict (pool w)) ptr) -> k <> ptr.
Proof.
  intros I E Hin Ek. pose proof (erase_perm _ _ _ E) as P.
  pose proof (inv_nodup w I) as N. unfold pots in N. rewrite map_app in N. apply nodup_app_r in N.
  apply (Permutation_NoDup (Permutation_map region_of (Permutation_map snd P))) in N. cbn [map snd] in N.
  inversion N as [|? ? Hno _]; subst.
  assert (Hq : In (ptr, q) (dict (pool w))) by (apply (Permutation_in _ (Permutation_sym P)); now right).
  assert (p = q).
  { apply (inv_data w); auto.
    - eapply dict_pots, lookup_in, E.
    - eapply dict_pots, Hq.
    - rewrite <- (i_keys w I _ _ Hq). symmetry. apply (i_keys w I _ _ (lookup_in _ _ _ E)). }
  subst q. apply Hno. apply in_map. change p with (snd (ptr, p)). now apply in_map.
Qed.

Lemma step_spec w led o : inv w -> led_ok w led -> asks w o ->
  exists a w', step w o = Some (a, w') /\ inv w' /\ led_ok w' (next_ledger led o a).
Proof.
  intros I [L1 L2] Ho. destruct o as [size sys|ptr| | | |].
  - destruct (Z.eqb_spec size 0) as [->|Hn].
    { exists (Ptr 0), w. split; [reflexivity|]. split; [exact I|]. split; assumption. }
    destruct (malloc_spec w size sys I Ho Hn) as (a & w' & E & I' & C & _). exists a, w'.
    split; [exact E|]. split; [exact I'|].
    destruct C as [(-> & D)|(p & -> & Hu & Hc & D)]; unfold led_ok, next_ledger; rewrite D.
    + split; assumption.
    + destruct (Z.eqb_spec size 0); [contradiction|]. cbn [map]. split.
      * unfold entry at 1. cbn [fst snd]. rewrite Hu. now constructor.
      * intros k q [Hq|Hq]; [|now apply L2 in Hq]. assert (q = p) by congruence. subst q.
        destruct Ho as [Hs _]. lia.
  - cbn [step next_ledger]. destruct (Z.eqb_spec ptr 0) as [->|Hp].
    { exists Done, w. split; [reflexivity|]. split; [exact I|]. split; [|exact L2].
      rewrite filter_all; [exact L1|]. intros [k n] Hin. cbn [fst].
      apply (Permutation_in _ (Permutation_sym L1)) in Hin. apply in_map_iff in Hin.
      destruct Hin as ([k' q] & E & Hq). unfold entry in E. cbn [fst snd] in E.
      assert (k' = k) by congruence. subst k'.
      rewrite (i_keys w I _ _ Hq). destruct (i_pos w I q (dict_pots _ _ _ Hq)).
      destruct (Z.eqb_spec (data q) 0); [lia|reflexivity]. }
    destruct (lookup (dict (pool w)) ptr) as [p|] eqn:E.
    2: { exists Throw, w. split; [reflexivity|]. split; [exact I|]. split; assumption. }
    assert (LL : forall h d l', led_ok (mkWorld (mkVat h (erase (dict (pool w)) ptr) d) l')
                   (filter (fun b => negb (fst b =? ptr)) led)).
    { intros h d l'. pose proof (erase_perm _ _ _ E) as P. split; cbn [pool dict].
      - rewrite <- (filter_perm _ _ _ L1). rewrite (filter_perm _ _ _ (Permutation_map entry P)).
        cbn [map filter]. unfold entry at 2. cbn [fst snd]. rewrite Z.eqb_refl. cbn [negb].
        rewrite filter_all; [reflexivity|]. intros [k n] Hin. apply in_map_iff in Hin.
        destruct Hin as ([k' q] & Ek & Hq). unfold entry in Ek. cbn [fst snd] in *.
        assert (k' = k) by congruence. subst k'.
        pose proof (erased_keys w ptr p k q I E Hq). destruct (Z.eqb_spec k ptr); [contradiction|reflexivity].
      - intros k q Hq. apply (L2 k). apply (Permutation_in _ (Permutation_sym P)). now right. }
    assert (Hk : forall k q, In (k, q) (erase (dict (pool w)) ptr) -> k = data q).
    { intros k q Hq. apply (i_keys w I). apply (Permutation_in _ (Permutation_sym (erase_perm _ _ _ E))). now right. }
    destruct (is_deprecated (pool w)) eqn:D.
    + destruct (rearrange w Done (mkVat (heap (pool w)) (erase (dict (pool w)) ptr) true) I) as (l' & F & I' & _).
      * unfold pots. cbn [heap dict]. pose proof (inv_nodup w I) as N. unfold pots in N.
        apply (Permutation_NoDup (l' := map region_of (p :: heap (pool w) ++ map snd (erase (dict (pool w)) ptr)))) in N.
        -- cbn [map] in N. inversion N; auto.
        -- apply Permutation_map. rewrite (Permutation_map snd (erase_perm _ _ _ E)). cbn [map snd].
           symmetry. apply Permutation_middle.
      * unfold pots. cbn [heap dict]. intros x Hx. apply in_app_or in Hx. apply in_or_app.
        destruct Hx as [Hx|Hx]; [now left|right]. 
        apply (Permutation_in _ (Permutation_map snd (Permutation_sym (erase_perm _ _ _ E)))). now right.
      * exact Hk.
      * exists Done, (mkWorld (mkVat (heap (pool w)) (erase (dict (pool w)) ptr) true) l').
        split; [exact F|]. split; [exact I'|apply LL].
    + assert (G : exists i, binary_find (heap (pool w)) (cap p) = Some i /\ 0 <= i <= Z.of_nat (length (heap (pool w)))).
      { destruct (heap (pool w)) as [|q t] eqn:Eh; [exists 0; split; [reflexivity|cbn; lia]|].
        destruct (binary_find_range (q :: t) (cap p)) as (i & Ei & Hi); [discriminate|]. exists i. split; [exact Ei|lia]. }
      destruct G as (i & -> & Hi). destruct (Z.ltb_spec i 0); [lia|]. cbn [orb].
      destruct (Z.ltb_spec (Z.of_nat (length (heap (pool w)))) i); [lia|].
      pose proof (free_perm w ptr p false (Z.to_nat i) E) as P.
      destruct (rearrange w Done (mkVat (insert_at (heap (pool w)) (Z.to_nat i) p) (erase (dict (pool w)) ptr) false) I)
        as (l' & F & I' & _).
      * apply (nodup_perm w); [exact I|exact P].
      * intros x Hx. exact (Permutation_in _ P Hx).
      * exact Hk.
      * exists Done. eexists. split; [exact F|]. split; [exact I'|apply LL].
  - cbn [step next_ledger]. 
    destruct (rearrange w Done (mkVat (sort_pots (heap (pool w) ++ map snd (dict (pool w)))) [] (is_deprecated (pool w))) I)
      as (l' & F & I' & _).
    + apply (nodup_perm w); [exact I|]. unfold pots. cbn [heap dict map]. rewrite app_nil_r. apply sort_pots_perm.
    + unfold pots. cbn [heap dict map]. rewrite app_nil_r. intros x Hx. exact (Permutation_in _ (sort_pots_perm _) Hx).
    + intros k p [].
    + exists Done. eexists. split; [exact F|]. split; [exact I'|]. split; [constructor|intros k p []].
  - cbn [step next_ledger]. 
    destruct (rearrange w Done (mkVat [] [] (is_deprecated (pool w))) I) as (l' & F & I' & _).
    + constructor.
    + intros x [].
    + intros k p [].
    + exists Done. eexists. split; [exact F|]. split; [exact I'|]. split; [constructor|intros k p []].
  - cbn [step next_ledger]. 
    destruct (rearrange w Done (mkVat [] (dict (pool w)) (is_deprecated (pool w))) I) as (l' & F & I' & _).
    + pose proof (inv_nodup w I) as N. unfold pots in N |- *. cbn [heap dict app]. rewrite map_app in N. now apply nodup_app_r in N.
    + unfold pots. cbn [heap dict app]. intros x Hx. apply in_or_app. now right.
    + exact (i_keys w I).
    + exists Done. eexists. split; [exact F|]. split; [exact I'|]. split; assumption.
  - cbn [step next_ledger]. 
    destruct (rearrange w Done (mkVat [] (dict (pool w)) true) I) as (l' & F & I' & _).
    + pose proof (inv_nodup w I) as N. unfold pots in N |- *. cbn [heap dict app]. rewrite map_app in N. now apply nodup_app_r in N.
    + unfold pots. cbn [heap dict app]. intros x Hx. apply in_or_app. now right.
    + exact (i_keys w I).
    + exists Done. eexists. split; [exact F|]. split; [exact I'|]. split; assumption.
Qed.

Lemma outstanding_next o os a as_ led : outstanding (o :: os) (a :: as_) led = outstanding os as_ (next_ledger led o a).
Proof. reflexivity. Qed.

Lemma steps_spec ops : forall w led, inv w -> led_ok w led -> admissible w ops ->
  exists replies w', steps w ops = Some (replies, w') /\ inv w' /\ led_ok w' (outstanding ops replies led).
Proof.
  induction ops as [|o ops IH]; intros w led I L A.
  - exists [], w. split; [reflexivity|]. split; assumption.
  - destruct A as [A1 A2]. destruct (step_spec w led o I L A1) as (a & w1 & E & I1 & L1).
    rewrite E in A2. destruct (IH w1 _ I1 L1 A2) as (rs & w2 & E2 & I2 & L2).
    exists (a :: rs), w2. cbn [steps]. rewrite E, E2. split; [reflexivity|]. split; [exact I2|].
    rewrite outstanding_next. exact L2.
Qed.

Lemma new_inv : inv new_world.
Proof. split; cbn; try constructor; intros; contradiction. Qed.
Lemma new_led : led_ok new_world [].
Proof. split; [constructor|intros k p []]. Qed.

(** consequences *)
Lemma led_live w led b : inv w -> led_ok w led -> In b led ->
  exists r, In r (live w) /\ fst r = fst b /\ 0 < snd b <= snd r.
Proof.
  intros I [L1 L2] H. apply (Permutation_in _ (Permutation_sym L1)) in H. apply in_map_iff in H.
  destruct H as ([k p] & <- & Hp). exists (region_of p). split; [apply inv_in; eauto using dict_pots|].
  cbn. split; [symmetry; apply (i_keys w I _ _ Hp)|apply (L2 _ _ Hp)].
Qed.

Lemma led_nodup w led : inv w -> led_ok w led -> NoDup (map fst led).
Proof.
  intros I [L1 L2]. apply (Permutation_NoDup (Permutation_map fst L1)). rewrite map_map.
  pose proof (inv_nodup w I) as N. unfold pots in N. rewrite map_app in N. apply nodup_app_r in N.
  assert (Hd : forall k p, In (k, p) (dict (pool w)) -> k = data p /\ In p (pots (pool w))).
  { intros k p H. split; [apply (i_keys w I _ _ H)|eapply dict_pots; eauto]. }
  revert N Hd. generalize (dict (pool w)). intros d N Hd. induction d as [|[k p] d IH]; cbn; [constructor|].
  cbn in N. inversion N as [|? ? Hno N']; subst. constructor.
  - intros Hin. apply in_map_iff in Hin. destruct Hin as ([k' q] & Ek & Hq). cbn in Ek. subst k'.
    destruct (Hd k p) as [E1 P1]; [now left|]. destruct (Hd k q) as [E2 P2]; [now right|].
    assert (p = q) by (apply (inv_data w); auto; congruence). subst q. apply Hno.
    apply in_map. change p with (snd (k, p)). now apply in_map.
  - apply IH; [exact N'|]. intros k' q Hq. apply Hd. now right.
Qed.

Lemma led_disjoint w led b1 b2 : inv w -> led_ok w led -> In b1 led -> In b2 led -> fst b1 <> fst b2 -> disjoint b1 b2.
Proof.
  intros I L H1 H2 Hne. destruct (led_live w led b1 I L H1) as (r1 & R1 & E1 & B1).
  destruct (led_live w led b2 I L H2) as (r2 & R2 & E2 & B2).
  destruct (i_disj w I r1 r2 R1 R2) as [->|D]; [congruence|]. unfold disjoint in *. lia.
Qed.

Lemma total_perm l l' : Permutation l l' -> total l = total l'.
Proof. induction 1; cbn; lia. Qed.
Lemma summary_total w : inv w -> summary (pool w) = total (live w).
Proof.
  intros I. rewrite <- (total_perm _ _ (i_perm w I)). unfold summary, pots.
  assert (G : forall l, total (map region_of l) = fold_right (fun p s => cap p + s) 0 l).
  { induction l as [|p l IH]; cbn; [reflexivity|]. unfold region_of in *. lia. }
  rewrite G, fold_right_app.
  assert (G2 : forall d : list (Z * pot), fold_right (fun p s => cap p + s) 0 (map snd d)
               = fold_right (fun p s => cap (snd p) + s) 0 d).
  { induction d as [|p d IH]; cbn; [reflexivity|lia]. }
  rewrite G2. generalize (fold_right (fun p s => cap (snd p) + s) 0 (dict (pool w))). intros z.
  induction (heap (pool w)) as [|p h IH]; cbn [fold_right]; lia.
Qed.

(** *** Order *)
Definition asc (l : list pot) : Prop := StronglySorted (fun a b => cap a <= cap b) l.
Definition near (h : list pot) : Prop := asc (removelast h).

Lemma asc_app a b : asc (a ++ b) <-> asc a /\ asc b /\ (forall x y, In x a -> In y b -> cap x <= cap y).
Proof.
  unfold asc. induction a as [|x a IH]; cbn [app].
  - split; [intros H; split; [constructor|split; [exact H|intros ? ? []]]|tauto].
  - split.
    + intros H. inversion H as [|? ? Hs Hf]; subst. apply IH in Hs. destruct Hs as (Ha & Hb & Hab).
      apply Forall_app in Hf. destruct Hf as [Fa Fb]. split; [now constructor|]. split; [exact Hb|].
      intros y z [<-|Hy] Hz; [rewrite Forall_forall in Fb; auto|auto].
    + intros (H & Hb & Hab). inversion H as [|? ? Ha Fa]; subst. constructor.
      * apply IH. split; [exact Ha|]. split; [exact Hb|]. intros y z Hy Hz. apply Hab; [now right|exact Hz].
      * apply Forall_app. split; [exact Fa|]. apply Forall_forall. intros z Hz. apply Hab; [now left|exact Hz].
Qed.

Lemma asc_nth l : asc l -> forall i j a b, (i <= j)%nat -> nth_error l i = Some a -> nth_error l j = Some b -> cap a <= cap b.
Proof.
  induction 1 as [|x l Hs IH Hf]; intros i j a b Hij Ha Hb; [destruct i; discriminate|].
  destruct i as [|i], j as [|j]; cbn in Ha, Hb; try lia.
  - assert (a = b) by congruence. subst. lia.
  - injection Ha as <-. apply nth_error_In in Hb. rewrite Forall_forall in Hf. auto.
  - apply (IH i j); auto. lia.
Qed.

Lemma removelast_nth (h : list pot) i p : nth_error h i = Some p -> (S i < length h)%nat -> nth_error (removelast h) i = Some p.
Proof.
  revert i. induction h as [|q h IH]; intros i H L; [destruct i; discriminate|].
  destruct h as [|q2 h]; [cbn in L; lia|]. change (removelast (q :: q2 :: h)) with (q :: removelast (q2 :: h)).
  destruct i as [|i]; [exact H|]. apply IH; [exact H|cbn in *; lia].
Qed.

Lemma bfind_near h size : near h -> forall fuel left right i,
  0 <= left <= right -> right < Z.of_nat (length h) ->
  (forall j p, (j < Z.to_nat left)%nat -> nth_error h j = Some p -> cap p < size) ->
  (right = Z.of_nat (length h) - 1 \/ exists p, nth_error h (Z.to_nat right) = Some p /\ size <= cap p) ->
  bfind fuel h size left right = Some i ->
  0 <= i < Z.of_nat (length h) /\
  (forall j p, (j < Z.to_nat i)%nat -> nth_error h j = Some p -> cap p < size) /\
  (i = Z.of_nat (length h) - 1 \/ exists p, nth_error h (Z.to_nat i) = Some p /\ size <= cap p).
Proof.
  intros N. induction fuel as [|k IH]; intros left right i Hl Hr A B H; [discriminate|]. cbn [bfind] in H.
  destruct (Z.leb_spec (right - left) 0) as [H0|H0].
  { assert (i = left) by congruence. subst i. assert (right = left) by lia. subst right. split; [lia|]. auto. }
  set (m := (left + right) / 2) in *.
  assert (Hm : left <= m < right) by (unfold m; Z.to_euclidean_division_equations; lia).
  destruct (cap_at_some h m) as (p & Hp & Ec); [lia|]. rewrite Ec in H.
  destruct (Z.ltb_spec (cap p) size) as [Hs|Hs].
  - apply (IH (m + 1) right); [lia|lia| |exact B|exact H].
    intros j q Hj Hq. apply Z.le_lt_trans with (cap p); [|exact Hs].
    apply (asc_nth _ N j (Z.to_nat m)); [lia| |]; apply removelast_nth; auto; lia.
  - destruct (Z.ltb_spec 0 m) as [Hm0|Hm0].
    + destruct (cap_at_some h (m - 1)) as (p' & Hp' & Ec'); [lia|]. rewrite Ec' in H.
      rewrite Z.geb_leb in H. destruct (Z.leb_spec size (cap p')) as [Hs'|Hs'].
      * assert (left <= m - 1).
        { destruct (Z.le_gt_cases left (m - 1)); [assumption|]. exfalso.
          assert (cap p' < size); [|lia]. apply (A (Z.to_nat (m - 1))); [lia|exact Hp']. }
        apply (IH left (m - 1)); [lia|lia|exact A| |exact H]. right. exists p'. auto.
      * assert (i = m) by congruence. subst i. split; [lia|]. split; [|right; exists p; auto].
        intros j q Hj Hq. apply Z.le_lt_trans with (cap p'); [|exact Hs'].
        apply (asc_nth _ N j (Z.to_nat (m - 1))); [lia| |]; apply removelast_nth; auto; lia.
    + assert (i = m) by congruence. subst i. split; [lia|]. split; [|right; exists p; auto]. intros j q Hj. lia.
Qed.

Lemma binary_find_near h size i : near h -> h <> [] -> binary_find h size = Some i ->
  0 <= i < Z.of_nat (length h) /\
  (forall j p, (j < Z.to_nat i)%nat -> nth_error h j = Some p -> cap p < size) /\
  (i = Z.of_nat (length h) - 1 \/ exists p, nth_error h (Z.to_nat i) = Some p /\ size <= cap p).
Proof.
  intros N Hne H. assert (length h <> 0%nat) by (destruct h; [congruence|discriminate]).
  apply (bfind_near h size N _ _ _ _) in H; auto; try lia.
Qed.

Lemma snoc_cases (h : list pot) : h = [] \/ exists l x, h = l ++ [x].
Proof. destruct h as [|p h] using rev_ind; [now left|right; eauto]. Qed.

Lemma removelast_snoc {A} (l : list A) x : removelast (l ++ [x]) = l.
Proof. rewrite removelast_app by discriminate. cbn. apply app_nil_r. Qed.

Lemma asc_sub a p b : asc (a ++ p :: b) -> asc (a ++ b).
Proof.
  rewrite !asc_app. intros (H1 & H2 & H3). inversion H2; subst. split; [exact H1|]. split; [assumption|].
  intros x y Hx Hy. apply H3; [exact Hx|now right].
Qed.

Lemma near_remove h i p : near h -> nth_error h i = Some p -> near (remove_at h i).
Proof.
  intros N H. destruct (snoc_cases h) as [->|(l & x & ->)]; [destruct i; discriminate|].
  unfold near in *. rewrite removelast_snoc in N.
  destruct (Nat.lt_ge_cases i (length l)) as [Hi|Hi].
  - assert (E : remove_at (l ++ [x]) i = remove_at l i ++ [x]).
    { unfold remove_at. rewrite firstn_app, skipn_app. replace (i - length l)%nat with 0%nat by lia.
      replace (S i - length l)%nat with 0%nat by lia. cbn [firstn skipn]. rewrite app_nil_r, app_assoc. reflexivity. }
    rewrite E, removelast_snoc. rewrite nth_error_app1 in H by exact Hi.
    destruct (nth_error_split l i H) as (l1 & l2 & -> & Hl). unfold remove_at.
    rewrite firstn_app, skipn_app, Hl, Nat.sub_diag. rewrite firstn_all2 by lia. rewrite skipn_all2 by lia.
    replace (S i - i)%nat with 1%nat by lia. cbn [firstn skipn app]. rewrite app_nil_r. eapply asc_sub, N.
  - assert (i = length l).
    { assert (i < length (l ++ [x]))%nat by (apply nth_error_Some; congruence). rewrite app_length in *. cbn in *. lia. }
    subst i. unfold remove_at. rewrite firstn_app, Nat.sub_diag, firstn_O, app_nil_r, firstn_all.
    rewrite skipn_all2 by (rewrite app_length; cbn; lia). rewrite app_nil_r.
    destruct (snoc_cases l) as [->|(l' & y & ->)]; [constructor|]. rewrite removelast_snoc. apply asc_app in N. apply N.
Qed.

Lemma near_insert h i p : near h -> (i <= length h)%nat -> (h <> [] -> i < length h)%nat ->
  (forall j q, (j < i)%nat -> nth_error h j = Some q -> cap q < cap p) ->
  (S i = length h \/ forall q, nth_error h i = Some q -> cap p <= cap q) ->
  near (insert_at h i p).
Proof.
  intros N Hi Hne A B. destruct (snoc_cases h) as [->|(l & x & ->)].
  { cbn in Hi. assert (i = 0)%nat by lia. subst. constructor. }
  assert (Hil : (i <= length l)%nat).
  { assert (i < length (l ++ [x]))%nat by (apply Hne; intros E; apply app_eq_nil in E; destruct E; discriminate).
    rewrite app_length in *. cbn in *. lia. }
  unfold near in *. rewrite removelast_snoc in N.
  assert (E : insert_at (l ++ [x]) i p = insert_at l i p ++ [x]).
  { unfold insert_at. rewrite firstn_app, skipn_app. replace (i - length l)%nat with 0%nat by lia.
    cbn [firstn skipn]. rewrite app_nil_r, <- app_assoc. reflexivity. }
  rewrite E, removelast_snoc. unfold insert_at.
  rewrite <- (firstn_skipn i l) in N. apply asc_app in N. destruct N as (N1 & N2 & N3).
  apply asc_app. split; [exact N1|].
  assert (G : forall y, In y (skipn i l) -> cap p <= cap y).
  { intros y Hy. destruct (skipn i l) as [|z t] eqn:Es; [destruct Hy|].
    assert (Hz : nth_error (l ++ [x]) i = Some z).
    { rewrite nth_error_app1.
      - rewrite <- (firstn_skipn i l), Es. rewrite nth_error_app2 by (rewrite firstn_length; lia).
        rewrite firstn_length. replace (i - Nat.min i (length l))%nat with 0%nat by lia. reflexivity.
      - assert (length (skipn i l) <> 0%nat) by (rewrite Es; discriminate). rewrite skipn_length in *. lia. }
    assert (cap p <= cap z).
    { destruct B as [B|B]; [|now apply B]. exfalso.
      assert (length (skipn i l) <> 0%nat) by (rewrite Es; discriminate).
      rewrite skipn_length, app_length in *. cbn in B. lia. }
    destruct Hy as [<-|Hy]; [assumption|]. inversion N2 as [|? ? _ F]; subst. rewrite Forall_forall in F.
    specialize (F y Hy). lia. }
  split.
  - constructor; [exact N2|]. apply Forall_forall. exact G.
  - intros a b Ha [<-|Hb].
    + apply In_nth_error in Ha. destruct Ha as (j & Hj).
      assert (Hji : (j < i)%nat).
      { assert (j < length (firstn i l))%nat by (apply nth_error_Some; congruence). rewrite firstn_length in *. lia. }
      assert (cap a < cap p); [|lia]. apply (A j); [exact Hji|]. rewrite nth_error_app1 by lia.
      rewrite <- (firstn_skipn i l). rewrite nth_error_app1; [exact Hj|]. rewrite firstn_length. lia.
    + now apply N3.
Qed.

Lemma asc_sort_insert p l : asc l -> asc (sort_insert p l).
Proof.
  unfold asc. induction l as [|q l IH]; intros H; cbn [sort_insert]; [repeat constructor|].
  destruct (Z.leb_spec (cap p) (cap q)) as [Hc|Hc].
  - constructor; [exact H|]. constructor; [exact Hc|]. inversion H as [|? ? _ F]; subst.
    eapply Forall_impl; [|exact F]. cbn. intros. lia.
  - inversion H as [|? ? Hs F]; subst. constructor; [apply IH, Hs|].
    apply (Permutation_Forall (Permutation_sym (sort_insert_perm p l))). constructor; [lia|exact F].
Qed.
Lemma asc_sort l : asc (sort_pots l).
Proof. unfold sort_pots. induction l as [|p l IH]; cbn; [constructor|]. now apply asc_sort_insert. Qed.
Lemma asc_near l : asc l -> near l.
Proof.
  intros H. destruct (snoc_cases l) as [->|(t & x & ->)]; [constructor|]. unfold near. rewrite removelast_snoc.
  apply asc_app in H. apply H.
Qed.

Lemma finish_pool a before v l b w' : finish a before v l = Some (b, w') -> pool w' = v /\ b = a.
Proof. unfold finish. destruct (let_go before (pots v) l); [|discriminate]. intros H. injection H as <- <-. auto. Qed.

Lemma step_near w o a w' : near (heap (pool w)) -> step w o = Some (a, w') -> near (heap (pool w')).
Proof.
  intros N H. destruct o as [size sys|ptr| | | |].
  - destruct (Z.eqb_spec size 0) as [->|Hn]; [cbn in H; injection H as _ <-; exact N|].
    destruct (pick_spec (pool w) size) as (p & h & Ep & C). rewrite (malloc_step _ _ _ _ _ Hn Ep) in H.
    assert (E : heap (pool w') = h).
    { destruct (pot_malloc p size sys) as [[p' asked]|]; apply finish_pool in H; destruct H as [-> _]; reflexivity. }
    rewrite E. destruct C as [(_ & _ & ->)|(i & _ & _ & Hi & ->)]; [constructor|eapply near_remove; eauto].
  - cbn [step] in H. destruct (ptr =? 0); [injection H as _ <-; exact N|].
    destruct (lookup (dict (pool w)) ptr) as [p|]; [|injection H as _ <-; exact N].
    destruct (is_deprecated (pool w)); [apply finish_pool in H; destruct H as [-> _]; exact N|].
    destruct (binary_find (heap (pool w)) (cap p)) as [i|] eqn:E; [|discriminate].
    destruct ((i <? 0) || (Z.of_nat (length (heap (pool w))) <? i)) eqn:Ei; [discriminate|].
    apply orb_false_iff in Ei. destruct Ei as [E1 E2]. apply Z.ltb_ge in E1, E2.
    apply finish_pool in H. destruct H as [-> _]. cbn [heap].
    destruct (heap (pool w)) as [|q t] eqn:Eh.
    { assert (i = 0) by (cbn in E2; lia). subst i. constructor. }
    destruct (binary_find_near (q :: t) (cap p) i N) as (Hi & A & B); [discriminate|exact E|].
    apply near_insert; auto; try lia.
    destruct B as [B|(q' & Hq & Hc)]; [left; lia|right]. intros q'' Hq''. congruence.
  - cbn [step] in H. apply finish_pool in H. destruct H as [-> _]. cbn [heap]. apply asc_near, asc_sort.
  - cbn [step] in H. apply finish_pool in H. destruct H as [-> _]. constructor.
  - cbn [step] in H. apply finish_pool in H. destruct H as [-> _]. constructor.
  - cbn [step] in H. apply finish_pool in H. destruct H as [-> _]. constructor.
Qed.

Lemma steps_near ops : forall w replies w', near (heap (pool w)) -> steps w ops = Some (replies, w') -> near (heap (pool w')).
Proof.
  induction ops as [|o ops IH]; intros w rs w' N H; cbn [steps] in H.
  - assert (w' = w) by congruence. now subst.
  - destruct (step w o) as [[a w1]|] eqn:E; [|discriminate].
    destruct (steps w1 ops) as [[as_ w2]|] eqn:E2; [|discriminate].
    assert (w' = w2) by congruence. subst. eapply IH; [|exact E2]. eapply step_near; eauto.
Qed.

Lemma asc_ordered l : asc l -> ordered l.
Proof.
  induction 1 as [|p l Hs IH Hf]; [exact I|]. destruct l as [|q l]; [exact I|]. split; [|exact IH].
  now inversion Hf.
Qed.
Lemma ordered_asc l : ordered l -> asc l.
Proof.
  induction l as [|p l IH]; intros H; [constructor|]. destruct l as [|q l]; [repeat constructor|].
  destruct H as [H1 H2]. specialize (IH H2). constructor; [exact IH|]. constructor; [exact H1|].
  inversion IH as [|? ? _ F]; subst. eapply Forall_impl; [|exact F]. cbn. intros. lia.
Qed.

(** a sufficient idle block is found *)
Lemma pick_near w size p h : near (heap (pool w)) -> pick (pool w) size = Some (p, h) ->
  (exists q, In q (heap (pool w)) /\ size <= cap q) ->
  size <= cap p /\ forall q, In q (removelast (heap (pool w))) -> size <= cap q -> cap p <= cap q.
Proof.
  intros N E (q & Hq & Hc). destruct (pick_spec (pool w) size) as (p0 & h0 & E0 & C).
  rewrite E in E0. assert (p0 = p /\ h0 = h) as [-> ->] by (split; congruence).
  destruct C as [(A & _)|(i & Ei & Hi & Hn & ->)]; [rewrite A in Hq; destruct Hq|].
  assert (Hne : heap (pool w) <> []) by (intros Z; rewrite Z in Hq; destruct Hq).
  destruct (binary_find_near _ _ _ N Hne Ei) as (_ & A & B).
  assert (Hp : size <= cap p).
  { destruct B as [B|(p' & Hp' & Hc')]; [|congruence].
    apply In_nth_error in Hq. destruct Hq as (j & Hj).
    assert (j < length (heap (pool w)))%nat by (apply nth_error_Some; congruence).
    destruct (Nat.lt_ge_cases j (Z.to_nat i)) as [Hlt|Hge]; [specialize (A j q Hlt Hj); lia|].
    assert (j = Z.to_nat i) by lia. subst j. congruence. }
  split; [exact Hp|]. intros q' Hq' Hc'. apply In_nth_error in Hq'. destruct Hq' as (j & Hj).
  assert (Hjl : (j < length (removelast (heap (pool w))))%nat) by (apply nth_error_Some; congruence).
  assert (Hj2 : nth_error (heap (pool w)) j = Some q').
  { destruct (snoc_cases (heap (pool w))) as [Z|(l & x & Z)]; [congruence|]. rewrite Z in *.
    rewrite removelast_snoc in *. now rewrite nth_error_app1. }
  destruct (Nat.lt_ge_cases j (Z.to_nat i)) as [Hlt|Hge]; [specialize (A j q' Hlt Hj2); lia|].
  assert (HL : length (heap (pool w)) = S (length (removelast (heap (pool w))))).
  { destruct (snoc_cases (heap (pool w))) as [Z|(l & x & Z)]; [congruence|]. rewrite Z, removelast_snoc, app_length. cbn. lia. }
  apply (asc_nth _ N (Z.to_nat i) j); [exact Hge| |exact Hj]. apply removelast_nth; [exact Hn|lia].
Qed.
