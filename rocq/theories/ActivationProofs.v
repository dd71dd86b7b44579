(** Proofs about the model of the activations. *)
From Coq Require Import List ZArith Bool Lia.
From Verif Require Import ShapeModel ShapeSpec ShapeProofs KernelBase KernelSpec KernelProofs LoopModel LoopProofs EltwiseModel EltwiseKernelProofs TileModel ActivationModel WinogradProofs PropsDeconv.
Import ListNotations.
Local Open Scope Z_scope.

Lemma map_upto_nth {A} (d : A) (x : list A) : map (fun i => nth (Z.to_nat i) x d) (upto (Z.of_nat (length x))) = x.
Proof.
  apply nth_ext with (d := d) (d' := d); [rewrite map_length, length_upto; lia|].
  intros n Hn. rewrite map_length, length_upto in Hn.
  assert (E : nth_error (map (fun i => nth (Z.to_nat i) x d) (upto (Z.of_nat (length x)))) n = Some (nth n x d)).
  { rewrite nth_error_map. replace n with (Z.to_nat (Z.of_nat n)) at 1 by lia. rewrite nth_error_upto by lia. cbn. now rewrite Nat2Z.id. }
  now apply nth_error_nth.
Qed.
Lemma load_nth {A} (d : A) (x : list A) i : 0 <= i < Z.of_nat (length x) -> load x i = SOk (nth (Z.to_nat i) x d).
Proof. intros H. destruct (load_ok x i H) as (a & -> & E). f_equal. symmetry. now apply nth_error_nth. Qed.
Lemma map_upto_f {A B} (f : A -> B) (d : A) (x : list A) : map (fun i => f (nth (Z.to_nat i) x d)) (upto (Z.of_nat (length x))) = map f x.
Proof. rewrite <- (map_upto_nth d x) at 2. now rewrite map_map. Qed.

Lemma by_four_ok {A} (d : A) (f4 f : A -> A) (x : list A) n : n = Z.of_nat (length x) -> (forall v, f4 v = f v) -> by_four f4 f x n = SOk (map Some (map f x)).
Proof.
  intros -> Hf. unfold by_four. set (n := Z.of_nat (length x)). assert (Hn : 0 <= n) by lia.
  rewrite Z.quot_div_nonneg by lia.
  rewrite (exec_all (fun i => f (nth (Z.to_nat i) x d))).
  - unfold n. now rewrite map_upto_f.
  - intros i v H. apply in_app_or in H. destruct H as [H|H].
    + apply in_flat_map in H. destruct H as (q & Hq & H). apply In_upto in Hq. apply in_map_iff in H. destruct H as (l & E & Hl).
      apply pair_equal_spec in E. destruct E as [<- <-].
      assert (0 <= l < 4) by (cbn [In] in Hl; lia).
      assert (B : 0 <= q * 4 + l < n) by (Z.to_euclidean_division_equations; lia).
      split; [exact B|]. rewrite (load_nth d) by exact B. cbn. now rewrite Hf.
    + apply in_map_iff in H. destruct H as (k & E & Hk). apply pair_equal_spec in E. destruct E as [<- <-].
      apply In_steps in Hk; [|lia]. destruct Hk as (j & Hj & -> & Hl).
      assert (B : 0 <= n / 4 * 4 + 1 * j < n) by (pose proof (Z.div_pos n 4 Hn); lia).
      split; [exact B|]. now rewrite (load_nth d) by exact B.
  - intros i Hi. rewrite map_app, in_app_iff. destruct (Z_lt_dec i (n / 4 * 4)) as [L|L]; [left|right].
    + apply in_map_iff. exists (i, lift1 f4 (load x i)). split; [reflexivity|]. apply in_flat_map. exists (i / 4). split.
      * apply In_upto. Z.to_euclidean_division_equations. lia.
      * apply in_map_iff. exists (i mod 4). split; [|pose proof (Z.mod_pos_bound i 4 ltac:(lia)); cbn [In]; lia].
        replace (i / 4 * 4 + i mod 4) with i by (Z.to_euclidean_division_equations; lia). reflexivity.
    + apply in_map_iff. exists (i, lift1 f (load x i)). split; [reflexivity|]. apply in_map_iff. exists i. split; [reflexivity|].
      apply In_steps; [lia|]. exists (i - n / 4 * 4). lia.
Qed.
Lemma in_turn_ok {A} (d : A) (f : A -> A) (x : list A) n : n = Z.of_nat (length x) -> in_turn f x n = SOk (map Some (map f x)).
Proof.
  intros ->. unfold in_turn. rewrite (exec_all (fun i => f (nth (Z.to_nat i) x d))).
  - now rewrite map_upto_f.
  - intros i v H. apply in_map_iff in H. destruct H as (k & E & Hk). apply pair_equal_spec in E. destruct E as [<- <-].
    apply In_upto in Hk. split; [exact Hk|]. now rewrite (load_nth d) by exact Hk.
  - intros i Hi. rewrite map_map. cbn. rewrite map_id. now apply In_upto.
Qed.
Lemma in_place_ok {A} (d : A) (f : A -> A) (x : list A) n : n = Z.of_nat (length x) -> in_place f x n = SOk (map Some (map f x)).
Proof.
  intros ->. unfold in_place.
  pose proof (copy_upds_compute (Z.of_nat (length x)) x (map (fun i => (i, SOk f)) (upto (Z.of_nat (length x)))) (fun i => f (nth (Z.to_nat i) x d))) as H.
  unfold computes in H. rewrite (map_map _ (fun u : Z * sres (A -> A) => Upd (fst u) (snd u))) in H. cbn [fst snd] in H. rewrite H; [now rewrite map_upto_f|lia| | |].
  - intros i. rewrite map_map. cbn. rewrite map_id. apply In_upto.
  - rewrite map_map. cbn. rewrite map_id. apply NoDup_upto.
  - intros i g Hin. apply in_map_iff in Hin. destruct Hin as (k & E & Hk). apply pair_equal_spec in E. destruct E as [<- <-].
    apply In_upto in Hk. exists f, (nth (Z.to_nat k) x d). split; [reflexivity|]. split; [now apply load_nth|reflexivity].
Qed.

(** ** channels *)
Section Channel.
Context {R : Type} (d : R).
Variables (pre ch back : Z) (x : list R) (f : Z -> sres (R -> R)) (g : Z -> R -> R).
Hypotheses (Hp : 0 <= pre) (Hc : 0 <= ch) (Hb : 0 <= back).
Hypothesis Hx : Z.of_nat (length x) = pre * ch * back.
Hypothesis Hf : forall k, 0 <= k < ch -> f k = SOk (g k).
Let n := pre * ch * back.
Let V p := g ((p / back) mod ch) (nth (Z.to_nat p) x d).

Lemma at_row i k m : 0 <= i < pre -> 0 <= k < ch -> 0 <= m < back ->
  0 <= i * (back * ch) + k * back + m < n /\ ((i * (back * ch) + k * back + m) / back) mod ch = k.
Proof.
  intros Hi Hk Hm. replace (i * (back * ch) + k * back + m) with ((i * ch + k) * back + m) by ring.
  destruct (join_index pre ch i k Hi Hk) as (B1 & _ & M). destruct (join_index (pre * ch) back (i * ch + k) m B1 Hm) as (B2 & D & _).
  split; [exact B2|]. now rewrite D.
Qed.
Lemma row_of p : 0 <= p < n -> exists i k m, 0 <= i < pre /\ 0 <= k < ch /\ 0 <= m < back /\ p = i * (back * ch) + k * back + m.
Proof.
  intros H. destruct (split_index (pre * ch) back p H Hb) as (B1 & B2 & E). destruct (split_index pre ch (p / back) B1 Hc) as (B3 & B4 & E2).
  exists (p / back / ch), ((p / back) mod ch), (p mod back). repeat (split; [assumption|]). rewrite E at 1. rewrite E2 at 1. ring.
Qed.
Lemma row_value i k m : 0 <= i < pre -> 0 <= k < ch -> 0 <= m < back ->
  lift2 (fun g v => g v) (f k) (load x (i * (back * ch) + k * back + m)) = SOk (V (i * (back * ch) + k * back + m)).
Proof using Hf Hx.
  intros Hi Hk Hm. destruct (at_row i k m Hi Hk Hm) as [B M]. rewrite (Hf k Hk), (load_nth d) by (rewrite Hx; exact B).
  cbn. unfold V. now rewrite M.
Qed.

Lemma rows_by_four_ok : exec (fresh n) (rows_by_four f x pre ch back) = SOk (map Some (map V (upto n))).
Proof using All.
  apply exec_all.
  - intros p v H. unfold rows_by_four in H. apply in_flat_map in H. destruct H as (l & Hl & H). apply In_loops in Hl.
    apply inside_2 in Hl. destruct Hl as (i & k & -> & Hi & Hk). apply in_map_iff in H. destruct H as (m & E & Hm).
    apply In_simd in Hm; [|exact Hb]. apply pair_equal_spec in E. destruct E as [<- <-].
    replace (m + (i * (back * ch) + k * back)) with (i * (back * ch) + k * back + m) by ring.
    split; [now apply at_row|now apply row_value].
  - intros p H. destruct (row_of p H) as (i & k & m & Hi & Hk & Hm & ->). apply in_map_iff.
    exists (m + (i * (back * ch) + k * back), lift2 (fun g v => g v) (f k) (load x (m + (i * (back * ch) + k * back)))).
    split; [cbn [fst]; ring|]. unfold rows_by_four. apply in_flat_map. exists [i; k]. split; [apply In_loops; now apply in_2|].
    apply in_map_iff. exists m. split; [reflexivity|]. now apply In_simd.
Qed.
Lemma rows_in_turn_ok : exec (fresh n) (rows_in_turn f x pre ch back) = SOk (map Some (map V (upto n))).
Proof using All.
  apply exec_all.
  - intros p v H. unfold rows_in_turn in H. apply in_map_iff in H. destruct H as (l & E & Hl). apply In_loops in Hl.
    apply inside_3 in Hl. destruct Hl as (i & k & m & -> & Hi & Hk & Hm).
    apply pair_equal_spec in E. destruct E as [<- <-]. split; [now apply at_row|now apply row_value].
  - intros p H. destruct (row_of p H) as (i & k & m & Hi & Hk & Hm & ->). unfold rows_in_turn. rewrite map_map. apply in_map_iff.
    exists [i; k; m]. split; [reflexivity|]. apply In_loops. now apply in_3.
Qed.
Lemma rows_in_place_ok : exec_instrs (fresh n) (rows_in_place f x n pre ch back) = SOk (map Some (map V (upto n))).
Proof using All.
  unfold rows_in_place.
  set (u := fun l : list Z => match l with [i; k; m] => (i * (back * ch) + k * back + m, f k) | _ => (0, SUndef) end).
  pose proof (copy_upds_compute n x (map u (loops [pre; ch; back])) V) as H. unfold computes in H.
  rewrite (map_map u (fun u : Z * sres (R -> R) => Upd (fst u) (snd u))) in H. rewrite <- H.
  - do 2 f_equal. apply map_ext. intros l. unfold u. destruct l as [|? [|? [|? [|? ?]]]]; reflexivity.
  - unfold n. nia.
  - intros p. rewrite map_map, in_map_iff. split.
    + intros (l & <- & Hl). apply In_loops, inside_3 in Hl. destruct Hl as (i & k & m & -> & Hi & Hk & Hm). now apply at_row.
    + intros Hpn. destruct (row_of p Hpn) as (i & k & m & Hi & Hk & Hm & ->). exists [i; k; m]. split; [reflexivity|].
      apply In_loops. now apply in_3.
  - rewrite map_map. apply GemmPlainProofs.NoDup_map_on; [apply NoDup_loops|].
    intros a b Ha Hb' E. apply In_loops in Ha, Hb'. apply (position_inj [pre; ch; back]); [exact Ha|exact Hb'|].
    apply inside_3 in Ha, Hb'. destruct Ha as (i & k & m & -> & _), Hb' as (i' & k' & m' & -> & _).
    cbn in E |- *. lia.
  - intros p h Hin. apply in_map_iff in Hin. destruct Hin as (l & E & Hl). apply In_loops, inside_3 in Hl.
    destruct Hl as (i & k & m & -> & Hi & Hk & Hm). cbn in E. apply pair_equal_spec in E. destruct E as [<- <-].
    destruct (at_row i k m Hi Hk Hm) as [B M].
    exists (g k), (nth (Z.to_nat (i * (back * ch) + k * back + m)) x d). split; [now apply Hf|].
    split; [apply load_nth; rewrite Hx; exact B|]. unfold V. now rewrite M.
Qed.
End Channel.

Theorem channel_ok {R} (d : R) dim params ip f g (x : tensor R) c :
  wf x -> 0 <= dim -> nth_error (t_shape x) (Z.to_nat dim) = Some c ->
  Forall (fun p => t_shape p = [c] /\ t_dtype p = t_dtype x) params -> tile_supports (t_dtype x) = true ->
  (forall k, 0 <= k < c -> f (t_dtype x) k = SOk (g k)) ->
  exists out, channel_op dim params ip f x = SOk (filled out) /\ wf out /\ t_dtype out = t_dtype x /\ t_shape out = t_shape x /\
    forall l, inside (t_shape x) l -> elt out l = option_map (g (nth (Z.to_nat dim) l 0)) (elt x l).
Proof.
  intros W Hd E P T F. destruct W as [Hs Hl].
  pose proof (axis_split _ _ _ E) as Sp.
  set (a := firstn (Z.to_nat dim) (t_shape x)) in *. set (b := skipn (S (Z.to_nat dim)) (t_shape x)) in *.
  assert (Hsp := Hs). rewrite Sp in Hsp. apply Forall_app in Hsp. destruct Hsp as [Ha Hb]. inversion Hb as [|? ? Hc Hb' Q1]; subst.
  assert (N : elements (t_shape x) = elements a * c * elements b) by (rewrite Sp, elements_app; cbn [elements]; ring).
  pose proof (elements_nonneg _ Ha) as Na. pose proof (elements_nonneg _ Hb') as Nb.
  exists (Tn (t_dtype x) (t_shape x) (map (fun p => g ((p / elements b) mod c) (nth (Z.to_nat p) (t_data x) d)) (upto (elements (t_shape x))))).
  split.
  { unfold channel_op. destruct (Z.ltb_spec dim 0); [lia|]. rewrite E. cbv zeta.
    assert (P1 : forallb (fun p => match t_shape p with [d] => d =? c | _ => false end) params = true).
    { apply forallb_forall. intros p Hp. rewrite Forall_forall in P. destruct (P p Hp) as [-> _]. apply Z.eqb_refl. }
    assert (P2 : forallb (fun p => t_dtype p =? t_dtype x) params = true).
    { apply forallb_forall. intros p Hp. rewrite Forall_forall in P. destruct (P p Hp) as [_ ->]. apply Z.eqb_refl. }
    rewrite P1, P2, T. cbn [negb]. fold a b. rewrite !prod_elements, N.
    assert (Lx : Z.of_nat (length (t_data x)) = elements a * c * elements b) by (rewrite Hl; exact N).
    destruct (is_float (t_dtype x)); [|destruct ip].
    - rewrite (rows_by_four_ok d _ _ _ _ _ g Na Hc Nb Lx F). reflexivity.
    - rewrite (rows_in_place_ok d _ _ _ _ _ g Na Hc Nb Lx F). reflexivity.
    - rewrite (rows_in_turn_ok d _ _ _ _ _ g Na Hc Nb Lx F). reflexivity. }
  split; [now apply wf_map|]. split; [reflexivity|]. split; [reflexivity|].
  intros l Il. rewrite elt_map by exact Il. unfold elt.
  pose proof (position_bound _ _ Il) as B.
  destruct (nth_error (t_data x) (Z.to_nat (position (t_shape x) l))) eqn:En; [|apply nth_error_None in En; lia].
  rewrite (nth_error_nth _ _ d En). cbn [option_map]. f_equal. f_equal.
  rewrite Sp in Il. apply inside_app_inv in Il. destruct Il as (l1 & l2 & -> & I1 & I2).
  destruct l2 as [|k l2]; [inversion I2|]. apply inside_inv in I2. destruct I2 as [Hk I2].
  pose proof (inside_length _ _ I1) as L1.
  assert (La : length a = Z.to_nat dim).
  { unfold a. apply firstn_length_le. assert (Z.to_nat dim < length (t_shape x))%nat by (apply nth_error_Some; congruence). lia. }
  rewrite Sp, position_mid by exact L1. pose proof (position_bound _ _ I1) as B1. pose proof (position_bound _ _ I2) as B2.
  destruct (join_index (elements a) c (position a l1) k B1 Hk) as (B3 & _ & M).
  destruct (join_index (elements a * c) (elements b) (position a l1 * c + k) (position b l2) B3 B2) as (_ & D & _).
  rewrite D, M. rewrite app_nth2 by lia. replace (Z.to_nat dim - length l1)%nat with 0%nat by lia. reflexivity.
Qed.

Lemma channel_err {R} dim params ip f (x : tensor R) :
  dim < 0 \/ Z.of_nat (length (t_shape x)) <= dim \/
  (exists p, In p params /\ (t_shape p <> [nth (Z.to_nat dim) (t_shape x) 0] \/ t_dtype p <> t_dtype x)) \/ tile_supports (t_dtype x) = false ->
  channel_op dim params ip f x = SErr.
Proof.
  intros H. unfold channel_op. destruct (Z.ltb_spec dim 0); [reflexivity|].
  destruct (nth_error (t_shape x) (Z.to_nat dim)) as [c|] eqn:E; [|reflexivity].
  assert (Z.to_nat dim < length (t_shape x))%nat by (apply nth_error_Some; congruence).
  pose proof (nth_error_nth _ _ 0 E) as Ec. cbv zeta.
  destruct (forallb (fun p => match t_shape p with [d] => d =? c | _ => false end) params) eqn:P1; [|reflexivity].
  destruct (forallb (fun p => t_dtype p =? t_dtype x) params) eqn:P2; [|reflexivity].
  cbn [negb]. rewrite forallb_forall in P1, P2.
  destruct H as [H|[H|[(p & Hp & H)|H]]]; [lia|lia| |now rewrite H].
  exfalso. specialize (P1 p Hp). specialize (P2 p Hp). apply Z.eqb_eq in P2. destruct H as [H|H]; [|contradiction].
  apply H. destruct (t_shape p) as [|q [|? ?]]; try discriminate. apply Z.eqb_eq in P1. subst q. now rewrite Ec.
Qed.
