From Coq Require Import List ZArith Bool Lia.
From Verif Require Import ShapeModel ShapeSpec ShapeProofs KernelBase KernelSpec KernelProofs CoordProofs ConcatModel ConcatSpec ConcatProofs TileModel PadModel PadSpec PadProofs ShuffleModel ShuffleSpec.
Import ListNotations.
Local Open Scope Z_scope.

(** * dimshuffle *)
Section Kernel.
  Context {A : Type} (data : list A) (pre post : list Z) (size : Z) (idx : list Z).
  Hypothesis Npre : nonneg_shape pre.
  Hypothesis Npost : nonneg_shape post.
  Hypothesis Hsize : 0 < size.
  Hypothesis Hd : Z.of_nat (length data) = elements (pre ++ size :: post).
  Hypothesis Hidx : Forall (fun i => 0 <= i < size) idx.

  Let N := elements pre.
  Let W := elements post.
  Let I := Z.of_nat (length idx).
  Let tr := shuffle_stores data (pre ++ size :: post) (length pre) idx.

  Lemma shuffle_nonneg : 0 <= N /\ 0 <= W /\ 0 <= I.
  Proof. unfold N, W, I. pose proof (elements_nonneg _ Npre). pose proof (elements_nonneg _ Npost). lia. Qed.

  Lemma shuffle_eq : tr = flat_map (fun k => flat_map (fun i =>
    memcpy (k * (W * I) + i * W) data (k * (size * W) + nth (Z.to_nat i) idx 0 * W) W) (upto I)) (upto N).
  Proof using Hsize.
    unfold tr, shuffle_stores. rewrite firstn_mid, nth_mid. rewrite skipn_app, skipn_all, Nat.sub_diag. cbn [app skipn].
    rewrite !prod_elements. cbn [elements]. fold N W I.
    replace (Z.quot (size * W) size) with W by (rewrite Z.mul_comm, Z.quot_mul; lia). reflexivity.
  Qed.

  Lemma In_shuffle d v : In (d, v) tr <-> exists i n k, 0 <= i < I /\ 0 <= n < N /\ 0 <= k < W /\
    d = (n * I + i) * W + k /\ v = load data ((n * size + nth (Z.to_nat i) idx 0) * W + k).
  Proof using Hsize Npost Npre.
    destruct shuffle_nonneg as (HN & HW & HI). rewrite shuffle_eq. rewrite in_flat_map. split.
    - intros (n & Hn & H). apply In_upto in Hn. apply in_flat_map in H. destruct H as (i & Hi & H). apply In_upto in Hi.
      unfold memcpy in H. destruct (Z.ltb_spec W 0); [lia|].
      apply in_map_iff in H. destruct H as (k & [= <- <-] & Hk). apply In_upto in Hk. exists i, n, k.
      split; [auto|]. split; [auto|]. split; [auto|]. split; [ring|]. f_equal. ring.
    - intros (i & n & k & Hi & Hn & Hk & -> & ->). exists n. rewrite In_upto. split; [exact Hn|].
      apply in_flat_map. exists i. rewrite In_upto. split; [exact Hi|].
      unfold memcpy. destruct (Z.ltb_spec W 0); [lia|]. apply in_map_iff. exists k. rewrite In_upto. split; [|exact Hk].
      f_equal; [ring|]. f_equal. ring.
  Qed.

  Lemma length_shuffle : Z.of_nat (length tr) = N * I * W.
  Proof using Hsize Npost Npre.
    destruct shuffle_nonneg as (HN & HW & HI). rewrite shuffle_eq.
    rewrite (length_flat_map_const _ _ (Z.to_nat (I * W))).
    - rewrite length_upto. rewrite Nat2Z.inj_mul, !Z2Nat.id by nia. ring.
    - intros i Hi. rewrite (length_flat_map_const _ _ (Z.to_nat W)).
      + rewrite length_upto. rewrite Z2Nat.inj_mul; lia.
      + intros n Hn. unfold memcpy. destruct (Z.ltb_spec W 0); [lia|].
        now rewrite map_length, length_upto.
  Qed.

  Theorem shuffle_exec : NoDup (map fst tr) /\
    exists out, exec (fresh (N * I * W)) tr = SOk (map Some out) /\ Z.of_nat (length out) = N * I * W /\
    forall i n k, 0 <= i < I -> 0 <= n < N -> 0 <= k < W ->
      nth_error out (Z.to_nat ((n * I + i) * W + k)) =
      nth_error data (Z.to_nat ((n * size + nth (Z.to_nat i) idx 0) * W + k)).
  Proof.
    destruct shuffle_nonneg as (HN & HW & HI).
    assert (HNI : 0 <= N * I) by nia. assert (HT : 0 <= N * I * W) by nia.
    assert (Hld : forall i n k, 0 <= i < I -> 0 <= n < N -> 0 <= k < W ->
      exists a, load data ((n * size + nth (Z.to_nat i) idx 0) * W + k) = SOk a /\
        nth_error data (Z.to_nat ((n * size + nth (Z.to_nat i) idx 0) * W + k)) = Some a).
    { intros i n k Hi Hn Hk. apply load_ok. rewrite Hd, elements_app. cbn [elements]. fold N W.
      assert (0 <= nth (Z.to_nat i) idx 0 < size).
      { apply (proj1 (Forall_forall _ _) Hidx). apply nth_In. unfold I in Hi. lia. }
      set (j := nth (Z.to_nat i) idx 0) in *. assert (0 <= n * size + j < N * size) by nia. nia. }
    destruct (exec_once (N * I * W) tr) as (ND & out & E & L & H).
    - pose proof length_shuffle. lia.
    - intros d v Hin. apply In_shuffle in Hin. destruct Hin as (i & n & k & Hi & Hn & Hk & -> & ->). split.
      + assert (0 <= n * I + i < N * I) by nia. nia.
      + destruct (Hld i n k Hi Hn Hk) as (a & Ha & _). eauto.
    - intros d Hdr. assert (0 < W /\ 0 < I) as [PW PI] by nia.
      pose proof (Z.div_mod d W ltac:(lia)). pose proof (Z.mod_pos_bound d W PW).
      set (q := d / W) in *. assert (0 <= q < N * I) by nia.
      pose proof (Z.div_mod q I ltac:(lia)). pose proof (Z.mod_pos_bound q I PI).
      assert (0 <= q / I < N) by nia.
      apply in_map_iff. exists (d, load data ((q / I * size + nth (Z.to_nat (q mod I)) idx 0) * W + d mod W)).
      split; [reflexivity|]. apply In_shuffle. exists (q mod I), (q / I), (d mod W).
      split; [lia|]. split; [lia|]. split; [lia|]. split; [|reflexivity]. nia.
    - split; [exact ND|]. exists out. split; [exact E|]. split; [lia|]. intros i n k Hi Hn Hk.
      destruct (Hld i n k Hi Hn Hk) as (a & Ha & ->). apply H. apply In_shuffle. exists i, n, k. rewrite Ha. auto.
  Qed.
End Kernel.

Lemma existsb_false {X} (f : X -> bool) l : existsb f l = false <-> Forall (fun x => f x = false) l.
Proof.
  rewrite Forall_forall. split.
  - intros H x Hx. destruct (f x) eqn:E; [|reflexivity]. rewrite <- H. symmetry. apply existsb_exists. eauto.
  - intros H. destruct (existsb f l) eqn:E; [|reflexivity]. apply existsb_exists in E. destruct E as (x & Hx & Fx).
    now rewrite (H x Hx) in Fx.
Qed.

Theorem dimshuffle_ok {A} dim shuffle (x : tensor A) : wf x ->
  match dimshuffle_run dim shuffle x with
  | SOk r => exists axis out, dim = Z.of_nat axis /\ (axis < length (t_shape x))%nat /\
      r = filled out /\ wf out /\ shuffled axis shuffle x out
  | SErr => dim < 0 \/ shuffle = [] \/ exists i, In i shuffle /\ ~ 0 <= i < nth (Z.to_nat dim) (t_shape x) 0
  | SUndef => Z.of_nat (length (t_shape x)) <= dim
  end.
Proof.
  intros [Nx Dx]. unfold dimshuffle_run. destruct (Z.ltb_spec dim 0); [now left|].
  destruct (Nat.eqb_spec (length shuffle) 0) as [E0|E0]; [right; left; now apply length_zero_iff_nil|].
  destruct (existsb (fun i => i <? 0) shuffle) eqn:E1.
  { right; right. apply existsb_exists in E1. destruct E1 as (i & Hi & Fi). apply Z.ltb_lt in Fi. exists i. split; [exact Hi|lia]. }
  apply existsb_false in E1.
  destruct (Z.leb_spec (Z.of_nat (length (t_shape x))) dim); [assumption|].
  destruct (existsb (fun i => nth (Z.to_nat dim) (t_shape x) 0 <=? i) shuffle) eqn:E2.
  { right; right. apply existsb_exists in E2. destruct E2 as (i & Hi & Fi). apply Z.leb_le in Fi. exists i. split; [exact Hi|lia]. }
  apply existsb_false in E2.
  assert (La : (Z.to_nat dim < length (t_shape x))%nat) by lia.
  assert (Sp : t_shape x = firstn (Z.to_nat dim) (t_shape x) ++ nth (Z.to_nat dim) (t_shape x) 0 :: skipn (S (Z.to_nat dim)) (t_shape x)).
  { apply axis_split. now apply nth_error_nth'. }
  remember (firstn (Z.to_nat dim) (t_shape x)) as pre eqn:Ep. remember (skipn (S (Z.to_nat dim)) (t_shape x)) as post eqn:Eq.
  remember (nth (Z.to_nat dim) (t_shape x) 0) as size eqn:Ez.
  assert (Lp : length pre = Z.to_nat dim) by (subst pre; rewrite firstn_length; lia).
  assert (Hidx : Forall (fun i => 0 <= i < size) shuffle).
  { rewrite Forall_forall in *. intros i Hi. specialize (E1 i Hi). specialize (E2 i Hi). cbn in E1, E2.
    apply Z.ltb_ge in E1. apply Z.leb_gt in E2. lia. }
  assert (Nall : nonneg_shape pre /\ 0 <= size /\ nonneg_shape post).
  { rewrite Sp in Nx. apply Forall_app in Nx. destruct Nx as [N1 N2]. inversion N2; subst. auto. }
  destruct Nall as (N1 & N2 & N3).
  assert (Hs : 0 < size).
  { destruct shuffle as [|i s]; [now elim E0|]. inversion Hidx; subst. lia. }
  rewrite <- Lp. rewrite Sp. rewrite set_nth_mid.
  destruct (shuffle_exec (t_data x) pre post size shuffle N1 N3 Hs) as (_ & out & E & L & H1).
  { now rewrite <- Sp. } { exact Hidx. }
  assert (Eo : prod (pre ++ Z.of_nat (length shuffle) :: post) = elements pre * Z.of_nat (length shuffle) * elements post).
  { rewrite prod_elements, !elements_app. cbn [elements]. ring. }
  rewrite Eo, E. exists (length pre), (Tn (t_dtype x) (pre ++ Z.of_nat (length shuffle) :: post) out).
  split; [lia|]. split; [rewrite app_length; cbn [length]; lia|]. split; [reflexivity|]. split.
  - split; [cbn [t_shape]; apply Forall_app; split; [exact N1|constructor; [lia|auto]]|].
    cbn [t_shape t_data]. rewrite L, <- Eo. apply prod_elements.
  - split; [reflexivity|]. cbn [t_shape]. split.
    { rewrite Sp. now rewrite at_axis_app. }
    intros c Hc. apply inside_app_inv in Hc. destruct Hc as (p & q' & -> & Hp & Hq').
    inversion Hq' as [|? i ? q Hi Hq]; subst q'. clear Ep Eq Ez. subst.
    rewrite at_axis_app by (symmetry; apply (inside_length _ _ Hp)). unfold elt. cbn [t_shape t_data].
    rewrite Sp. rewrite !position_app by (apply (inside_length _ _ Hp)). cbn [elements position].
    pose proof (position_bound _ _ Hp). pose proof (position_bound _ _ Hq).
    specialize (H1 i (position pre p) (position post q)). specialize (H1 ltac:(lia) ltac:(lia) ltac:(lia)).
    etransitivity; [etransitivity; [|exact H1]|]; f_equal; f_equal; ring.
Qed.

(** * stack *)
Lemma app_same_length {X} (a : list X) : forall b c d, a ++ c = b ++ d -> length a = length b -> a = b /\ c = d.
Proof.
  induction a as [|x a IH]; intros [|y b] c d E L; try discriminate; [auto|]. cbn in E. injection E as -> E.
  destruct (IH b c d E) as [-> ->]; [now injection L|]. auto.
Qed.

Definition widened {A} (axis : nat) (x : tensor A) : tensor A := Tn (t_dtype x) (insert_at axis 1 (t_shape x)) (t_data x).

Lemma unsqueezed_ok {A} axis (xs : list (tensor A)) :
  match unsqueezed axis xs with
  | SOk l => l = map (widened axis) xs /\ forall x, In x xs -> (axis <= length (t_shape x))%nat
  | SErr => False
  | SUndef => exists x, In x xs /\ (length (t_shape x) < axis)%nat
  end.
Proof.
  induction xs as [|x xs IH]; [split; [reflexivity|intros ? []]|]. cbn [unsqueezed].
  destruct (Nat.ltb_spec (length (t_shape x)) axis); [exists x; cbn; auto|].
  destruct (unsqueezed axis xs); [|destruct IH|].
  - destruct IH as [-> IH]. split; [reflexivity|]. intros y [<-|Hy]; auto.
  - destruct IH as (y & Hy & L). exists y. cbn. auto.
Qed.

Lemma insert_split {axis v l} : (axis <= length l)%nat -> length (firstn axis l) = axis /\
  insert_at axis v l = firstn axis l ++ v :: skipn axis l /\ l = firstn axis l ++ skipn axis l.
Proof. intros H. split; [rewrite firstn_length; lia|]. split; [reflexivity|]. symmetry. apply firstn_skipn. Qed.

Lemma insert_length axis v l : (axis <= length l)%nat -> length (insert_at axis v l) = S (length l).
Proof. intros H. unfold insert_at. rewrite app_length. cbn [length]. rewrite firstn_length, skipn_length. lia. Qed.

Lemma insert_inj axis l l' : (axis <= length l)%nat -> (axis <= length l')%nat ->
  insert_at axis 1 l = insert_at axis 1 l' -> l = l'.
Proof.
  intros H H' E. unfold insert_at in E. 
  assert (Ef : firstn axis l = firstn axis l').
  { apply (f_equal (firstn axis)) in E. rewrite !firstn_app, !firstn_firstn, !firstn_length, !Nat.min_l in E by lia.
    rewrite Nat.sub_diag in E. cbn [firstn] in E. now rewrite !app_nil_r in E. }
  rewrite Ef in E. apply app_inv_head in E. injection E as E.
  rewrite <- (firstn_skipn axis l), <- (firstn_skipn axis l'). congruence.
Qed.

Lemma widened_wf {A} axis (x : tensor A) : wf x -> wf (widened axis x).
Proof.
  intros [N D]. rewrite <- (firstn_skipn axis (t_shape x)) in N, D. apply Forall_app in N. destruct N as [N1 N2].
  split; cbn [widened t_shape t_data].
  - apply Forall_app. split; [exact N1|]. constructor; [lia|exact N2].
  - rewrite D. unfold insert_at. rewrite !elements_app. cbn [elements]. ring.
Qed.

Lemma same_one axis l l' : (axis <= length l)%nat -> (axis <= length l')%nat ->
  same_but axis (insert_at axis 1 l) (insert_at axis 1 l') -> l = l'.
Proof.
  intros H H' Sb. apply insert_inj with axis; auto.
  destruct (insert_split (v := 1) H) as (L1 & _ & _). destruct (insert_split (v := 1) H') as (L2 & _ & _).
  pose proof Sb as Sb'. unfold insert_at at 1 in Sb'. rewrite <- L1 in Sb' at 1.
  apply same_but_mid in Sb'. destruct Sb' as (e & Ee). rewrite Ee. unfold insert_at. f_equal. f_equal.
  assert (nth axis (insert_at axis 1 l') 0 = 1).
  { unfold insert_at. rewrite <- L2 at 1. apply nth_mid. }
  rewrite Ee in H0. rewrite <- L1 in H0 at 1. rewrite nth_mid in H0. congruence.
Qed.

Lemma total_ones {A} axis (xs : list (tensor A)) : (forall x, In x xs -> (axis <= length (t_shape x))%nat) ->
  total (map (size_at axis) (map (widened axis) xs)) = Z.of_nat (length xs).
Proof.
  induction xs as [|x xs IH]; intros H; [reflexivity|]. cbn [map total length]. rewrite IH by (intros; apply H; now right).
  unfold size_at at 1. cbn [widened t_shape]. destruct (insert_split (v := 1) (H x (or_introl eq_refl))) as (L & -> & _).
  rewrite <- L at 1. rewrite nth_mid. lia.
Qed.

Theorem stack_ok {A} m_axis (xs : list (tensor A)) : Forall wf xs ->
  match stack_run m_axis xs with
  | SOk r => exists axis out, axis_of m_axis (length (t_shape out)) axis /\ xs <> [] /\ alike xs /\
      r = filled out /\ wf out /\ stacked axis xs out
  | SErr => forall axis x, In x xs -> axis_of m_axis (S (length (t_shape x))) axis -> ~ alike xs
  | SUndef => exists x y, In x xs /\ In y xs /\ (length (t_shape y) < length (t_shape x))%nat
  end.
Proof.
  intros W. unfold stack_run. destruct xs as [|x0 rest] eqn:Exs; [intros ? ? []|]. rewrite <- Exs in *.
  assert (I0 : In x0 xs) by (rewrite Exs; now left). assert (Nn : xs <> []) by (rewrite Exs; discriminate). clear Exs rest.
  set (fixed := if 0 <=? m_axis then m_axis else Z.of_nat (length (t_shape x0)) + 1 + m_axis).
  destruct ((fixed <? 0) || (Z.of_nat (length (t_shape x0)) + 1 <=? fixed)) eqn:Ef.
  { intros axis x Hx Ha Al. destruct (Al x x0 Hx I0) as [_ Es]. rewrite Es in Ha. destruct Ha as [Ha Hb].
    unfold fixed in Ef. apply orb_true_iff in Ef. rewrite Z.ltb_lt, Z.leb_le in Ef.
    destruct (Z.leb_spec 0 m_axis); lia. }
  apply orb_false_iff in Ef. rewrite Z.ltb_ge, Z.leb_gt in Ef. destruct Ef as [F1 F2].
  set (axis := Z.to_nat fixed).
  assert (Ax : axis_of m_axis (S (length (t_shape x0))) axis).
  { unfold axis, fixed in *. split; [lia|]. destruct (Z.leb_spec 0 m_axis); lia. }
  pose proof (unsqueezed_ok axis xs) as U. destruct (unsqueezed axis xs) as [l| |]; [|destruct U|].
  2:{ destruct U as (y & Hy & Ly). exists x0, y. split; [exact I0|]. split; [exact Hy|]. destruct Ax. lia. }
  destruct U as [-> Hl].
  assert (Wl : Forall wf (map (widened axis) xs)).
  { apply Forall_map. eapply Forall_impl; [|exact W]. intros x Hx. now apply widened_wf. }
  pose proof (concat_spec m_axis (map (widened axis) xs) Wl) as C.
  destruct (concat_run m_axis (map (widened axis) xs)) as [r| |]; [| |destruct C].
  - destruct C as (a & out & Ha & (_ & Jn) & Er & Wo & (J1 & J2 & J3)).
    assert (Lo : length (t_shape out) = S (length (t_shape x0))).
    { destruct (J1 _ (in_map (widened axis) _ _ I0)) as [_ [Lo _]]. rewrite Lo. cbn [widened t_shape].
      apply insert_length. now apply Hl. }
    assert (Ea : a = axis) by (rewrite Lo in Ha; exact (axis_of_inj _ _ _ _ Ha Ax)). subst a.
    assert (Al : alike xs).
    { intros x y Hx Hy. destruct (Jn _ _ (in_map (widened axis) _ _ Hx) (in_map (widened axis) _ _ Hy)) as (D & Sb & _).
      split; [exact D|]. cbn [widened t_shape] in Sb. apply same_one with axis; auto. }
    exists axis, out. split; [exact Ha|]. split; [exact Nn|]. split; [exact Al|]. split; [exact Er|]. split; [exact Wo|].
    rewrite total_ones in J2 by exact Hl. split.
    + intros x Hx. destruct (J1 _ (in_map (widened axis) _ _ Hx)) as [D Sb]. split; [exact D|].
      apply same_but_sym in Sb. cbn [widened t_shape] in Sb. destruct (insert_split (v := 1) (Hl x Hx)) as (L & Ei & _).
      rewrite Ei in Sb. rewrite <- L in Sb at 1. apply same_but_mid in Sb. destruct Sb as (e & Ee).
      unfold insert_at. rewrite Ee. f_equal. f_equal. unfold size_at in J2. rewrite Ee in J2. rewrite <- L in J2 at 1.
      now rewrite nth_mid in J2.
    + intros i x c Hx Hc. pose proof (nth_error_In _ _ Hx) as Hin. pose proof (Hl x Hin) as La.
      destruct (insert_split (v := 1) La) as (L & Ei & Es).
      assert (Lc : length c = length (t_shape x)) by (symmetry; apply (inside_length _ _ Hc)).
      destruct (insert_split (axis := axis) (v := 0) (l := c)) as (Lc' & Eic & Esc); [lia|].
      assert (Hp : inside (firstn axis (t_shape x)) (firstn axis c) /\ inside (skipn axis (t_shape x)) (skipn axis c)).
      { rewrite Es, Esc in Hc. apply inside_app_inv in Hc. destruct Hc as (p & q & E & Hp & Hq).
        apply app_same_length in E; [|rewrite Lc', <- (inside_length _ _ Hp); congruence].
        destruct E as [<- <-]. auto. }
      destruct Hp as [Hp Hq].
      specialize (J3 i (widened axis x) (insert_at axis 0 c)).
      rewrite nth_error_map, Hx in J3. specialize (J3 eq_refl). cbn [widened t_shape] in J3.
      assert (Hi : inside (insert_at axis 1 (t_shape x)) (insert_at axis 0 c)).
      { apply Forall2_app; [exact Hp|]. constructor; [lia|exact Hq]. }
      specialize (J3 Hi). rewrite Eic in J3. rewrite at_axis_app in J3 by exact Lc'.
      unfold insert_at at 1. 
      replace (offset axis (map (widened axis) xs) i + 0) with (Z.of_nat i) in J3.
      2:{ unfold offset. rewrite firstn_map, total_ones.
          - rewrite firstn_length. assert (i < length xs)%nat by (apply nth_error_Some; congruence). lia.
          - intros y Hy. apply Hl. rewrite <- (firstn_skipn i xs). apply in_or_app. now left. }
      rewrite J3. unfold elt. cbn [widened t_shape t_data]. f_equal. f_equal. unfold insert_at.
      rewrite position_mid by congruence.
      replace (position (t_shape x) c) with (position (firstn axis (t_shape x) ++ skipn axis (t_shape x)) (firstn axis c ++ skipn axis c)) by now rewrite <- Es, <- Esc.
      rewrite position_app by congruence. ring.
  - intros a x Hx Ha Al. destruct (Al x x0 Hx I0) as [_ Es]. rewrite Es in Ha.
    pose proof (axis_of_inj _ _ _ _ Ha Ax) as Ea. subst a.
    apply (C axis (widened axis x0)).
    + now apply in_map.
    + cbn [widened t_shape]. rewrite insert_length by (now apply Hl). exact Ax.
    + split; [destruct xs; [now elim Nn|discriminate]|]. intros y z Hy Hz.
      apply in_map_iff in Hy. destruct Hy as (y' & <- & Hy). apply in_map_iff in Hz. destruct Hz as (z' & <- & Hz).
      destruct (Al y' z' Hy Hz) as [D S']. cbn [widened t_shape t_dtype]. split; [exact D|]. rewrite S'.
      split; [split; reflexivity|]. rewrite insert_length by (now apply Hl).
      destruct (Al z' x0 Hz I0) as [_ ->]. apply Ax.
Qed.

(** * crop_to *)
Lemma moved_zeros n ps : forall c1 c2, length c1 = n -> moved (repeat (0, 0) n ++ ps) (c1 ++ c2) = c1 ++ moved ps c2.
Proof.
  induction n as [|n IH]; intros [|k c1] c2 L; try discriminate; [reflexivity|].
  unfold moved in *. cbn [repeat app combine map fst snd]. f_equal; [lia|]. apply IH. now injection L.
Qed.

Lemma sums_zeros n ps : forall a b, length a = n ->
  map (fun sp : Z * (Z * Z) => fst sp + fst (snd sp) + snd (snd sp)) (combine (a ++ b) (repeat (0, 0) n ++ ps)) =
  a ++ map (fun sp => fst sp + fst (snd sp) + snd (snd sp)) (combine b ps).
Proof.
  induction n as [|n IH]; intros [|k a] b L; try discriminate; [reflexivity|].
  cbn [repeat app combine map fst snd]. f_equal; [lia|]. apply IH. now injection L.
Qed.

Definition crop_tail (offset b b' : list Z) : list (Z * Z) :=
  map (fun oxy : Z * (Z * Z) => let '(o, (a, b)) := oxy in (- o, b - a - - o)) (combine offset (combine b b')).

Lemma crop_tail_ok offset : forall b b', length offset = length b -> length b = length b' ->
  length (crop_tail offset b b') = length b /\
  map (fun sp => fst sp + fst (snd sp) + snd (snd sp)) (combine b (crop_tail offset b b')) = b' /\
  forall c, length c = length b -> moved (crop_tail offset b b') c = map (fun ko => fst ko + snd ko) (combine c offset).
Proof.
  induction offset as [|o offset IH]; intros [|d b] [|d' b'] L L'; try discriminate.
  - split; [reflexivity|]. split; [reflexivity|]. intros [|? ?] Lc; [reflexivity|discriminate].
  - injection L as L. injection L' as L'. destruct (IH b b' L L') as (I1 & I2 & I3).
    unfold crop_tail, moved in *. cbn [combine map fst snd length]. split; [now rewrite I1|].
    split; [f_equal; [lia|exact I2]|]. intros [|k c] Lc; [discriminate|]. injection Lc as Lc.
    cbn [combine map fst snd]. f_equal; [lia|]. now apply I3.
Qed.

Definition offsets (m_offset : list Z) (n : nat) : list Z := match m_offset with [] => repeat 0 n | _ => m_offset end.

Theorem crop_to_ok {A} m_axis axis m_offset (zero : A) (x : tensor A) y_shape : wf x -> length y_shape = length (t_shape x) ->
  axis_of m_axis (length (t_shape x)) axis -> (m_offset = [] \/ length m_offset = (length (t_shape x) - axis)%nat) ->
  positive_shape (firstn axis (t_shape x) ++ skipn axis y_shape) -> tile_supports (t_dtype x) = true ->
  (length (t_shape x) = 4%nat -> axis = 0%nat ->
    nth 0 m_offset 0 <= 0 /\ nth 0 (t_shape x) 0 <= nth 0 y_shape 0 + nth 0 m_offset 0) ->
  exists out, crop_to_run m_axis m_offset zero x y_shape = (Z.of_nat axis, SOk (filled out)) /\ wf out /\
    cropped axis (offsets m_offset (length (t_shape x) - axis)) y_shape zero x out.
Proof.
  intros Wx Ly Ha Lo Pos Sup H4. unfold crop_to_run. rewrite Ly, Nat.eqb_refl. cbn [negb].
  destruct Ha as [La Ha].
  replace (if 0 <=? m_axis then m_axis else m_axis + Z.of_nat (length (t_shape x))) with (Z.of_nat axis)
    by (destruct (Z.leb_spec 0 m_axis); lia).
  destruct (Z.ltb_spec (Z.of_nat axis) 0); [lia|]. destruct (Z.leb_spec (Z.of_nat (length (t_shape x))) (Z.of_nat axis)); [lia|].
  cbn [orb].
  set (off := offsets m_offset (length (t_shape x) - axis)).
  assert (Eo : (if Nat.eqb (length m_offset) 0 then repeat 0 (Z.to_nat (Z.of_nat (length (t_shape x)) - Z.of_nat axis)) else m_offset) = off).
  { unfold off, offsets. destruct m_offset; [|reflexivity]. cbn [length Nat.eqb]. f_equal. lia. }
  assert (Loff : length off = (length (t_shape x) - axis)%nat).
  { unfold off, offsets. destruct m_offset; [apply repeat_length|]. destruct Lo as [Lo|Lo]; [discriminate|exact Lo]. }
  destruct (negb (Nat.eqb (length m_offset) 0) && negb (Z.of_nat (length m_offset) =? Z.of_nat (length (t_shape x)) - Z.of_nat axis)) eqn:Ec.
  { exfalso. destruct Lo as [->|Lo]; [discriminate Ec|]. apply andb_true_iff in Ec. destruct Ec as [_ Ec].
    apply negb_true_iff, Z.eqb_neq in Ec. lia. }
  cbv beta zeta. rewrite Eo. rewrite Nat2Z.id.
  assert (Lf : length (firstn axis (t_shape x)) = axis) by (rewrite firstn_length; lia).
  destruct (crop_tail_ok off (skipn axis (t_shape x)) (skipn axis y_shape)) as (K1 & K2 & K3); [rewrite skipn_length; lia|rewrite !skipn_length; lia|].
  set (pads := crop_paddings axis off (t_shape x) y_shape).
  assert (Ep : pads = repeat (0, 0) axis ++ crop_tail off (skipn axis (t_shape x)) (skipn axis y_shape)) by reflexivity.
  assert (Es : map (fun sp => fst sp + fst (snd sp) + snd (snd sp)) (combine (t_shape x) pads) = firstn axis (t_shape x) ++ skipn axis y_shape).
  { rewrite Ep. rewrite <- (firstn_skipn axis (t_shape x)) at 1. rewrite sums_zeros by exact Lf. now rewrite K2. }
  assert (Lpads : length pads = length (t_shape x)).
  { rewrite Ep, app_length, repeat_length, K1, skipn_length. lia. }
  destruct (pad_ok pads zero x Wx) as (out & Er & Wo & (D & S' & P)).
  - exact Lpads.
  - rewrite Es. exact Pos.
  - exact Sup.
  - intros L4. rewrite Ep. destruct axis as [|n]; [|cbn; lia]. rewrite Lpads in L4. specialize (H4 L4 eq_refl).
    cbn [repeat app skipn]. assert (Eh : nth 0 off 0 = nth 0 m_offset 0).
    { unfold off, offsets. destruct m_offset; [|reflexivity]. rewrite L4. reflexivity. }
    rewrite <- Eh in H4. clear - H4 Loff L4 Ly. destruct off as [|o off]; [rewrite L4 in Loff; discriminate|].
    destruct (t_shape x) as [|d s]; [discriminate|]. destruct y_shape as [|d' s']; [discriminate|].
    cbn in H4 |- *. lia.
  - exists out. split; [now rewrite Er|]. split; [exact Wo|]. split; [exact D|].
    rewrite Es in S'. split; [exact S'|]. intros c Hc. 
    assert (Lc : length c = length (t_shape x)).
    { rewrite <- (inside_length _ _ Hc), S', app_length, Lf, skipn_length. lia. }
    assert (Ec' : moved pads c = firstn axis c ++ map (fun ko => fst ko + snd ko) (combine (skipn axis c) off)).
    { rewrite Ep. rewrite <- (firstn_skipn axis c) at 1. rewrite moved_zeros by (rewrite firstn_length; lia).
      f_equal. apply K3. rewrite !skipn_length. lia. }
    cbv zeta. rewrite <- Ec'. exact (P c Hc).
Qed.
