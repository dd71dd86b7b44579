From Coq Require Import List ZArith Bool Lia.
From Verif Require Import ShapeModel ShapeSpec ShapeProofs KernelBase KernelSpec KernelProofs CoordProofs TileModel TileSpec.
Import ListNotations.
Local Open Scope Z_scope.

Definition place (s r x : list Z) : list Z :=
  map (fun rsx => fst rsx * fst (snd rsx) + snd (snd rsx)) (combine r (combine s x)).

Definition out_shape (s r : list Z) : list Z := pointwise Z.mul s r.

Lemma place_inside s : forall r cr cx, inside r cr -> inside s cx -> length s = length r ->
  inside (out_shape s r) (place s cr cx).
Proof.
  induction s as [|d s IH]; intros r cr cx Hr Hx L; destruct r as [|n r]; try discriminate.
  - inversion Hr; inversion Hx; subst. constructor.
  - inversion Hr as [|? p ? cr' Hp Hr']; subst. inversion Hx as [|? q ? cx' Hq Hx']; subst.
    unfold out_shape, pointwise, place. cbn [combine map fst snd]. constructor; [nia|].
    apply (IH r cr' cx'); auto.
Qed.

Lemma place_mod s : forall r cr cx, inside r cr -> inside s cx -> length s = length r ->
  pointwise Z.modulo (place s cr cx) s = cx.
Proof.
  induction s as [|d s IH]; intros r cr cx Hr Hx L; destruct r as [|n r]; try discriminate.
  - inversion Hr; inversion Hx; subst. reflexivity.
  - inversion Hr as [|? p ? cr' Hp Hr']; subst. inversion Hx as [|? q ? cx' Hq Hx']; subst.
    unfold pointwise, place. cbn [combine map fst snd]. f_equal.
    + rewrite Z.add_comm, Z_mod_plus_full. apply Z.mod_small. exact Hq.
    + apply (IH r cr' cx'); auto.
Qed.

Lemma split_place s : forall r c, length s = length r -> inside (out_shape s r) c ->
  Forall (fun d => 0 <= d) s -> Forall (fun d => 0 <= d) r ->
  inside r (pointwise Z.div c s) /\ inside s (pointwise Z.modulo c s) /\
  c = place s (pointwise Z.div c s) (pointwise Z.modulo c s).
Proof.
  induction s as [|d s IH]; intros r c L H Ns Nr; destruct r as [|n r]; try discriminate.
  - inversion H; subst. split; [constructor|]. split; [constructor|reflexivity].
  - unfold out_shape, pointwise in H. cbn [combine map fst snd] in H.
    inversion H as [|? k ? c' Hk H']; subst.
    inversion Ns as [|? ? Hd Ns']; subst. inversion Nr as [|? ? Hn Nr']; subst.
    assert (0 < d) by nia. assert (0 < n) by nia.
    destruct (IH r c') as (I1 & I2 & I3); auto.
    unfold pointwise, place. cbn [combine map fst snd]. split; [|split].
    + constructor; [|exact I1]. split; [apply Z.div_pos; lia|]. apply Z.div_lt_upper_bound; lia.
    + constructor; [|exact I2]. apply Z.mod_pos_bound. lia.
    + f_equal; [|exact I3]. rewrite (Z.div_mod k d) at 1 by lia. lia.
Qed.

Lemma out_elements s : forall r, length s = length r -> elements (out_shape s r) = elements s * elements r.
Proof.
  induction s as [|d s IH]; intros [|n r] L; try discriminate; [reflexivity|].
  unfold out_shape, pointwise in *. cbn [combine map fst snd elements]. rewrite IH by (injection L; auto). ring.
Qed.

Lemma out_nonneg s : forall r, nonneg_shape s -> nonneg_shape r -> nonneg_shape (out_shape s r).
Proof.
  induction s as [|d s IH]; intros r Hs Hr; [constructor|]. destruct r as [|n r]; [constructor|].
  inversion Hs; subst. inversion Hr; subst. unfold out_shape, pointwise in *. cbn [combine map fst snd].
  constructor; [nia|]. apply IH; assumption.
Qed.

(** the repeat iterator comes back to the start after every element *)
Lemma tile_inner_ok {A} (v : sres A) s r cx : positive_shape r -> length s = length r -> inside s cx ->
  forall n k, (k + n = Z.to_nat (elements r))%nat ->
  tile_inner v s r (out_shape s r) cx n (coordinate r k) =
  (map (fun j => (position (out_shape s r) (place s (coordinate r j) cx), v)) (seq k n), start r).
Proof.
  intros Hr L Hx. induction n as [|n IH]; intros k Hk.
  - cbn [tile_inner seq map]. f_equal. unfold coordinate. replace k with (Z.to_nat (elements r)) by lia. now apply iterate_wraps.
  - cbn [tile_inner seq map]. change (increase r (coordinate r k)) with (coordinate r (S k)).
    rewrite (IH (S k)) by lia. f_equal. f_equal. f_equal.
    fold (place s (coordinate r k) cx).
    assert (I : inside (out_shape s r) (place s (coordinate r k) cx)).
    { apply place_inside; auto. apply coordinate_at; [exact Hr|lia]. }
    pose proof (inside_length _ _ I) as Li. rewrite to_index_ok by lia. rewrite Li, Nat.sub_diag. reflexivity.
Qed.

Lemma tile_outer_ok {A} (data : list A) s r : positive_shape r -> positive_shape s -> length s = length r ->
  forall n i, (i + n <= Z.to_nat (elements s))%nat ->
  tile_outer data s r (out_shape s r) n (Z.of_nat i) (coordinate s i) (start r) =
  flat_map (fun k => map (fun j => (position (out_shape s r) (place s (coordinate r j) (coordinate s k)), load data (Z.of_nat k)))
    (seq 0 (Z.to_nat (elements r)))) (seq i n).
Proof.
  intros Hr Hs L. induction n as [|n IH]; intros i Hi; [reflexivity|].
  cbn [tile_outer seq flat_map]. rewrite prod_elements.
  assert (I : inside s (coordinate s i)) by (apply coordinate_at; [exact Hs|lia]).
  pose proof (tile_inner_ok (load data (Z.of_nat i)) s r (coordinate s i) Hr L I (Z.to_nat (elements r)) 0 ltac:(lia)) as E.
  change (coordinate r 0) with (start r) in E. rewrite E. f_equal.
  replace (Z.of_nat i + 1) with (Z.of_nat (S i)) by lia. apply (IH (S i)). lia.
Qed.

Lemma coordinate_position s c : positive_shape s -> inside s c -> coordinate s (Z.to_nat (position s c)) = c.
Proof.
  intros Hs Hc. pose proof (position_bound _ _ Hc).
  destruct (coordinate_at s (Z.to_nat (position s c)) Hs ltac:(lia)) as [I P].
  apply (position_inj s); auto. rewrite P. lia.
Qed.

Theorem tile_exec {A} (data : list A) s r : nonneg_shape s -> positive_shape r -> length s = length r ->
  Z.of_nat (length data) = elements s ->
  let tr := tile_outer data s r (out_shape s r) (Z.to_nat (prod s)) 0 (start s) (start r) in
  NoDup (map fst tr) /\
  exists out, exec (fresh (prod (out_shape s r))) tr = SOk (map Some out) /\
    Z.of_nat (length out) = elements (out_shape s r) /\
    forall c, inside (out_shape s r) c ->
      nth_error out (Z.to_nat (position (out_shape s r) c)) = nth_error data (Z.to_nat (position s (pointwise Z.modulo c s))).
Proof.
  intros Hs Hr L Hd tr. unfold tr. rewrite !prod_elements.
  pose proof (out_elements s r L) as Eo. pose proof (elements_pos r Hr) as Pr.
  assert (Nr : nonneg_shape r) by (eapply Forall_impl; [|exact Hr]; cbn; intros; lia).
  destruct (positive_or_empty s Hs) as [Hp|He].
  2: { rewrite He. cbn [Z.to_nat tile_outer map]. split; [constructor|]. rewrite Eo, He. cbn [Z.mul].
       exists []. split; [reflexivity|]. split; [reflexivity|]. intros c Hc. pose proof (inside_elements _ _ Hc). lia. }
  pose proof (elements_pos s Hp) as Ps.
  pose proof (tile_outer_ok data s r Hr Hp L (Z.to_nat (elements s)) 0 ltac:(lia)) as E.
  change (coordinate s 0) with (start s) in E. cbn [Z.of_nat] in E. rewrite E. clear E tr.
  set (tr := flat_map _ _).
  assert (Hin : forall d v, In (d, v) tr <-> exists cx cr, inside s cx /\ inside r cr /\
     d = position (out_shape s r) (place s cr cx) /\ v = load data (position s cx)).
  { intros d v. unfold tr. rewrite in_flat_map. split.
    - intros (k & Hk & H). apply in_map_iff in H. destruct H as (j & [= <- <-] & Hj). apply in_seq in Hk, Hj.
      destruct (coordinate_at s k Hp ltac:(lia)) as [I1 P1]. destruct (coordinate_at r j Hr ltac:(lia)) as [I2 P2].
      exists (coordinate s k), (coordinate r j). rewrite P1. auto.
    - intros (cx & cr & I1 & I2 & -> & ->). pose proof (position_bound _ _ I1). pose proof (position_bound _ _ I2).
      exists (Z.to_nat (position s cx)). rewrite in_seq. split; [lia|]. apply in_map_iff.
      exists (Z.to_nat (position r cr)). rewrite in_seq. split; [|lia].
      rewrite !coordinate_position by assumption. rewrite Z2Nat.id by lia. reflexivity. }
  destruct (exec_once (elements (out_shape s r)) tr) as (ND & out & E & Lo & H).
  - unfold tr. rewrite (length_flat_map_const _ _ (Z.to_nat (elements r))).
    + rewrite seq_length, Eo. nia.
    + intros k _. now rewrite map_length, seq_length.
  - intros d v Hi. apply Hin in Hi. destruct Hi as (cx & cr & I1 & I2 & -> & ->). split.
    + apply position_bound. now apply place_inside.
    + destruct (load_ok data (position s cx)) as (a & -> & _); [rewrite Hd; now apply position_bound|eauto].
  - intros d Hdr. destruct (coordinate_of (out_shape s r) d) as (c & Hc & <-); [now apply out_nonneg|exact Hdr|].
    destruct (split_place s r c L Hc Hs Nr) as (I1 & I2 & I3).
    apply in_map_iff. exists (position (out_shape s r) c, load data (position s (pointwise Z.modulo c s))).
    split; [reflexivity|]. apply Hin. exists (pointwise Z.modulo c s), (pointwise Z.div c s). rewrite <- I3. auto.
  - split; [exact ND|]. exists out. split; [exact E|]. pose proof (elements_nonneg _ (out_nonneg s r Hs Nr)).
    split; [lia|]. intros c Hc. destruct (split_place s r c L Hc Hs Nr) as (I1 & I2 & I3).
    destruct (load_ok data (position s (pointwise Z.modulo c s))) as (a & Ha & ->); [rewrite Hd; now apply position_bound|].
    apply H. apply Hin. exists (pointwise Z.modulo c s), (pointwise Z.div c s). rewrite <- I3. auto.
Qed.

Lemma ones_before_length n l : (length l <= n)%nat -> length (ones_before n l) = n.
Proof. intros H. unfold ones_before. rewrite app_length, repeat_length. lia. Qed.

Lemma align_eq x r : align x r = (ones_before (Nat.max (length x) (length r)) x, ones_before (Nat.max (length x) (length r)) r).
Proof. unfold align, ones_before. f_equal; f_equal; f_equal; lia. Qed.

Lemma ones_before_forall (P : Z -> Prop) n l : P 1 -> Forall P l -> Forall P (ones_before n l).
Proof. intros H1 H. unfold ones_before. apply Forall_app. split; [|exact H]. induction (n - length l)%nat; constructor; auto. Qed.

Lemma ones_before_elements n l : elements (ones_before n l) = elements l.
Proof. unfold ones_before. rewrite elements_app, elements_ones. lia. Qed.

Lemma elements_zero l : In 0 l -> elements l = 0.
Proof. induction l as [|x l IH]; [intros []|]. intros [->|H]; cbn [elements]; [lia|]. rewrite IH by exact H. lia. Qed.

Theorem tile_ok {A} repeats (x : tensor A) : wf x -> Forall (fun r => 0 <= r) repeats ->
  tile_supports (t_dtype x) = true \/ In 0 repeats ->
  exists out, tile_run repeats x = SOk (filled out) /\ wf out /\ tiled repeats x out.
Proof.
  intros [Wn Wd] Hr Hs. unfold tile_run.
  assert (E0 : existsb (fun r => r <? 0) repeats = false).
  { apply not_true_iff_false. rewrite existsb_exists. intros (r & Hin & Hlt). apply Z.ltb_lt in Hlt.
    rewrite Forall_forall in Hr. specialize (Hr r Hin). lia. }
  rewrite E0. unfold tile_shape. rewrite align_eq. set (n := Nat.max (length (t_shape x)) (length repeats)).
  set (s := ones_before n (t_shape x)). set (r := ones_before n repeats).
  assert (Ls : length s = n) by (apply ones_before_length; lia).
  assert (Lr : length r = n) by (apply ones_before_length; lia).
  assert (Ns : nonneg_shape s) by (apply ones_before_forall; [lia|exact Wn]).
  assert (Nr : nonneg_shape r) by (apply ones_before_forall; [lia|exact Hr]).
  assert (Es : elements s = elements (t_shape x)) by apply ones_before_elements.
  change (map (fun xr => fst xr * snd xr) (combine s r)) with (out_shape s r).
  destruct (existsb (fun r0 => r0 =? 0) repeats) eqn:Ez.
  - apply existsb_exists in Ez. destruct Ez as (z & Hin & Hz). apply Z.eqb_eq in Hz. subst z.
    assert (Eo : elements (out_shape s r) = 0).
    { rewrite out_elements by lia. unfold r. rewrite ones_before_elements, (elements_zero repeats Hin). lia. }
    rewrite prod_elements, Eo. exists (Tn (t_dtype x) (out_shape s r) []). split; [reflexivity|]. split.
    + split; [now apply out_nonneg|]. cbn. lia.
    + split; [reflexivity|]. split; [reflexivity|]. cbn [t_shape]. intros c Hc. pose proof (inside_elements _ _ Hc). lia.
  - assert (Nz : ~ In 0 repeats).
    { intros Hin. assert (existsb (fun r0 => r0 =? 0) repeats = true); [|congruence]. apply existsb_exists. exists 0. auto. }
    destruct Hs as [Hs|Hs]; [|contradiction]. rewrite Hs. cbn [negb].
    assert (Pr : positive_shape r).
    { apply ones_before_forall; [lia|]. apply Forall_forall. intros z Hz. rewrite Forall_forall in Hr. specialize (Hr z Hz).
      assert (z <> 0) by (intros ->; contradiction). lia. }
    destruct (tile_exec (t_data x) s r Ns Pr ltac:(lia) ltac:(lia)) as (_ & out & E & Lo & H).
    rewrite E. exists (Tn (t_dtype x) (out_shape s r) out). split; [reflexivity|]. split.
    + split; [now apply out_nonneg|exact Lo].
    + split; [reflexivity|]. split; [reflexivity|]. cbn [t_shape]. intros c Hc. fold n. fold s.
      split; [|apply (H c Hc)]. apply (split_place s r c); auto; lia.
Qed.
