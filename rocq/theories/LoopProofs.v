(** Nested loops run over the coordinates in row-major order. *)
From Coq Require Import List ZArith Lia.
From Verif Require Import ShapeModel ShapeSpec ShapeProofs KernelBase KernelSpec KernelProofs LoopModel.
Import ListNotations.
Local Open Scope Z_scope.

Lemma In_loops s c : In c (loops s) <-> inside s c.
Proof.
  revert c. induction s as [|d s IH]; intros c; cbn [loops].
  - split; [intros [<-|[]]; constructor|]. intros H. inversion H. now left.
  - rewrite in_flat_map. split.
    + intros (i & Hi & H). apply in_map_iff in H. destruct H as (c' & <- & H). apply In_upto in Hi. constructor; [exact Hi|]. now apply IH.
    + intros H. inversion H as [|? k ? c' Hk Hc]; subst. exists k. rewrite In_upto. split; [exact Hk|]. apply in_map. now apply IH.
Qed.

Lemma length_loops s : Forall (fun d => 0 <= d) s -> Z.of_nat (length (loops s)) = elements s.
Proof.
  induction 1 as [|d s Hd H IH]; [reflexivity|]. cbn [loops elements].
  rewrite (length_flat_map_const _ _ (length (loops s))) by (intros; now rewrite map_length).
  rewrite length_upto, Nat2Z.inj_mul, IH. lia.
Qed.

Lemma nth_flat_map_const {A B} (f : A -> list B) n : forall l a i j, (forall x, In x l -> length (f x) = n) ->
  nth_error l i = Some a -> (j < n)%nat -> nth_error (flat_map f l) (i * n + j) = nth_error (f a) j.
Proof.
  induction l as [|x l IH]; intros a i j Hl Hi Hj; [destruct i; discriminate|].
  cbn [flat_map]. destruct i as [|i].
  - injection Hi as ->. cbn. rewrite nth_error_app1; [reflexivity|]. rewrite Hl by (now left). exact Hj.
  - rewrite nth_error_app2; rewrite (Hl x) by (now left); [|lia].
    replace (S i * n + j - n)%nat with (i * n + j)%nat by lia. apply IH; auto. intros y Hy. apply Hl. now right.
Qed.

Lemma nth_loops s c : inside s c -> nth_error (loops s) (Z.to_nat (position s c)) = Some c.
Proof.
  intros H. assert (Hn : Forall (fun d => 0 <= d) s).
  { clear - H. induction H; constructor; auto. lia. }
  induction H as [|d k s c Hk H IH]; [reflexivity|]. inversion Hn as [|? ? Hd Hn']; subst. specialize (IH Hn').
  cbn [loops position]. pose proof (position_bound _ _ H) as B. pose proof (length_loops s Hn') as L.
  replace (Z.to_nat (k * elements s + position s c)) with (Z.to_nat k * length (loops s) + Z.to_nat (position s c))%nat.
  2:{ rewrite <- L. rewrite Z2Nat.inj_add by lia. rewrite Z2Nat.inj_mul by lia. now rewrite Nat2Z.id. }
  rewrite (nth_flat_map_const _ (length (loops s)) (upto d) k).
  - rewrite nth_error_map, IH. reflexivity.
  - intros x _. now rewrite map_length.
  - now apply nth_error_upto.
  - lia.
Qed.

Lemma In_counted {A} (l : list A) k a : In (k, a) (counted l) <-> 0 <= k /\ nth_error l (Z.to_nat k) = Some a.
Proof.
  unfold counted, upto. rewrite Nat2Z.id.
  enough (G : forall s, In (k, a) (combine (map Z.of_nat (seq s (length l))) l) <-> Z.of_nat s <= k /\ nth_error l (Z.to_nat k - s) = Some a).
  { rewrite (G 0%nat). now rewrite Nat.sub_0_r. }
  induction l as [|b l IH]; intros s; cbn [length seq map combine].
  - split; [intros []|]. intros [_ H]. destruct (Z.to_nat k - s)%nat; discriminate.
  - cbn [In]. rewrite IH. split.
    + intros [[= <- ->]|[H1 H2]].
      * split; [lia|]. now rewrite Nat2Z.id, Nat.sub_diag.
      * split; [lia|]. replace (Z.to_nat k - s)%nat with (S (Z.to_nat k - S s))%nat by lia. exact H2.
    + intros [H1 H2]. destruct (Z.eq_dec (Z.of_nat s) k) as [E|N].
      * left. subst k. rewrite Nat2Z.id, Nat.sub_diag in H2. cbn in H2. congruence.
      * right. split; [lia|]. replace (Z.to_nat k - s)%nat with (S (Z.to_nat k - S s))%nat in H2 by lia. exact H2.
Qed.

(** the counter is the position *)
Lemma In_counted_loops s k c : In (k, c) (counted (loops s)) <-> inside s c /\ k = position s c.
Proof.
  rewrite In_counted. split.
  - intros [H1 H2]. pose proof (nth_error_In _ _ H2) as H. apply In_loops in H. split; [exact H|].
    assert (Hn : Forall (fun d => 0 <= d) s) by (clear - H; induction H; constructor; auto; lia).
    pose proof (nth_loops s c H) as Hc.
    pose proof (length_loops s Hn) as L. assert (B : (Z.to_nat k < length (loops s))%nat) by (apply nth_error_Some; congruence).
    destruct (coordinate_of s k Hn) as (c' & Hc' & Ek); [lia|].
    pose proof (nth_loops s c' Hc') as Hn'. rewrite Ek, H2 in Hn'. injection Hn' as ->. now symmetry.
  - intros [H ->]. split; [now apply position_bound|]. now apply nth_loops.
Qed.

(** a kernel whose counter runs over the output *)
Lemma counted_exec {A} s (g : list Z -> sres A) : Forall (fun d => 0 <= d) s ->
  (forall c, inside s c -> exists a, g c = SOk a) ->
  exists out, exec (fresh (elements s)) (map (fun kc => (fst kc, g (snd kc))) (counted (loops s))) = SOk (map Some out) /\
    Z.of_nat (length out) = elements s /\
    forall c a, inside s c -> g c = SOk a -> nth_error out (Z.to_nat (position s c)) = Some a.
Proof.
  intros Hn Hg.
  set (tr := map _ _).
  assert (Hin : forall d v, In (d, v) tr <-> exists c, inside s c /\ d = position s c /\ v = g c).
  { intros d v. unfold tr. rewrite in_map_iff. split.
    - intros ([k c] & [= <- <-] & H). apply In_counted_loops in H. destruct H as [H ->]. eauto.
    - intros (c & H & -> & ->). exists (position s c, c). split; [reflexivity|]. apply In_counted_loops. auto. }
  assert (Hdec : forall i, 0 <= i < elements s -> exists c, inside s c /\ position s c = i).
  { intros i Hi. now apply coordinate_of. }
  pose proof (elements_nonneg s Hn) as E0.
  destruct (Z.eq_dec (elements s) 0) as [Z0|Z0].
  - exists []. assert (Et : tr = []).
    { destruct tr as [|[d v] t] eqn:E; [reflexivity|]. exfalso. destruct (proj1 (Hin d v)) as (c & Hc & _); [now left|].
      pose proof (position_bound _ _ Hc). lia. }
    rewrite Et, Z0. split; [reflexivity|]. split; [reflexivity|]. intros c a Hc. pose proof (position_bound _ _ Hc). lia.
  - destruct (Hdec 0 ltac:(lia)) as (c0 & Hc0 & _). destruct (Hg c0 Hc0) as [a0 _].
    set (h := fun c => match g c with SOk a => a | _ => a0 end).
    set (f := fun i => h (nth (Z.to_nat i) (loops s) [])).
    assert (Hf : forall c, inside s c -> g c = SOk (f (position s c))).
    { intros c Hc. unfold f. rewrite (nth_error_nth _ _ [] (nth_loops s c Hc)). unfold h. destruct (Hg c Hc) as [a ->]. reflexivity. }
    exists (map f (upto (elements s))). split; [|split].
    + apply exec_all.
      * intros d v H. apply Hin in H. destruct H as (c & Hc & -> & ->). split; [now apply position_bound|]. now apply Hf.
      * intros d Hd. destruct (Hdec d Hd) as (c & Hc & <-). apply in_map_iff. exists (position s c, g c). split; [reflexivity|].
        apply Hin. eauto.
    + rewrite map_length, length_upto. lia.
    + intros c a Hc Ha. rewrite nth_error_map, nth_error_upto by (now apply position_bound). cbn.
      rewrite (Hf c Hc) in Ha. injection Ha as ->. reflexivity.
Qed.

(** a kernel that first fills the output with a value and then stores each
    input element somewhere else *)
Lemma scatter_exec {A} o s (fill : A) (dst : list Z -> Z) (g : list Z -> sres A) :
  Forall (fun d => 0 <= d) o ->
  (forall c, inside s c -> 0 <= dst c < elements o /\ exists a, g c = SOk a) ->
  (forall c c', inside s c -> inside s c' -> dst c = dst c' -> c = c') ->
  exists out, exec (map Some (repeat fill (Z.to_nat (elements o)))) (map (fun c => (dst c, g c)) (loops s)) = SOk (map Some out) /\
    Z.of_nat (length out) = elements o /\
    (forall c a, inside s c -> g c = SOk a -> nth_error out (Z.to_nat (dst c)) = Some a) /\
    (forall i, 0 <= i < elements o -> (forall c, inside s c -> dst c <> i) -> nth_error out (Z.to_nat i) = Some fill).
Proof.
  intros Hn Hd Hinj. pose proof (elements_nonneg o Hn) as E0.
  set (m0 := map Some (repeat fill (Z.to_nat (elements o)))).
  assert (L0 : length m0 = Z.to_nat (elements o)) by (unfold m0; now rewrite map_length, repeat_length).
  set (tr := map _ _).
  set (h := fun c => match g c with SOk a => a | _ => fill end).
  set (f := fun i => match find (fun c => dst c =? i) (loops s) with Some c => h c | None => fill end).
  assert (Hf : forall c, inside s c -> g c = SOk (f (dst c))).
  { intros c Hc. unfold f. destruct (find (fun c' => dst c' =? dst c) (loops s)) as [c'|] eqn:E.
    - apply find_some in E. destruct E as [E1 E2]. apply Z.eqb_eq in E2. apply In_loops in E1. rewrite (Hinj c' c E1 Hc E2).
      unfold h. destruct (Hd c Hc) as (_ & a & ->). reflexivity.
    - exfalso. pose proof (find_none _ _ E c (proj2 (In_loops s c) Hc)) as N. cbv beta in N. rewrite Z.eqb_refl in N. discriminate N. }
  destruct (exec_spec f tr m0) as (m' & E & L & N).
  { intros d v H. unfold tr in H. apply in_map_iff in H. destruct H as (c & [= <- <-] & H). apply In_loops in H.
    split; [rewrite L0; destruct (Hd c H); lia|]. now apply Hf. }
  assert (Hm0 : forall p, (p < length m0)%nat -> nth_error m0 p = Some (Some fill)).
  { intros p Hp. unfold m0 in *. rewrite map_length, repeat_length in Hp. rewrite nth_error_map.
    rewrite (nth_error_nth' _ fill) by (now rewrite repeat_length). rewrite nth_repeat. reflexivity. }
  assert (Hsome : exists out, m' = map Some out).
  { assert (G : forall p, (p < length m')%nat -> exists a, nth_error m' p = Some (Some a)).
    { intros p Hp. rewrite L in Hp. destruct (N p Hp) as [N1 N2].
      destruct (in_dec Z.eq_dec (Z.of_nat p) (map fst tr)) as [I|I]; [eauto|]. rewrite (N2 I), Hm0; eauto. }
    clear - G. induction m' as [|[a|] m IH].
    - now exists [].
    - destruct IH as [out ->]; [|now exists (a :: out)]. intros p Hp. apply (G (S p)). cbn. lia.
    - destruct (G 0%nat) as [a H]; [cbn; lia|]. discriminate. }
  destruct Hsome as [out ->]. exists out. split; [exact E|]. rewrite map_length in L. split; [lia|]. split.
  - intros c a Hc Ha. destruct (Hd c Hc) as [B _]. destruct (N (Z.to_nat (dst c))) as [N1 _]; [lia|].
    rewrite Z2Nat.id in N1 by lia. rewrite nth_error_map in N1.
    assert (I : In (dst c) (map fst tr)).
    { apply in_map_iff. exists (dst c, g c). split; [reflexivity|]. unfold tr. apply in_map_iff. exists c. split; [reflexivity|]. now apply In_loops. }
    specialize (N1 I). rewrite (Hf c Hc) in Ha. injection Ha as <-.
    destruct (nth_error out _); cbn [option_map] in N1; [|discriminate N1]. injection N1 as ->. reflexivity.
  - intros i Hi Hnone. destruct (N (Z.to_nat i)) as [_ N2]; [lia|]. rewrite Z2Nat.id in N2 by lia. rewrite nth_error_map in N2.
    rewrite Hm0 in N2 by lia.
    assert (I : ~ In i (map fst tr)).
    { intros I. apply in_map_iff in I. destruct I as ([d v] & Ed & I). cbn in Ed. subst d. unfold tr in I. apply in_map_iff in I.
      destruct I as (c & [= Hc _] & I). apply In_loops in I. exact (Hnone c I Hc). }
    specialize (N2 I). destruct (nth_error out _); cbn [option_map] in N2; [|discriminate N2]. injection N2 as ->. reflexivity.
Qed.
