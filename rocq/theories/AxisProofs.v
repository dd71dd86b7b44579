(** Proofs about the reductions along axes. *)
From Coq Require Import List ZArith Lia Bool Arith.
From Verif Require Import ShapeModel ShapeSpec ShapeProofs KernelBase KernelSpec KernelProofs CoordProofs TileModel EltwiseModel EltwiseKernelProofs EltwiseMainProofs
  LoopModel LoopProofs AxisModel AxisSpec.
Import ListNotations.
Local Open Scope Z_scope.

(** *** Shapes *)
Lemma coordinates_loops s : coordinates s = loops s.
Proof. induction s as [|d s IH]; [reflexivity|]. cbn [coordinates loops]. rewrite IH. reflexivity. Qed.

Lemma fix_dim_ok dim rank axis : axis_of dim rank axis -> fix_dim dim rank = SOk axis.
Proof.
  intros [H1 H2]. unfold fix_dim. destruct (Z.ltb_spec dim 0).
  - destruct (Z.leb_spec 0 (dim + Z.of_nat rank)), (Z.ltb_spec (dim + Z.of_nat rank) (Z.of_nat rank)); cbn [andb]; try lia. f_equal. lia.
  - destruct (Z.leb_spec 0 dim), (Z.ltb_spec dim (Z.of_nat rank)); cbn [andb]; try lia. f_equal. lia.
Qed.

Lemma fix_dim_err dim rank : (forall axis, ~ axis_of dim rank axis) -> fix_dim dim rank = SErr.
Proof.
  intros H. unfold fix_dim. destruct (Z.ltb_spec dim 0).
  - destruct (Z.leb_spec 0 (dim + Z.of_nat rank)), (Z.ltb_spec (dim + Z.of_nat rank) (Z.of_nat rank)); cbn [andb]; try reflexivity.
    exfalso. apply (H (Z.to_nat (dim + Z.of_nat rank))). unfold axis_of. lia.
  - destruct (Z.leb_spec 0 dim), (Z.ltb_spec dim (Z.of_nat rank)); cbn [andb]; try reflexivity.
    exfalso. apply (H (Z.to_nat dim)). unfold axis_of. lia.
Qed.

Lemma erase_app S d T : erase (length S) (S ++ d :: T) = S ++ T.
Proof. induction S as [|x S IH]; [reflexivity|]. cbn [length erase app]. now rewrite IH. Qed.
Lemma set_one_app S d T : set_one (length S) (S ++ d :: T) = S ++ 1 :: T.
Proof. induction S as [|x S IH]; [reflexivity|]. cbn [length set_one app]. now rewrite IH. Qed.

Lemma firstn_len {A} (a b : list A) : firstn (length a) (a ++ b) = a.
Proof. rewrite firstn_app, Nat.sub_diag, firstn_all. cbn. apply app_nil_r. Qed.
Lemma skipn_len {A} (a : list A) d b : skipn (S (length a)) (a ++ d :: b) = b.
Proof. rewrite skipn_app, skipn_all2 by lia. replace (S (length a) - length a)%nat with 1%nat by lia. reflexivity. Qed.
Lemma nth_len (a : list Z) d b : nth (length a) (a ++ d :: b) 0 = d.
Proof. rewrite app_nth2, Nat.sub_diag by lia. reflexivity. Qed.

Lemma ones_between (b : list Z) T : elements (map (fun _ => 1) b ++ T) = elements T.
Proof. induction b as [|x b IH]; [reflexivity|]. cbn [map app elements]. rewrite IH. lia. Qed.

Lemma position_between (b : list Z) T t : position (map (fun _ => 1) b ++ T) (map (fun _ => 0) b ++ t) = position T t.
Proof. induction b as [|x b IH]; [reflexivity|]. cbn [map app position]. rewrite IH. lia. Qed.

Lemma position_out S (b : list Z) T s t : inside S s ->
  position (S ++ map (fun _ => 1) b ++ T) (s ++ map (fun _ => 0) b ++ t) = position S s * elements T + position T t.
Proof.
  intros H. rewrite position_app by (now apply inside_length). now rewrite ones_between, position_between.
Qed.

Lemma position_block S R T s r t : inside S s -> inside R r ->
  position (S ++ R ++ T) (s ++ r ++ t) = (position S s * elements R + position R r) * elements T + position T t.
Proof.
  intros H1 H2. rewrite !position_app by (now apply inside_length). rewrite elements_app. ring.
Qed.

Lemma nth_upto_nat n i : (i < Z.to_nat n)%nat -> nth_error (upto n) i = Some (Z.of_nat i).
Proof. intros H. pose proof (nth_error_upto n (Z.of_nat i) ltac:(lia)) as E. now rewrite Nat2Z.id in E. Qed.

(** the values over a block, as indices into the data *)
Lemma along_data {A} (x : tensor A) S R T s t d0 : wf x -> t_shape x = S ++ R ++ T -> inside S s -> inside T t ->
  along x R s t = map Some (map (fun c => nth (Z.to_nat ((position S s * elements R + c) * elements T + position T t)) (t_data x) d0) (upto (elements R))).
Proof.
  intros [Wn Wl] E Hs Ht. unfold along. rewrite coordinates_loops.
  assert (Nr : Forall (fun d => 0 <= d) R).
  { rewrite E in Wn. apply Forall_app in Wn as [_ Wn]. now apply Forall_app in Wn as [Wn _]. }
  apply nth_error_ext. intros i.
  destruct (Nat.lt_ge_cases i (length (loops R))) as [Hi|Hi].
  - pose proof (length_loops R Nr) as Ll.
    destruct (coordinate_of R (Z.of_nat i) Nr) as (r & Hr & Pr); [lia|].
    pose proof (nth_loops R r Hr) as Nl. rewrite Pr, Nat2Z.id in Nl.
    rewrite nth_error_map, Nl. cbn [option_map]. rewrite map_map, nth_error_map.
    rewrite nth_upto_nat by lia. cbn [option_map]. f_equal.
    unfold elt. rewrite E, position_block by assumption. rewrite Pr.
    apply nth_error_nth'.
    pose proof (position_bound _ _ Hs). pose proof (position_bound _ _ Ht). pose proof (position_bound _ _ Hr).
    rewrite E, !elements_app in Wl.
    assert (0 <= position S s * elements R + Z.of_nat i < elements S * elements R) by nia. nia.
  - rewrite (proj2 (nth_error_None _ _)) by (rewrite map_length; lia).
    symmetry. apply nth_error_None. rewrite !map_length, length_upto. pose proof (length_loops R Nr). lia.
Qed.

(** *** Several updates of one place *)
Definition updates_at {A} (p : Z) (us : list (Z * sres (A -> A))) : list (A -> A) :=
  flat_map (fun u => if fst u =? p then match snd u with SOk g => [g] | _ => [] end else []) us.

Definition apply_all {A} (gs : list (A -> A)) (a : A) : A := fold_left (fun acc g => g acc) gs a.

Lemma map_set_nth {A} k (a : A) data : set_nth k (Some a) (map Some data) = map Some (set_nth k a data).
Proof. revert k. induction data as [|x data IH]; intros [|k]; cbn; try reflexivity. now rewrite IH. Qed.

Lemma upds_fold {A} (us : list (Z * sres (A -> A))) : forall (data : list A),
  (forall i f, In (i, f) us -> 0 <= i < Z.of_nat (length data) /\ exists g, f = SOk g) ->
  exists data', exec_instrs (map Some data) (map (fun u => Upd (fst u) (snd u)) us) = SOk (map Some data') /\ length data' = length data /\
    (forall i a, nth_error data i = Some a -> nth_error data' i = Some (apply_all (updates_at (Z.of_nat i) us) a)).
Proof.
  induction us as [|[i f] us IH]; intros data H.
  - exists data. split; [reflexivity|]. split; [reflexivity|]. auto.
  - destruct (H i f) as (B & g & ->); [now left|]. cbn [map exec_instrs fst snd].
    destruct (load_ok data i B) as (a & Ha & Hn).
    assert (L1 : load (map Some data) i = SOk (Some a)).
    { unfold load in *. destruct (i <? 0); [discriminate|]. rewrite nth_error_map, Hn. reflexivity. }
    rewrite L1. rewrite store_ok by (rewrite map_length; exact B). rewrite map_set_nth.
    destruct (IH (set_nth (Z.to_nat i) (g a) data)) as (data' & E & L & P).
    { intros j f' Hj. rewrite set_nth_length. apply H. now right. }
    exists data'. split; [exact E|]. rewrite set_nth_length in L. split; [exact L|].
    intros j b Hb. cbn [updates_at flat_map fst snd]. destruct (Z.eqb_spec i (Z.of_nat j)) as [->|N].
    + rewrite Nat2Z.id in *. rewrite Hn in Hb. injection Hb as ->. cbn [app apply_all fold_left].
      apply P. apply set_nth_same. lia.
    + cbn [app]. apply P. rewrite set_nth_other by lia. exact Hb.
Qed.

Lemma flat_map_single {X Y} (f : X -> list Y) (l : list X) x0 : NoDup l -> In x0 l ->
  (forall x, In x l -> x <> x0 -> f x = []) -> flat_map f l = f x0.
Proof.
  induction l as [|x l IH]; intros N Hin H; [destruct Hin|]. inversion N as [|? ? N1 N2]; subst. cbn [flat_map].
  destruct Hin as [->|Hin].
  - assert (E : flat_map f l = []).
    { clear IH. assert (G : forall y, In y l -> f y = []) by (intros y Hy; apply H; [now right|intros ->; contradiction]).
      clear - G. induction l as [|y l IH]; [reflexivity|]. cbn [flat_map]. rewrite (G y), IH; auto; [|now left]. intros z Hz. apply G. now right. }
    rewrite E. apply app_nil_r.
  - rewrite (H x); [|now left|intros ->; contradiction]. cbn [app]. apply IH; auto. intros y Hy. apply H. now right.
Qed.

Lemma updates_at_flat_map {A X} p (f : X -> list (Z * sres (A -> A))) l :
  updates_at p (flat_map f l) = flat_map (fun x => updates_at p (f x)) l.
Proof.
  unfold updates_at. induction l as [|x l IH]; [reflexivity|]. cbn [flat_map]. now rewrite flat_map_app, IH.
Qed.

Lemma updates_at_map {A} p (l : list Z) (d : Z -> Z) (v : Z -> sres (A -> A)) :
  updates_at p (map (fun w => (d w, v w)) l) = flat_map (fun w => if d w =? p then match v w with SOk g => [g] | _ => [] end else []) l.
Proof. unfold updates_at. induction l as [|w l IH]; [reflexivity|]. cbn [map flat_map fst snd]. now rewrite IH. Qed.

Definition sum_us {A} (add : A -> A -> A) (x : list A) (number channels width : Z) : list (Z * sres (A -> A)) :=
  flat_map (fun i => flat_map (fun c => map (fun w =>
    (i * width + w, lift1 (fun v acc => add acc v) (load x ((i * channels + c) * width + w))))
    (upto width)) (upto channels)) (upto number).

Lemma sum_us_eq {A} (add : A -> A -> A) x n ch w :
  sum_updates add x n ch w = map (fun u : Z * sres (A -> A) => Upd (fst u) (snd u)) (sum_us add x n ch w).
Proof.
  unfold sum_updates, sum_us. rewrite map_flat_map'. apply flat_map_ext. intros i. rewrite map_flat_map'. apply flat_map_ext. intros c.
  rewrite map_map. reflexivity.
Qed.

Lemma zeros_compute {A} (zero : A) n : exec_instrs (fresh n) (zeros zero n) = SOk (map Some (map (fun _ => zero) (upto n))).
Proof. unfold zeros. apply (puts_compute n (fun _ => zero) (upto n) (fun _ => SOk zero)); [intros i; apply In_upto|reflexivity]. Qed.

(** what the sum of row [i] and place [w] is *)
Definition sum_value {A} (add : A -> A -> A) (zero : A) (x : list A) ch w (p : Z) : A :=
  fold_left add (map (fun c => nth (Z.to_nat ((p / w * ch + c) * w + p mod w)) x zero) (upto ch)) zero.

Lemma fold_apply {A} (add : A -> A -> A) (vs : list A) z :
  apply_all (map (fun v acc => add acc v) vs) z = fold_left add vs z.
Proof. unfold apply_all. revert z. induction vs as [|v vs IH]; intros z; [reflexivity|]. cbn [map fold_left]. apply IH. Qed.

Lemma sum_compute {A} (add : A -> A -> A) (zero : A) (x : list A) n ch w : 0 <= n -> 0 <= ch -> 0 <= w ->
  Z.of_nat (length x) = n * ch * w ->
  computes (n * w) (sum_value add zero x ch w) (zeros zero (n * w) ++ sum_updates add x n ch w).
Proof.
  intros Hn Hc Hw Lx. unfold computes. rewrite (exec_instrs_app _ _ _ _ (zeros_compute zero (n * w))). rewrite sum_us_eq.
  assert (Hin : forall i c k, 0 <= i < n -> 0 <= c < ch -> 0 <= k < w -> 0 <= (i * ch + c) * w + k < Z.of_nat (length x)).
  { intros i c k H1 H2 H3. rewrite Lx. assert (0 <= i * ch + c < n * ch) by nia. nia. }
  destruct (upds_fold (sum_us add x n ch w) (map (fun _ => zero) (upto (n * w)))) as (data' & E & L & P).
  { intros j f H. unfold sum_us in H. apply in_flat_map in H. destruct H as (i & Hi & H). apply in_flat_map in H. destruct H as (c & Hcc & H).
    apply in_map_iff in H. destruct H as (k & [= <- <-] & Hk). apply In_upto in Hi, Hcc, Hk.
    rewrite map_length, length_upto. split; [nia|]. destruct (load_ok x _ (Hin i c k Hi Hcc Hk)) as (a & -> & _). cbn [lift1]. eauto. }
  rewrite E. do 2 f_equal. rewrite map_length, length_upto in L.
  apply nth_error_ext. intros q. destruct (Nat.lt_ge_cases q (Z.to_nat (n * w))) as [Hq|Hq].
  2:{ rewrite (proj2 (nth_error_None _ _)) by lia. symmetry. apply nth_error_None. rewrite map_length, length_upto. lia. }
  assert (B : 0 <= Z.of_nat q < n * w) by lia.
  assert (Nz : nth_error (upto (n * w)) q = Some (Z.of_nat q)).
  { replace q with (Z.to_nat (Z.of_nat q)) at 1 by apply Nat2Z.id. now apply nth_error_upto. }
  rewrite (P q zero) by (rewrite nth_error_map, Nz; reflexivity).
  rewrite nth_error_map, Nz. cbn [option_map]. f_equal. set (p := Z.of_nat q) in *.
  assert (0 < w) by nia. set (i0 := p / w). set (k0 := p mod w).
  assert (Ep : p = i0 * w + k0) by (unfold i0, k0; rewrite Z.mul_comm; apply Z.div_mod; lia).
  assert (Hk0 : 0 <= k0 < w) by (apply Z.mod_pos_bound; lia).
  assert (Hi0 : 0 <= i0 < n) by nia.
  unfold sum_us. rewrite updates_at_flat_map.
  rewrite (flat_map_single _ _ i0); [|apply NoDup_upto|now apply In_upto|].
  2:{ intros i Hi Ne. apply In_upto in Hi. rewrite updates_at_flat_map. apply flat_map_nil. intros c _. rewrite updates_at_map. apply flat_map_nil.
      intros k Hk. apply In_upto in Hk. destruct (Z.eqb_spec (i * w + k) p) as [X|X]; [|reflexivity]. exfalso. apply Ne. nia. }
  rewrite updates_at_flat_map.
  assert (Ec : flat_map (fun c => updates_at p (map (fun k => (i0 * w + k, lift1 (fun v acc => add acc v) (load x ((i0 * ch + c) * w + k)))) (upto w))) (upto ch)
             = map (fun v acc => add acc v) (map (fun c => nth (Z.to_nat ((i0 * ch + c) * w + k0)) x zero) (upto ch))).
  { assert (G : forall c, In c (upto ch) -> updates_at p (map (fun k => (i0 * w + k, lift1 (fun v acc => add acc v) (load x ((i0 * ch + c) * w + k)))) (upto w))
      = [fun acc => add acc (nth (Z.to_nat ((i0 * ch + c) * w + k0)) x zero)]).
    { intros c Hcc. apply In_upto in Hcc. rewrite updates_at_map. rewrite (flat_map_single _ _ k0); [|apply NoDup_upto|now apply In_upto|].
      - rewrite <- Ep, Z.eqb_refl. destruct (load_ok x _ (Hin i0 c k0 Hi0 Hcc Hk0)) as (a & -> & Ha). cbn [lift1]. now rewrite (nth_error_nth _ _ zero Ha).
      - intros k Hk Ne. apply In_upto in Hk. destruct (Z.eqb_spec (i0 * w + k) p); [lia|reflexivity]. }
    clear - G. induction (upto ch) as [|c cs IH]; [reflexivity|]. cbn [flat_map map]. rewrite (G c) by now left. rewrite IH by (intros c' Hc'; apply G; now right). reflexivity. }
  rewrite Ec, fold_apply. reflexivity.
Qed.
