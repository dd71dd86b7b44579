(** Properties of slice, slice_v2 and slice_v3. *)
From Coq Require Import List ZArith Bool Lia.
From Verif Require Import ShapeModel ShapeSpec ShapeProofs KernelBase KernelSpec KernelProofs CoordProofs TileModel SliceModel SliceSpec SliceProofs PropsSlice SliceOpModel.
Import ListNotations.
Local Open Scope Z_scope.

(** ** C114: slice cuts a box out of a tensor. *)

(** the length of the box along an axis of length [n]: from [b] to the end if
    the size is negative *)
Definition box_size (n b s : Z) : Z := if s <? 0 then n - b else s.
Definition fits_axis (a : Z * (Z * Z)) : Prop := let '(n, (b, s)) := a in 0 <= b < n /\ b + box_size n b s <= n.
Definition axes_of (shape begin size : list Z) : list (Z * (Z * Z)) := combine shape (combine begin size).
Definition plus (c b : list Z) : list Z := map (fun cb => fst cb + snd cb) (combine c b).

Lemma to_int32_id v : int_min <= v <= int_max -> to_int32 v = v.
Proof. unfold to_int32. intros H. rewrite (proj2 (Z.ltb_ge int_max v)), (proj2 (Z.ltb_ge v int_min)) by lia. now rewrite !andb_false_r. Qed.
Lemma to_int32_big v : int_max < v -> to_int32 v = int_max.
Proof. intros H. unfold to_int32, int_max in *. rewrite !(proj2 (Z.ltb_lt _ _)) by lia. reflexivity. Qed.
Lemma to_int32_small v : v < int_min -> to_int32 v = int_min.
Proof. intros H. unfold to_int32, int_max, int_min in *. rewrite (proj2 (Z.ltb_ge 0 v)) by lia. cbn [andb]. rewrite !(proj2 (Z.ltb_lt _ _)) by lia. reflexivity. Qed.

Lemma fits_cons n b s l : Forall fits_axis ((n, (b, s)) :: l) -> (0 <= b < n /\ b + box_size n b s <= n) /\ Forall fits_axis l.
Proof. intros F. inversion F as [|? ? Ff F']; subst. split; [exact Ff|exact F']. Qed.
Lemma slice_dims_ok : forall shape begin size, length begin = length shape -> length size = length shape ->
  Forall (fun n => n < int_max) shape ->
  (Forall fits_axis (axes_of shape begin size) /\ map to_int32 begin = begin /\
     slice_dims shape (map to_int32 begin) (map to_int32 size) = SOk (map (fun '(n, (b, s)) => box_size n b s) (axes_of shape begin size))) \/
  (~ Forall fits_axis (axes_of shape begin size) /\
     (slice_dims shape (map to_int32 begin) (map to_int32 size) = SErr \/
      (slice_dims shape (map to_int32 begin) (map to_int32 size) = SUndef /\
       Exists (fun '(n, (b, s)) => 0 < b < n /\ int_max < b + Z.min s int_max) (axes_of shape begin size)))).
Proof.
  induction shape as [|n shape IH]; intros [|b begin] [|s size] L1 L2 B; cbn in L1, L2; try discriminate.
  { left. split; [constructor|]. split; reflexivity. }
  inversion B as [|? ? Bn Bs]; subst. cbn [map slice_dims axes_of combine]. fold (axes_of shape begin size).
  specialize (IH begin size ltac:(lia) ltac:(lia) Bs).
  assert (Nf : ~ (0 <= b < n) -> ~ Forall fits_axis ((n, (b, s)) :: axes_of shape begin size)).
  { intros N F. apply fits_cons in F; destruct F as [[F1 F2] _]. contradiction. }
  assert (E1 : (0 <=? to_int32 b) && (to_int32 b <? n) = (0 <=? b) && (b <? n)).
  { destruct (Z_lt_le_dec int_max b) as [H|H].
    - rewrite (to_int32_big b H). rewrite (proj2 (Z.ltb_ge int_max n)), (proj2 (Z.ltb_ge b n)) by lia. now rewrite !andb_false_r.
    - destruct (Z_lt_le_dec b int_min) as [H'|H'].
      + rewrite (to_int32_small b H'). rewrite (proj2 (Z.leb_gt 0 b)) by (unfold int_min in H'; lia). reflexivity.
      + now rewrite to_int32_id by lia. }
  rewrite E1. destruct ((0 <=? b) && (b <? n)) eqn:Eb; cbn [negb].
  2: { right. split; [|left; reflexivity]. apply Nf. intros H. apply andb_false_iff in Eb. rewrite Z.leb_gt, Z.ltb_ge in Eb. lia. }
  apply andb_true_iff in Eb. rewrite Z.leb_le, Z.ltb_lt in Eb.
  assert (Ib : to_int32 b = b) by (apply to_int32_id; unfold int_min; lia). rewrite Ib in *.
  set (s' := to_int32 s).
  assert (Hs : (s <? 0) = (s' <? 0) /\ (0 <= s -> s' = Z.min s int_max)).
  { unfold s'. destruct (Z_lt_le_dec int_max s) as [H|H].
    - rewrite (to_int32_big s H). split; [|lia]. rewrite (proj2 (Z.ltb_ge s 0)), (proj2 (Z.ltb_ge int_max 0)) by (unfold int_max in *; lia). reflexivity.
    - destruct (Z_lt_le_dec s int_min) as [H'|H'].
      + rewrite (to_int32_small s H'). split; [|unfold int_min in H'; lia]. rewrite !(proj2 (Z.ltb_lt _ 0)) by (unfold int_min in *; lia). reflexivity.
      + rewrite to_int32_id by lia. split; [reflexivity|lia]. }
  destruct Hs as [Hs1 Hs2]. clearbody s'. rewrite <- Hs1.
  assert (Box : box_size n b s = (if s <? 0 then n - b else s)) by reflexivity.
  destruct (Z.ltb_spec s 0) as [Ns|Ps].
  - rewrite (proj2 (Z.ltb_ge int_max (b + (n - b)))) by lia. rewrite (proj2 (Z.leb_le (b + (n - b)) n)) by lia. cbn [negb].
    destruct IH as [(F & Em & ->)|(NF & D)].
    + left. split; [constructor; [split; [lia|rewrite Box; lia]|exact F]|]. split; [now rewrite Em|]. cbn [map]. now rewrite Box.
    + right. split; [intros F; inversion F; contradiction|]. destruct D as [->|[-> Ex]]; [now left|]. right. split; [reflexivity|]. now right.
  - rewrite (Hs2 Ps).
    destruct (Z.ltb_spec int_max (b + Z.min s int_max)) as [O|O].
    { right. split; [intros F; apply fits_cons in F; destruct F as [[F1 F2] _]; rewrite Box in F2; lia|]. right. split; [reflexivity|]. left. lia. }
    destruct (Z.leb_spec (b + Z.min s int_max) n) as [Le|Gt]; cbn [negb].
    + assert (M : Z.min s int_max = s) by lia. rewrite M in *.
      destruct IH as [(F & Em & ->)|(NF & D)].
      * left. split; [constructor; [split; [lia|rewrite Box; lia]|exact F]|]. split; [now rewrite Em|]. cbn [map]. now rewrite Box.
      * right. split; [intros F; inversion F; contradiction|]. destruct D as [->|[-> Ex]]; [now left|]. right. split; [reflexivity|]. now right.
    + right. split; [|now left]. intros F. apply fits_cons in F; destruct F as [[F1 F2] _]. rewrite Box in F2. lia.
Qed.

Lemma inside_plus : forall shape begin size c, length begin = length shape -> length size = length shape -> Forall fits_axis (axes_of shape begin size) ->
  inside (map (fun '(n, (b, s)) => box_size n b s) (axes_of shape begin size)) c -> inside shape (plus c begin).
Proof.
  induction shape as [|n shape IH]; intros [|b begin] [|s size] c L1 L2 F I; cbn in L1, L2; try discriminate; cbn in I.
  - inversion I; subst. constructor.
  - cbn in F. apply fits_cons in F; destruct F as [[F1 F2] F']. inversion I as [|? k ? c' Hk I']; subst. cbn. constructor; [lia|]. apply (IH begin size c'); auto; lia.
Qed.
Lemma box_nonneg : forall shape begin size, Forall fits_axis (axes_of shape begin size) -> nonneg_shape (map (fun '(n, (b, s)) => box_size n b s) (axes_of shape begin size)).
Proof.
  intros shape begin size F. unfold nonneg_shape. rewrite Forall_map. eapply Forall_impl; [|exact F]. intros (n & b & s) [H1 H2].
  unfold box_size in *. destruct (Z.ltb_spec s 0); lia.
Qed.

Theorem C114_slice {A} (x : tensor A) begin size : wf x -> Forall (fun n => n < int_max) (t_shape x) -> tile_supports (t_dtype x) = true ->
  length begin = length (t_shape x) -> length size = length (t_shape x) -> Forall fits_axis (axes_of (t_shape x) begin size) ->
  exists out, slice begin size x = SOk (filled out) /\ wf out /\ t_dtype out = t_dtype x /\
    t_shape out = map (fun '(n, (b, s)) => box_size n b s) (axes_of (t_shape x) begin size) /\
    forall c, inside (t_shape out) c -> inside (t_shape x) (plus c begin) /\ elt out c = elt x (plus c begin).
Proof.
  intros [N W] B Sup L1 L2 F. unfold slice, slice_shape. rewrite !map_length, L1, L2, !Nat.eqb_refl. cbn [andb negb].
  destruct (slice_dims_ok (t_shape x) begin size L1 L2 B) as [(_ & Em & ->)|(NF & _)]; [|contradiction].
  rewrite Sup. cbn [negb]. rewrite Em. set (y := map _ _).
  assert (Ny : nonneg_shape y) by now apply box_nonneg.
  assert (In_ : forall c, inside y c -> inside (t_shape x) (plus c begin)) by (intros c; apply inside_plus; auto).
  assert (Ld : forall c, inside (t_shape x) c -> exists a, to_index (t_shape x) c = SOk (position (t_shape x) c) /\ load (t_data x) (position (t_shape x) c) = SOk a /\ elt x c = Some a).
  { intros c Hc. pose proof (position_bound _ _ Hc) as P. rewrite <- W in P. destruct (load_ok (t_data x) _ P) as (a & E & Ea). exists a.
    split; [|split; [exact E|exact Ea]]. rewrite to_index_ok by (rewrite (inside_length _ _ Hc); lia). rewrite (inside_length _ _ Hc), Nat.sub_diag. reflexivity. }
  set (g := fun c => match to_index (t_shape x) (plus c begin) with SOk j => load (t_data x) j | _ => SUndef end).
  destruct (coord_exec y g (slice_events (t_data x) (t_shape x) y begin) Ny) as (out & E & Lo & K).
  - intros Hp. unfold slice_events, upto. rewrite prod_elements, map_map. apply map_ext_in. intros k Hk. apply in_seq in Hk. f_equal.
    destruct (coordinate_at y k Hp ltac:(lia)) as [I P].
    destruct (to_coordinate_ok y (Z.of_nat k) Hp ltac:(lia)) as (c & -> & I' & P').
    replace c with (coordinate y k) by (apply (position_inj y); auto; lia). reflexivity.
  - intros He. unfold slice_events. rewrite prod_elements, He. reflexivity.
  - intros c Hc. destruct (Ld (plus c begin) (In_ c Hc)) as (a & E1 & E2 & _). exists a. unfold g. now rewrite E1.
  - rewrite prod_elements, E. exists (Tn (t_dtype x) y out). split; [reflexivity|]. split; [split; [exact Ny|exact Lo]|]. split; [reflexivity|]. split; [reflexivity|].
    intros c Hc. split; [now apply In_|]. destruct (Ld (plus c begin) (In_ c Hc)) as (a & E1 & E2 & E3). rewrite E3. unfold elt. cbn [t_data t_shape].
    apply K; [exact Hc|]. unfold g. now rewrite E1.
Qed.
(** A box that does not fit is refused, except that a size above 2^31 - 1 with
    an offset is undefined. *)
Theorem C114_refused_partial {A} (x : tensor A) begin size : Forall (fun n => n < int_max) (t_shape x) ->
  length begin <> length (t_shape x) \/ length size <> length (t_shape x) \/ tile_supports (t_dtype x) = false \/ ~ Forall fits_axis (axes_of (t_shape x) begin size) ->
  slice begin size x = SErr \/
  (slice begin size x = SUndef /\ Exists (fun '(n, (b, s)) => 0 < b < n /\ int_max < b + Z.min s int_max) (axes_of (t_shape x) begin size)).
Proof.
  intros B H. unfold slice, slice_shape. rewrite !map_length.
  destruct (Nat.eqb_spec (length size) (length begin)) as [E1|E1]; [|now left].
  destruct (Nat.eqb_spec (length size) (length (t_shape x))) as [E2|E2]; [|now left]. cbn [andb negb].
  destruct (slice_dims_ok (t_shape x) begin size ltac:(lia) E2 B) as [(F & _ & ->)|(NF & [->|[-> Ex]])]; [|now left|right; auto].
  left. destruct H as [H|[H|[H|H]]]; [lia|lia| |contradiction]. now rewrite H.
Qed.
Print Assumptions C114_slice.
Print Assumptions C114_refused_partial.
Example C114_example : slice [1; 1] [1; -1] (Tn 10 [3; 4] [0; 1; 2; 3; 4; 5; 6; 7; 8; 9; 10; 11]) = SOk (filled (Tn 10 [1; 3] [5; 6; 7])).
Proof. reflexivity. Qed.
Example C114_example_error : slice [1; 4] [1; 0] (Tn 10 [3; 4] [0; 1; 2; 3; 4; 5; 6; 7; 8; 9; 10; 11]) = SErr.
Proof. reflexivity. Qed.
(** "all the rest" spelt as a huge size is undefined *)
Theorem C114_huge_size_refuted : exists (x : tensor Z) begin size, wf x /\ slice begin size x = SUndef.
Proof. exists (Tn 10 [3] [5; 6; 7]), [1], [int_max]. split; [split; [repeat constructor; lia|reflexivity]|reflexivity]. Qed.
Print Assumptions C114_huge_size_refuted.

(** ** C115: slice_v3 slices the listed axes as Python does and keeps the others. *)
Lemma check_axes_ok dims : forall axes pre, Forall (fun a => 0 <= a < dims) axes -> (forall a, In a axes -> pre < a) ->
  (forall i j, (i < j < length axes)%nat -> nth i axes 0 < nth j axes 0) -> check_axes dims pre axes = SOk axes.
Proof.
  induction axes as [|a axes IH]; intros pre F P S; [reflexivity|]. inversion F as [|? ? Fa F']; subst. cbn [check_axes].
  rewrite (proj2 (Z.ltb_ge a (- dims))), (proj2 (Z.leb_gt dims a)), (proj2 (Z.ltb_ge a 0)) by lia. cbn [orb].
  rewrite (proj2 (Z.leb_gt a pre)) by (apply P; now left). rewrite IH; [reflexivity|exact F'| |].
  - intros b Hb. apply (In_nth _ _ 0) in Hb. destruct Hb as (k & Hk & <-). apply (S 0%nat (Datatypes.S k)). cbn [length]. lia.
  - intros i j Hij. apply (S (Datatypes.S i) (Datatypes.S j)). cbn [length]. lia.
Qed.
Lemma max_of_spec l : (forall a, In a l -> a <= max_of l) /\ -1 <= max_of l /\ (forall d, -1 <= d -> (forall a, In a l -> a <= d) -> max_of l <= d).
Proof.
  unfold max_of. generalize (-1). induction l as [|b l IH]; intros m; cbn [fold_left].
  - split; [intros a []|]. split; [lia|]. auto.
  - destruct (IH (Z.max m b)) as (H1 & H2 & H3). split; [intros a [->|Ha]; [lia|auto]|]. split; [lia|]. intros d Hd Ha. apply H3; [pose proof (Ha b (or_introl eq_refl)); lia|]. intros a H. apply Ha. now right.
Qed.
Lemma nth_set_nth {A} k (v d : A) (l : list A) j : (k < length l)%nat -> nth j (set_nth k v l) d = if Nat.eqb k j then v else nth j l d.
Proof.
  intros H. destruct (Nat.eqb_spec k j) as [->|N].
  - apply nth_error_nth. now apply set_nth_same.
  - rewrite <- !nth_default_eq. unfold nth_default. rewrite set_nth_other by congruence. reflexivity.
Qed.
Definition sized (m : nat) (p : v3_params) : Prop := length (v3_begin p) = m /\ length (v3_end p) = m /\ length (v3_stride p) = m.
Lemma v3_fill_ok m : forall starts ends axes steps p, length ends = length starts -> length axes = length starts -> length steps = length starts ->
  NoDup axes -> Forall (fun a => 0 <= a < Z.of_nat m) axes -> sized m p ->
  exists p', v3_fill starts ends axes steps p = SOk p' /\ sized m p' /\
    (forall i, (i < length starts)%nat -> let j := nth i axes 0 in
       nth (Z.to_nat j) (v3_begin p') 0 = nth i starts 0 /\ nth (Z.to_nat j) (v3_end p') 0 = nth i ends 0 /\ nth (Z.to_nat j) (v3_stride p') 0 = nth i steps 0 /\
       Z.testbit (v3_begin_mask p') j = false /\ Z.testbit (v3_end_mask p') j = false) /\
    (forall j, 0 <= j -> ~ In j axes ->
       nth (Z.to_nat j) (v3_stride p') 0 = nth (Z.to_nat j) (v3_stride p) 0 /\
       Z.testbit (v3_begin_mask p') j = Z.testbit (v3_begin_mask p) j /\ Z.testbit (v3_end_mask p') j = Z.testbit (v3_end_mask p) j).
Proof.
  induction starts as [|s starts IH]; intros [|e ends] [|a axes] [|st steps] p L1 L2 L3 ND F Sz; cbn in L1, L2, L3; try discriminate.
  { exists p. split; [reflexivity|]. split; [exact Sz|]. split; [cbn; intros; lia|auto]. }
  inversion ND as [|? ? Na ND']; subst. inversion F as [|? ? Fa F']; subst. destruct Sz as (S1 & S2 & S3). cbn [v3_fill].
  rewrite (proj2 (Z.ltb_ge a 0)), S1, (proj2 (Z.leb_gt (Z.of_nat m) a)) by lia. cbn [orb].
  match goal with |- context[v3_fill starts ends axes steps ?q] => set (p1 := q) end.
  destruct (IH ends axes steps p1) as (p' & E & Sz' & K1 & K2); try lia; auto.
  { unfold p1, sized. cbn. rewrite !set_nth_length. auto. }
  exists p'. split; [exact E|]. split; [exact Sz'|].
  assert (Own : forall p0 : v3_params, p0 = p1 -> nth (Z.to_nat a) (v3_begin p0) 0 = s /\ nth (Z.to_nat a) (v3_end p0) 0 = e /\ nth (Z.to_nat a) (v3_stride p0) 0 = st).
  { intros p0 ->. unfold p1. cbn. rewrite !nth_set_nth by lia. rewrite !Nat.eqb_refl. auto. }
  split.
  - intros i Hi. destruct i as [|i]; cbn [nth].
    + (* the entry just written is kept *)
      assert (Keep : forall starts ends axes steps q q', ~ In a axes -> v3_fill starts ends axes steps q = SOk q' -> Forall (fun b => 0 <= b < Z.of_nat m) axes -> sized m q ->
         nth (Z.to_nat a) (v3_begin q') 0 = nth (Z.to_nat a) (v3_begin q) 0 /\ nth (Z.to_nat a) (v3_end q') 0 = nth (Z.to_nat a) (v3_end q) 0 /\ nth (Z.to_nat a) (v3_stride q') 0 = nth (Z.to_nat a) (v3_stride q) 0).
      { clear - Fa. induction starts as [|s' starts IH]; intros ends axes steps q q' Na E F (Z1 & Z2 & Z3).
        - cbn in E. injection E as <-. auto.
        - destruct axes as [|b axes]; [cbn in E; injection E as <-; auto|]. cbn [v3_fill] in E. destruct ends as [|e' ends]; [discriminate|]. destruct steps as [|t steps]; [discriminate|].
          destruct (_ || _); [discriminate|]. inversion F as [|? ? Fb F']; subst. apply IH in E; [| |exact F'|].
          + cbn in E. rewrite !nth_set_nth in E by lia. assert (Nb : Z.to_nat b <> Z.to_nat a) by (intros Q; apply Na; left; lia).
            rewrite (proj2 (Nat.eqb_neq _ _) Nb) in E. exact E.
          + intros H. apply Na. now right.
          + unfold sized. cbn. rewrite !set_nth_length. auto. }
      destruct (Keep starts ends axes steps p1 p' Na E F') as (Q1 & Q2 & Q3).
      { unfold p1, sized. cbn. rewrite !set_nth_length. auto. }
      destruct (Own p1 eq_refl) as (O1 & O2 & O3). rewrite Q1, Q2, Q3. split; [exact O1|]. split; [exact O2|]. split; [exact O3|].
      destruct (K2 a ltac:(lia) Na) as (_ & B1 & B2). rewrite B1, B2. unfold p1. cbn. rewrite !Z.clearbit_eqb, Z.eqb_refl. now rewrite !andb_false_r.
    + apply K1. cbn [length] in Hi. lia.
  - intros j Hj Nj. destruct (K2 j Hj ltac:(intros H; apply Nj; now right)) as (B0 & B1 & B2). rewrite B0, B1, B2. unfold p1. cbn.
    assert (Na' : a <> j) by (intros ->; apply Nj; now left).
    rewrite nth_set_nth by lia. rewrite (proj2 (Nat.eqb_neq _ _)) by lia. rewrite !Z.clearbit_eqb, (proj2 (Z.eqb_neq a j)) by exact Na'. now rewrite !andb_true_r.
Qed.

Lemma adjust_int32 n lo hi b : 0 <= n <= int_max -> -1 <= lo <= 0 -> lo <= hi <= n -> adjust n lo hi (to_int32 b) = adjust n lo hi b.
Proof.
  intros Hn Hl Hh. unfold adjust. destruct (Z_lt_le_dec int_max b) as [H|H].
  - rewrite (to_int32_big b H), !(proj2 (Z.ltb_ge _ 0)) by (unfold int_max in *; lia). unfold int_max in *. lia.
  - destruct (Z_lt_le_dec b int_min) as [H'|H'].
    + rewrite (to_int32_small b H'), !(proj2 (Z.ltb_lt _ 0)) by (unfold int_min in *; lia). unfold int_min, int_max in *. lia.
    + now rewrite to_int32_id by lia.
Qed.
Lemma py_slice_int32 n b e step l : 0 <= n <= int_max -> py_slice n (Some (to_int32 b)) (Some (to_int32 e)) step l -> py_slice n (Some b) (Some e) step l.
Proof.
  intros Hn. unfold py_slice, py_begin, py_end. destruct (Z.ltb_spec 0 step).
  - now rewrite !adjust_int32 by lia.
  - destruct (Z.eq_dec n 0) as [->|].
    + assert (Z0 : forall v, adjust 0 (-1) (0 - 1) v = -1) by (intros v; unfold adjust; lia). now rewrite !Z0.
    + now rewrite !adjust_int32 by lia.
Qed.
Lemma py_slice_all n : 0 <= n -> py_slice n None None 1 (upto n).
Proof.
  intros Hn. split; cbn.
  - intros k Hk. unfold upto in *. rewrite map_length, seq_length in Hk. rewrite (nth_indep _ 0 (Z.of_nat 0)) by (rewrite map_length, seq_length; lia). rewrite map_nth, seq_nth by lia. lia.
  - intros k Hk. rewrite length_upto. lia.
Qed.
Definition increasing (l : list Z) : Prop := forall i j, (i < j < length l)%nat -> nth i l 0 < nth j l 0.
Lemma increasing_nodup l : increasing l -> NoDup l.
Proof.
  intros H. rewrite (NoDup_nth l 0). intros i j Hi Hj E. destruct (Nat.lt_trichotomy i j) as [L|[->|L]]; [|reflexivity|].
  - pose proof (H i j ltac:(lia)). lia.
  - pose proof (H j i ltac:(lia)). lia.
Qed.

(** Axes listed without sign in increasing order; a stop of exactly minus the
    length with a negative step is the case where the code differs from Python
    (C36_axis_refuted). *)
Theorem C115_slice_v3_partial {A} (x : tensor A) starts ends axes steps : wf x -> Forall (fun n => n <= int_max) (t_shape x) -> starts <> [] ->
  length ends = length starts -> length axes = length starts -> length steps = length starts ->
  Z.of_nat (length (t_shape x)) <= int_max ->
  increasing axes -> Forall (fun a => 0 <= a < Z.of_nat (length (t_shape x))) axes ->
  Forall (fun s => s <> 0 /\ - int_max <= s <= int_max) steps ->
  (forall i, (i < length starts)%nat -> nth i steps 0 < 0 -> nth i ends 0 <> - nth (Z.to_nat (nth i axes 0)) (t_shape x) 0) ->
  exists out sel, slice_v3 starts ends (Some axes) (Some steps) x = SOk (filled out) /\ wf out /\ length sel = length (t_shape x) /\
    (forall i, (i < length starts)%nat -> let j := Z.to_nat (nth i axes 0) in
       py_slice (nth j (t_shape x) 0) (Some (nth i starts 0)) (Some (nth i ends 0)) (nth i steps 0) (nth j sel [])) /\
    (forall j, (j < length (t_shape x))%nat -> ~ In (Z.of_nat j) axes -> nth j sel [] = upto (nth j (t_shape x) 0)) /\
    selected sel x out.
Proof.
  intros W B Ns L1 L2 L3 Hd Inc Fa Fs He. set (dims := Z.of_nat (length (t_shape x))) in *.
  assert (Ia : map to_int32 axes = axes).
  { rewrite <- (map_id axes) at 2. apply map_ext_in. intros a Ha. rewrite Forall_forall in Fa. specialize (Fa a Ha). apply to_int32_id. unfold int_min. lia. }
  assert (Is : map to_int32 steps = steps).
  { rewrite <- (map_id steps) at 2. apply map_ext_in. intros a Ha. rewrite Forall_forall in Fs. specialize (Fs a Ha). apply to_int32_id. unfold int_min, int_max in *. lia. }
  unfold slice_v3. cbn [option_map]. rewrite Ia, Is. fold dims. unfold load_params. rewrite !map_length.
  destruct (Nat.eqb_spec (length starts) 0) as [E0|N0]; [destruct starts; [congruence|discriminate]|]. rewrite L2, Nat.eqb_refl. cbn [negb].
  rewrite (check_axes_ok dims axes int_min Fa).
  2: { intros a Ha. rewrite Forall_forall in Fa. specialize (Fa a Ha). unfold int_min. lia. }
  2: { exact Inc. }
  destruct (max_of_spec axes) as (M1 & M2 & M3).
  assert (M4 : max_of axes + 1 <= dims).
  { assert (max_of axes <= dims - 1); [|lia]. apply M3; [lia|]. intros a Ha. rewrite Forall_forall in Fa. specialize (Fa a Ha). lia. }
  assert (M5 : 0 <= max_of axes).
  { destruct axes as [|a axes]; [cbn in L2; lia|]. rewrite Forall_forall in Fa. specialize (Fa a (or_introl eq_refl)). specialize (M1 a (or_introl eq_refl)). lia. }
  set (m := Z.to_nat (max_of axes + 1)).
  match goal with |- context[v3_fill _ _ _ _ ?q] => set (p0 := q) end.
  destruct (v3_fill_ok m (map to_int32 starts) (map to_int32 ends) axes steps p0) as (p & E & (Z1 & Z2 & Z3) & K1 & K2); rewrite ?map_length; try lia.
  { now apply increasing_nodup. }
  { rewrite Forall_forall in *. intros a Ha. specialize (Fa a Ha). specialize (M1 a Ha). lia. }
  { unfold p0, sized. cbn. rewrite !repeat_length. auto. }
  rewrite E. rewrite map_length in K1.
  assert (Ones : forall j, 0 <= j <= max_of axes + 1 -> Z.testbit (2 ^ (max_of axes + 1 + 1) - 1) j = true).
  { intros j Hj. replace (2 ^ (max_of axes + 1 + 1) - 1) with (Z.ones (max_of axes + 1 + 1)) by (rewrite Z.ones_equiv; lia). apply Z.ones_spec_low. lia. }
  assert (Cases : forall j, (j < m)%nat -> (exists i, (i < length starts)%nat /\ Z.to_nat (nth i axes 0) = j) \/ ~ In (Z.of_nat j) axes).
  { intros j Hj. destruct (in_dec Z.eq_dec (Z.of_nat j) axes) as [H|H]; [left|now right]. apply (In_nth _ _ 0) in H. destruct H as (i & Hi & Ei). exists i. split; [lia|]. rewrite Ei. lia. }
  assert (Pa : forall i, (i < length starts)%nat -> 0 <= nth i axes 0 < dims /\ nth i axes 0 <= max_of axes).
  { intros i Hi. assert (In (nth i axes 0) axes) by (apply nth_In; lia). rewrite Forall_forall in Fa. split; auto. }
  assert (Off : forall j, (j < m)%nat -> ~ In (Z.of_nat j) axes -> nth j (v3_stride p) 0 = 1 /\ Z.testbit (v3_begin_mask p) (Z.of_nat j) = true /\ Z.testbit (v3_end_mask p) (Z.of_nat j) = true).
  { intros j Hj Nj. destruct (K2 (Z.of_nat j) ltac:(lia) Nj) as (Q1 & Q2 & Q3). rewrite Nat2Z.id in Q1. rewrite Q1, Q2, Q3. unfold p0. cbn.
    rewrite Ones by lia. split; [|auto]. rewrite (nth_indep _ 0 1) by (rewrite repeat_length; lia). apply nth_repeat. }
  assert (Nstep : forall i, (i < length starts)%nat -> nth i steps 0 <> 0).
  { intros i Hi. rewrite Forall_forall in Fs. apply (Fs (nth i steps 0)). apply nth_In. lia. }
  destruct (C36_tensor_partial x (v3_begin p) (v3_end p) (v3_stride p) (v3_begin_mask p) (v3_end_mask p) W) as (out & sel & Eo & Wo & Ls & S1 & S2 & Sel).
  - lia.
  - lia.
  - unfold dims in *. lia.
  - apply Forall_forall. intros s Hs. apply (In_nth _ _ 0) in Hs. destruct Hs as (j & Hj & <-). rewrite Z3 in Hj. destruct (Cases j Hj) as [(i & Hi & Ei)|Nj].
    + destruct (K1 i Hi) as (_ & _ & Q & _). rewrite Ei in Q. rewrite Q. now apply Nstep.
    + destruct (Off j Hj Nj) as (-> & _). lia.
  - intros j Hj Neg Bit. rewrite Z1 in Hj. destruct (Cases j Hj) as [(i & Hi & Ei)|Nj].
    + destruct (K1 i Hi) as (_ & Qe & Q & _). rewrite Ei in Q, Qe. rewrite Q in Neg. rewrite Qe. specialize (He i Hi Neg). rewrite Ei in He.
      rewrite (nth_indep _ 0 (to_int32 0)), map_nth by (rewrite map_length; lia). intros Heq. apply He.
      assert (Hn : 0 <= nth j (t_shape x) 0 <= int_max).
      { assert (In (nth j (t_shape x) 0) (t_shape x)) by (apply nth_In; unfold dims in *; lia). destruct W as [W _]. rewrite Forall_forall in W, B. split; auto. }
      revert Heq. destruct (Z_lt_le_dec int_max (nth i ends 0)) as [H|H]; [rewrite (to_int32_big _ H); unfold int_max in *; lia|].
      destruct (Z_lt_le_dec (nth i ends 0) int_min) as [H'|H']; [rewrite (to_int32_small _ H'); unfold int_min, int_max in *; lia|]. now rewrite to_int32_id by lia.
    + destruct (Off j Hj Nj) as (Q & _). lia.
  - exists out, sel. split; [exact Eo|]. split; [exact Wo|]. split; [exact Ls|]. split; [|split; [|exact Sel]].
    + intros i Hi. destruct (Pa i Hi) as [P1 P2]. destruct (K1 i Hi) as (Q1 & Q2 & Q3 & Q4 & Q5). specialize (S1 (Z.to_nat (nth i axes 0)) ltac:(lia)).
      rewrite Z2Nat.id, Q1, Q2, Q3, Q4, Q5 in S1 by lia. cbn [unless] in S1.
      rewrite (nth_indep (map to_int32 starts) 0 (to_int32 0)), (nth_indep (map to_int32 ends) 0 (to_int32 0)), !map_nth in S1 by (rewrite map_length; lia).
      apply py_slice_int32 in S1; [exact S1|].
      assert (In (nth (Z.to_nat (nth i axes 0)) (t_shape x) 0) (t_shape x)) by (apply nth_In; unfold dims in *; lia). destruct W as [W _]. rewrite Forall_forall in W, B. split; auto.
    + intros j Hj Nj. destruct (Nat.lt_ge_cases j m) as [Hm|Hm].
      * specialize (S1 j ltac:(lia)). destruct (Off j Hm Nj) as (Q1 & Q2 & Q3). rewrite Q1, Q2, Q3 in S1. cbn [unless] in S1.
        apply (C36_determined _ _ _ _ _ _ S1). apply py_slice_all. destruct W as [W _]. rewrite Forall_forall in W. apply W. now apply nth_In.
      * apply S2. lia.
Qed.
(** Axes left out are the first ones, steps left out are one. *)
Theorem C115_defaults {A} (x : tensor A) starts ends : (Z.of_nat (length starts) <= int_max) ->
  slice_v3 starts ends None None x = slice_v3 starts ends (Some (upto (Z.of_nat (length starts)))) (Some (repeat 1 (length starts))) x.
Proof.
  intros H. unfold slice_v3, load_params. cbn [option_map]. rewrite !map_length. f_equal.
  assert (E : map to_int32 (upto (Z.of_nat (length starts))) = upto (Z.of_nat (length starts))).
  { rewrite <- (map_id (upto _)) at 2. apply map_ext_in. intros a Ha. apply In_upto in Ha. apply to_int32_id. unfold int_min. lia. }

  assert (E1 : forall n, map to_int32 (repeat 1 n) = repeat 1 n) by (induction n as [|n IH]; [reflexivity|cbn [repeat map]; rewrite IH; reflexivity]).
  rewrite E, E1. reflexivity.
Qed.
Print Assumptions C115_slice_v3_partial.
Print Assumptions C115_defaults.
Example C115_example : slice_v3 [0; -1] [9223372036854775807; -9223372036854775808] (Some [0; 2]) (Some [1; -1]) (Tn 10 [2; 1; 3] [0; 1; 2; 3; 4; 5])
  = SOk (filled (Tn 10 [2; 1; 3] [2; 1; 0; 5; 4; 3])).
Proof. reflexivity. Qed.
(** A negative axis passes the check and is then used as an index: undefined. *)
Theorem C115_negative_axis_refuted : exists (x : tensor Z), wf x /\ slice_v3 [0] [1] (Some [-1]) None x = SUndef.
Proof. exists (Tn 10 [2; 2] [5; 6; 7; 8]). split; [split; [repeat constructor; lia|reflexivity]|reflexivity]. Qed.
(** So is a list of ends shorter than that of starts. *)
Theorem C115_short_ends_refuted : exists (x : tensor Z), wf x /\ slice_v3 [0; 0] [1] None None x = SUndef.
Proof. exists (Tn 10 [2; 2] [5; 6; 7; 8]). split; [split; [repeat constructor; lia|reflexivity]|reflexivity]. Qed.
Print Assumptions C115_negative_axis_refuted.
Print Assumptions C115_short_ends_refuted.
