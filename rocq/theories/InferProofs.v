(** The inferred shapes describe what the operators compute. *)
From Coq Require Import List ZArith Bool Lia Arith.
From Verif Require Import ShapeModel BinsModel KernelBase KernelSpec KernelProofs InferModel InferSpec
  TransposeModel TileModel EltwiseModel GatherModel GatherNdModel PadModel BatchModel NmsModel.
From Verif Require ConcatModel AxisModel.
Import ListNotations.
Local Open Scope Z_scope.

(** *** lists of sizes *)
Lemma sok_refl d : size_ok d d.
Proof. now right. Qed.
Lemma shok_refl s : shape_ok s s.
Proof. induction s; constructor; [apply sok_refl|assumption]. Qed.
Lemma shok_length p s : shape_ok p s -> length p = length s.
Proof. induction 1; cbn [length]; congruence. Qed.
Lemma shok_app a b c d : shape_ok a b -> shape_ok c d -> shape_ok (a ++ c) (b ++ d).
Proof. intros. now apply Forall2_app. Qed.
Lemma shok_firstn n : forall p s, shape_ok p s -> shape_ok (firstn n p) (firstn n s).
Proof. induction n as [|n IH]; intros p s H; [constructor|]. destruct H; constructor; [assumption|now apply IH]. Qed.
Lemma shok_skipn n : forall p s, shape_ok p s -> shape_ok (skipn n p) (skipn n s).
Proof. induction n as [|n IH]; intros p s H; [exact H|]. destruct H; [constructor|]. cbn [skipn]. now apply IH. Qed.
Lemma shok_ones p s n : shape_ok p s -> shape_ok (ones_before p n) (repeat 1 (n - length s) ++ s).
Proof.
  intros H. unfold ones_before. rewrite (shok_length _ _ H). apply shok_app; [apply shok_refl|exact H].
Qed.
Lemma shok_nth n : forall p s, shape_ok p s -> size_ok (nth n p 0) (nth n s 0).
Proof.
  induction n as [|n IH]; intros p s H; destruct H; cbn [nth]; try (right; reflexivity); try assumption.
  now apply IH.
Qed.
Lemma shok_set n a b : forall p s, shape_ok p s -> size_ok a b -> shape_ok (set_nth n a p) (set_nth n b s).
Proof.
  induction n as [|n IH]; intros p s H Q; destruct H; cbn [set_nth]; constructor; try assumption. now apply IH.
Qed.
Lemma shok_map {B} (f g : B -> Z) l : (forall b, In b l -> size_ok (f b) (g b)) -> shape_ok (map f l) (map g l).
Proof. induction l as [|b l IH]; intros H; constructor; [apply H; now left|]. apply IH. intros c Hc. apply H. now right. Qed.
Lemma shok_last : forall p s, shape_ok p s -> size_ok (last p 0) (last s 0).
Proof.
  intros p s H. induction H as [|d n p s Hd H IH]; [right; reflexivity|].
  destruct H; cbn [last]; [exact Hd|exact IH].
Qed.
Lemma shok_removelast : forall p s, shape_ok p s -> shape_ok (removelast p) (removelast s).
Proof.
  intros p s H. induction H as [|d n p s Hd H IH]; [constructor|].
  destruct H; [constructor|]. constructor; [exact Hd|exact IH].
Qed.
Lemma shok_combine {B} (f g : Z * B -> Z) : forall a c (b : list B), shape_ok a c ->
  (forall x y u, size_ok x u -> size_ok (f (x, y)) (g (u, y))) ->
  shape_ok (map f (combine a b)) (map g (combine c b)).
Proof.
  intros a c b H. revert b. induction H as [|x u a c Hx H IH]; intros b F; [constructor|].
  destruct b as [|y b]; [constructor|]. cbn [combine map]. constructor; [now apply F|]. now apply IH.
Qed.

(** run [exec] and return *)
Ltac ended H := match type of H with
  | match ?e with _ => _ end = SOk _ => let E := fresh "E" in destruct e eqn:E; try discriminate H
  end.

(** *** transpose *)
Lemma infer_transpose_ok {A} is_float perm (x : tensor A) p q y : describes p x ->
  infer_transpose (Some perm) p = Some q -> perm <> [] -> transpose_run is_float (Some perm) x = SOk y -> describes q y.
Proof.
  intros [D S] I Ne R. unfold infer_transpose in I.
  remember (ones_before (p_shape p) (length perm)) as xs eqn:X.
  destruct (forallb _ perm) eqn:F; [|discriminate]. injection I as <-.
  unfold transpose_run, transpose_init in R.
  destruct (existsb negb _); [discriminate|]. unfold get_permute in R.
  destruct perm as [|p0 perm]; [congruence|]. remember (p0 :: perm) as pm eqn:P. clear P Ne.
  destruct (Nat.ltb_spec (length pm) (length (t_shape x))) as [Q|Q]; [discriminate|].
  unfold permuted_shape in R. destruct (forallb _ (map _ _)); [|discriminate R]. ended R.
  injection R as <-. split; [exact D|]. cbn [p_shape t_shape].
  apply shok_map. intros k _.
  assert (L : length (lead_ones (t_shape x) (length pm)) = length pm).
  { unfold lead_ones. rewrite app_length, repeat_length. lia. }
  unfold lead_ones at 1. rewrite L. rewrite Nat.sub_diag. cbn [repeat app].
  apply shok_nth. rewrite X. apply shok_ones. exact S.
Qed.

(** *** element-wise *)
Lemma reduce_axes_ok : forall l r, length l = length r -> forall pl pr o b, shape_ok pl l -> shape_ok pr r -> reduce_axes l r = Some (o, b) ->
  shape_ok (map (fun ab => eltwise_infer_dim (fst ab) (snd ab)) (combine pl pr)) o.
Proof.
  induction l as [|a l IH]; intros [|c r] L pl pr o b Hl Hr E; try discriminate L; cbn [reduce_axes] in E.
  - injection E as <- <-. inversion Hl. constructor.
  - inversion Hl as [|a' ? pl' ? Ha Hl']; subst. inversion Hr as [|c' ? pr' ? Hc Hr']; subst.
    destruct (negb (a =? c) && negb (a =? 1) && negb (c =? 1)) eqn:Q; [discriminate|].
    destruct (reduce_axes l r) as [[o' b']|] eqn:R; [|discriminate].
    assert (T : shape_ok (map (fun ab => eltwise_infer_dim (fst ab) (snd ab)) (combine pl' pr')) o').
    { apply (IH r ltac:(now injection L) pl' pr' o' b'); assumption. }
    assert (V : size_ok (eltwise_infer_dim a' c') (if a =? c then a else a * c)).
    { unfold eltwise_infer_dim, size_ok in *.
      destruct (Z.eqb_spec a c), (Z.eqb_spec a 1), (Z.eqb_spec c 1); try discriminate Q;
      destruct (Z.leb_spec a' 0), (Z.eqb_spec c' 1), (Z.eqb_spec a' 1), (Z.leb_spec c' 0), (Z.eqb_spec a' c'); lia. }
    destruct (a =? c); injection E as <- <-; cbn [combine map fst snd]; constructor; assumption.
Qed.

Lemma shape_eqb_eq : forall l r, shape_eqb l r = true -> l = r.
Proof.
  induction l as [|a l IH]; intros [|b r] H; cbn in H; try discriminate; [reflexivity|].
  apply andb_true_iff in H. destruct H as [H1 H2]. apply Z.eqb_eq in H1. f_equal; [assumption|now apply IH].
Qed.

Lemma reduce_ok l r ls rs o b pl pr : shape_ok pl l -> shape_ok pr r -> reduce l r = Some (ls, rs, o, b) ->
  shape_ok (map (fun ab => eltwise_infer_dim (fst ab) (snd ab))
     (combine (ones_before pl (length pr)) (ones_before pr (length pl)))) o.
Proof.
  intros Hl Hr E. unfold reduce in E. rewrite (shok_length _ _ Hl), (shok_length _ _ Hr).
  assert (A1 : shape_ok (ones_before pl (length r)) (front_append_ones l (length r - length l))) by (apply shok_ones, Hl).
  assert (A2 : shape_ok (ones_before pr (length l)) (front_append_ones r (length l - length r))) by (apply shok_ones, Hr).
  assert (L : length (front_append_ones l (length r - length l)) = length (front_append_ones r (length l - length r))).
  { unfold front_append_ones. rewrite !app_length, !repeat_length. lia. }
  destruct (shape_eqb l r) eqn:Q.
  - apply shape_eqb_eq in Q. subst r. injection E as <- <- <- <-.
    refine (reduce_axes_ok _ _ L _ _ _ false A1 A2 _).
    unfold front_append_ones. rewrite Nat.sub_diag. cbn [repeat app].
    clear. induction l as [|a l IH]; [reflexivity|]. cbn [reduce_axes]. rewrite Z.eqb_refl. cbn [negb andb]. now rewrite IH.
  - destruct (reduce_axes _ _) as [[o' b']|] eqn:R; [|discriminate]. injection E as <- <- <- <-.
    exact (reduce_axes_ok _ _ L _ _ _ _ A1 A2 R).
Qed.

Lemma infer_eltwise_ok {A} (k : kernel A) cast (l r : tensor A) p q t y : describes p l -> describes q r ->
  infer_eltwise p q = Some t -> eltwise_run k cast l r = SOk y ->
  shape_ok (p_shape t) (t_shape y) /\ (t_dtype l = t_dtype r -> p_dtype t = t_dtype y).
Proof.
  intros [Dl Sl] [Dr Sr] I R. unfold infer_eltwise in I. injection I as <-. cbn [p_shape p_dtype].
  unfold eltwise_run in R. destruct (upcast_dtype (t_dtype l) (t_dtype r)) as [dt| |] eqn:U; try discriminate R.
  destruct (reduce (t_shape l) (t_shape r)) as [[[[ls rs] os] db]|] eqn:E; [|discriminate R].
  destruct (reduce_shape (length os) ls rs os) as [[ls' rs'] os'].
  destruct (negb (k_supports k dt)); [discriminate R|]. ended R. injection R as <-. cbn [t_shape t_dtype].
  split; [exact (reduce_ok _ _ _ _ _ _ _ _ Sl Sr E)|].
  intros T. rewrite T in U. unfold upcast_dtype in U. rewrite Z.eqb_refl in U. injection U as <-. congruence.
Qed.

(** *** concat *)
Lemma concat_total_ok {A} n : forall (rest : list (tensor A)) ps acc out fixed total,
  Forall2 describes ps rest -> ConcatModel.concat_sizes fixed out acc rest = SOk total -> n = Z.to_nat fixed ->
  size_ok (concat_total n acc ps) total.
Proof.
  intros rest ps acc out fixed total H. revert acc. induction H as [|p x ps rest [D S] H IH]; intros acc E N.
  - cbn in E. injection E as <-. apply sok_refl.
  - cbn [ConcatModel.concat_sizes] in E. destruct (negb _); [discriminate|]. destruct (negb _); [discriminate|].
    cbn [concat_total]. destruct (Z.ltb_spec (nth n (p_shape p) 0) 0) as [Q|Q]; [left; lia|].
    assert (V : nth n (p_shape p) 0 = nth n (t_shape x) 0) by (destruct (shok_nth n _ _ S); lia).
    rewrite V. subst n. apply IH; [exact E|reflexivity].
Qed.

Lemma infer_concat_ok {A} dim (xs : list (tensor A)) ps q y : Forall2 describes ps xs ->
  infer_concat dim ps = Some q -> ConcatModel.concat_run dim xs = SOk y ->
  (forall p ps', ps = p :: ps' -> 0 <= nth (Z.to_nat (if dim <? 0 then rank_of p + dim else dim)) (p_shape p) 0) ->
  describes q y.
Proof.
  intros H I R K. destruct H as [|p x ps rest [D S] H]; [discriminate|].
  unfold infer_concat in I. unfold rank_of in *. specialize (K p ps eq_refl). rewrite (shok_length _ _ S) in *.
  remember (if dim <? 0 then Z.of_nat (length (t_shape x)) + dim else dim) as d eqn:Ed.
  destruct ((d <? 0) || (Z.of_nat (length (t_shape x)) <=? d)) eqn:Q; [discriminate|]. injection I as <-.
  assert (Fd : ConcatModel.fix_dim dim (ConcatModel.dims_of (t_shape x)) = d).
  { rewrite Ed. unfold ConcatModel.fix_dim, ConcatModel.dims_of. destruct (Z.leb_spec 0 dim), (Z.ltb_spec dim 0); lia. }
  assert (V : nth (Z.to_nat d) (p_shape p) 0 = nth (Z.to_nat d) (t_shape x) 0).
  { destruct (shok_nth (Z.to_nat d) _ _ S); [lia|assumption]. }
  rewrite V in *. unfold ConcatModel.concat_run in R.
  destruct (ConcatModel.concat_infer dim (x :: rest)) as [[dt sh]| |] eqn:E; try discriminate R.
  rewrite Fd in R. unfold ConcatModel.dims_of in R. rewrite Q in R. ended R. injection R as <-.
  unfold describes. cbn [p_dtype p_shape t_dtype t_shape].
  destruct H as [|p1 x1 ps rest D1 H].
  - cbn in E. injection E as <- <-. split; [exact D|]. cbn [concat_total].
    rewrite <- V. clear - S. revert S. generalize (t_shape x). generalize (Z.to_nat d). generalize (p_shape p).
    intros u n s S. revert n. induction S; intros [|n]; cbn [set_nth nth]; constructor; try assumption; apply IHS.
  - unfold ConcatModel.concat_infer in E. destruct (negb _); [discriminate E|]. rewrite Fd in E.
    unfold ConcatModel.dims_of in E. rewrite Q in E.
    destruct (ConcatModel.concat_sizes d (t_shape x) (nth (Z.to_nat d) (t_shape x) 0) (x1 :: rest)) as [n| |] eqn:C;
      try discriminate E. injection E as <- <-. split; [exact D|].
    apply shok_set; [exact S|]. apply (concat_total_ok _ (x1 :: rest) (p1 :: ps) _ (t_shape x) d); [|exact C|reflexivity].
    constructor; assumption.
Qed.

(** *** chunk *)
Lemma chunk_outputs_shapes {A} dt (x : list A) dim a b c : forall shapes off ys,
  ConcatModel.chunk_outputs dt x dim a b c off shapes = SOk ys ->
  Forall2 (fun s (y : raw_tensor A) => t_dtype y = dt /\ t_shape y = s) shapes ys.
Proof.
  induction shapes as [|s shapes IH]; intros off ys E; cbn [ConcatModel.chunk_outputs] in E.
  - injection E as <-. constructor.
  - ended E. destruct (ConcatModel.chunk_outputs _ _ _ _ _ _ _ shapes) as [l0| |] eqn:R; try discriminate E.
    injection E as <-. constructor; [split; reflexivity|]. exact (IH _ _ R).
Qed.

Lemma chunk_shapes_bins shape fixed : forall chunks bins l,
  ConcatModel.chunk_shapes shape fixed chunks bins = SOk l ->
  l = map (fun be => set_nth fixed (snd be - fst be) shape) (firstn chunks bins) /\ (chunks <= length bins)%nat.
Proof.
  induction chunks as [|k IH]; intros bins l E; cbn [ConcatModel.chunk_shapes] in E.
  - injection E as <-. split; [reflexivity|lia].
  - destruct bins as [|[b e] bins]; [discriminate|].
    destruct (ConcatModel.chunk_shapes shape fixed k bins) as [l'| |] eqn:R; try discriminate.
    injection E as <-. destruct (IH _ _ R) as [-> L]. split; [reflexivity|cbn [length]; lia].
Qed.

Lemma bins_loop_le fuel : forall anchor second step l, bins_loop fuel anchor second step = BOk l -> (length l <= fuel)%nat.
Proof.
  induction fuel as [|k IH]; intros anchor second step l E; [discriminate|]. cbn [bins_loop] in E.
  destruct (int_max <? anchor + step); [discriminate|]. destruct (anchor + step <? second).
  - destruct (bins_loop k (anchor + step) second step) as [l'| |] eqn:R; try discriminate. injection E as <-.
    apply IH in R. cbn [length]. lia.
  - injection E as <-. destruct (anchor <? second); cbn [length]; lia.
Qed.

Lemma split_bins_le a b n l : 1 <= n -> split_bins a b n = BOk l -> (length l <= Z.to_nat n)%nat.
Proof.
  intros H E. unfold split_bins in E. destruct (b <=? a); [injection E as <-; cbn; lia|].
  destruct (Z.leb_spec n 1); [injection E as <-; cbn [length]; lia|]. exact (bins_loop_le _ _ _ _ _ E).
Qed.

Lemma infer_chunk_ok {A} chunks dim (x : tensor A) p q ys : describes p x ->
  infer_chunk chunks dim p = Some q -> ConcatModel.chunk_run chunks dim x = SOk ys ->
  0 <= nth (Z.to_nat (if dim <? 0 then rank_of p + dim else dim)) (p_shape p) 0 ->
  Forall2 describes q ys.
Proof.
  intros [D S] I R K. unfold infer_chunk in I. unfold rank_of in *. rewrite (shok_length _ _ S) in *.
  rewrite (Z.add_comm dim) in I.
  remember (if dim <? 0 then Z.of_nat (length (t_shape x)) + dim else dim) as d eqn:Ed.
  destruct ((d <? 0) || (Z.of_nat (length (t_shape x)) <=? d)) eqn:Q; [discriminate|].
  assert (Fd : ConcatModel.fix_dim dim (ConcatModel.dims_of (t_shape x)) = d).
  { rewrite Ed. unfold ConcatModel.fix_dim, ConcatModel.dims_of. destruct (Z.leb_spec 0 dim), (Z.ltb_spec dim 0); lia. }
  assert (V : nth (Z.to_nat d) (p_shape p) 0 = nth (Z.to_nat d) (t_shape x) 0).
  { destruct (shok_nth (Z.to_nat d) _ _ S); [lia|assumption]. }
  rewrite V in I. destruct (split_bins 0 (nth (Z.to_nat d) (t_shape x) 0) chunks) as [bins| |] eqn:B; try discriminate I.
  injection I as <-. unfold ConcatModel.chunk_run in R.
  destruct (ConcatModel.chunk_infer chunks dim x) as [[f shapes]| |] eqn:C; try discriminate R.
  unfold ConcatModel.chunk_infer in C. destruct (Z.leb_spec chunks 0); [discriminate C|]. rewrite Fd in C.
  unfold ConcatModel.dims_of in C. rewrite Q in C. destruct (_ <? chunks); [discriminate C|]. rewrite B in C.
  destruct (ConcatModel.chunk_shapes _ _ _ bins) as [l| |] eqn:E; try discriminate C. injection C as <- <-.
  apply chunk_shapes_bins in E. destruct E as [-> L].
  assert (C1 : 1 <= chunks) by lia. pose proof (split_bins_le _ _ _ _ C1 B) as L2.
  rewrite firstn_all2 in R by lia. destruct (map _ bins) as [|s0 rest] eqn:M; [discriminate R|]. rewrite <- M in R.
  apply chunk_outputs_shapes in R. clear - R D S.
  revert ys R. induction bins as [|be bins IH]; intros ys R; cbn [map] in *; inversion R; subst; constructor.
  - destruct H1 as [T1 T2]. unfold describes. cbn [p_dtype p_shape]. rewrite T1, T2. split; [exact D|].
    apply shok_set; [exact S|apply sok_refl].
  - apply IH. assumption.
Qed.

(** *** gather *)
Lemma without_ok n p s : shape_ok p s -> shape_ok (without n p) (without n s).
Proof. intros H. unfold without. apply shok_app; [now apply shok_firstn|now apply shok_skipn]. Qed.

Lemma firstn_without n (s : list Z) : (n < length s)%nat -> firstn n (without n s) = firstn n s /\ skipn n (without n s) = skipn (S n) s.
Proof.
  intros H. unfold without. assert (L : length (firstn n s) = n) by (rewrite firstn_length; lia).
  split.
  - rewrite firstn_app, L, Nat.sub_diag. cbn [firstn]. rewrite app_nil_r. rewrite firstn_firstn. f_equal. lia.
  - rewrite skipn_app, L, Nat.sub_diag. rewrite skipn_all2 by lia. reflexivity.
Qed.

Lemma infer_gather_ok {A} axis (x : tensor A) idx px pi q y : describes px x -> describes pi idx ->
  infer_gather axis px pi = Some q -> gather_run axis x idx = SOk y -> describes q y.
Proof.
  intros [D S] [_ Si] I R. unfold infer_gather, rank_of in I. rewrite (shok_length _ _ S) in I.
  remember (if axis <? 0 then axis + Z.of_nat (length (t_shape x)) else axis) as a eqn:Ea.
  destruct ((a <? 0) || (Z.of_nat (length (t_shape x)) <=? a)) eqn:Q; [discriminate|]. injection I as <-.
  apply orb_false_iff in Q. destruct Q as [Q1 Q2]. apply Z.ltb_ge in Q1. apply Z.leb_gt in Q2.
  unfold gather_run in R. destruct (gather_axis (t_shape x) axis) as [n| |] eqn:G; try discriminate R.
  assert (N : n = Z.to_nat a).
  { unfold gather_axis in G. destruct (_ <? 1); [discriminate|]. destruct (negb _); [discriminate|].
    injection G as <-. rewrite Ea. destruct (axis <? 0); f_equal; lia. }
  destruct (fix_indices _ _ _) as [idx'| |]; try discriminate R. cbv zeta in R. ended R. injection R as <-.
  unfold describes. cbn [p_dtype p_shape t_dtype t_shape]. split; [exact D|].
  destruct (firstn_without (Z.to_nat a) (p_shape px)) as [E1 E2]; [rewrite (shok_length _ _ S); lia|].
  rewrite E1, E2, N. apply shok_app; [now apply shok_firstn|]. apply shok_app; [exact Si|exact (shok_skipn (Datatypes.S (Z.to_nat a)) _ _ S)].
Qed.

Lemma infer_gatherv2_ok {A} (x : tensor A) idx px pi q y : describes px x -> describes pi idx ->
  infer_gatherv2 px pi = Some q -> gathernd_run x idx = SOk y -> describes q y.
Proof.
  intros [D S] [_ Si] I R. unfold infer_gatherv2 in I. destruct ((_ =? 0) || (_ =? 0)); [discriminate|].
  cbv zeta in I. destruct (Z.ltb_spec (last (p_shape pi) 0) 0) as [Q|Q]; [discriminate|]. cbn [orb] in I.
  destruct (_ <? last _ 0); [discriminate|]. injection I as <-.
  assert (V : last (p_shape pi) 0 = last (t_shape idx) 0) by (destruct (shok_last _ _ Si); lia).
  unfold gathernd_run in R. destruct (gathernd_infer (t_shape x) (t_shape idx)) as [[a o]| |] eqn:G; try discriminate R.
  ended R. injection R as <-. unfold gathernd_infer in G. destruct (_ || _); [discriminate|].
  destruct (_ <? last _ 0); [discriminate|]. injection G as <- <-.
  unfold describes. cbn [p_dtype p_shape t_dtype t_shape]. split; [exact D|]. rewrite V.
  apply shok_app; [now apply shok_removelast|now apply shok_skipn].
Qed.

(** *** reductions *)
Lemma erase_without n : forall s, AxisModel.erase n s = without n s.
Proof.
  unfold without. induction n as [|n IH]; intros [|x s]; try reflexivity. cbn [AxisModel.erase]. rewrite IH. reflexivity.
Qed.

Lemma infer_argmax_ok dim (x : tensor Z) p q y (D : Z) (S : shape_ok (p_shape p) (t_shape x)) :
  infer_argmax dim p = Some q -> AxisModel.argmax_run dim x = SOk y -> describes q y.
Proof.
  intros I R. unfold infer_argmax, rank_of in I. rewrite (shok_length _ _ S) in I.
  unfold AxisModel.argmax_run, AxisModel.fix_dim in R.
  remember (if dim <? 0 then dim + Z.of_nat (length (t_shape x)) else dim) as d eqn:Ed.
  destruct ((d <? 0) || _); [discriminate|]. injection I as <-.
  destruct ((0 <=? d) && _); [|discriminate R]. cbv zeta in R. ended R. injection R as <-.
  split; [reflexivity|]. cbn [p_shape t_shape]. rewrite erase_without. apply without_ok, S.
Qed.

Lemma set_one_reduce n : forall s, (n < length s)%nat -> AxisModel.set_one n s = reduce_axis true s (Z.of_nat n).
Proof.
  intros s H. unfold reduce_axis. rewrite Nat2Z.id. destruct (firstn_without n s H) as [-> ->].
  revert s H. induction n as [|n IH]; intros [|x s] H; cbn [length] in H; try lia; [reflexivity|].
  cbn [AxisModel.set_one firstn skipn app]. rewrite IH by lia. reflexivity.
Qed.

Lemma reduce_axis_ok keep a p s : shape_ok p s -> shape_ok (reduce_axis keep p a) (reduce_axis keep s a).
Proof.
  intros H. unfold reduce_axis. destruct keep; [|now apply without_ok].
  apply shok_app; [now apply shok_firstn, without_ok|]. constructor; [apply sok_refl|]. now apply shok_skipn, without_ok.
Qed.

Lemma infer_one_ok dim keep p q (s : list Z) axis : shape_ok (p_shape p) s ->
  infer_reduction [dim] keep p = Some q -> AxisModel.fix_dim dim (length s) = SOk axis ->
  shape_ok (p_shape q) (if keep then AxisModel.set_one axis s else AxisModel.erase axis s) /\ p_dtype q = p_dtype p.
Proof.
  intros S I F. unfold infer_reduction, fix_axes, rank_of in I. rewrite (shok_length _ _ S) in I.
  unfold AxisModel.fix_dim in F.
  remember (if dim <? 0 then dim + Z.of_nat (length s) else dim) as d eqn:Ed.
  destruct (Z.leb_spec 0 d) as [Q1|Q1], (Z.ltb_spec d (Z.of_nat (length s))) as [Q2|Q2]; cbn [andb] in F; try discriminate F.
  injection F as <-. destruct ((d <? 0) || _); [discriminate|]. injection I as <-. cbn [p_shape p_dtype].
  split; [|reflexivity].
  cbn [sort_desc fold_right insert_desc fold_left].
  destruct keep.
  - rewrite set_one_reduce by lia. rewrite Z2Nat.id by lia. apply reduce_axis_ok, S.
  - rewrite erase_without. unfold reduce_axis. apply without_ok, S.
Qed.

Lemma infer_max_ok {A} gt (zero : A) dim keep x p q y : describes p x ->
  infer_reduction [dim] keep p = Some q -> AxisModel.max_run gt zero dim keep x = SOk y -> describes q y.
Proof.
  intros [D S] I R. unfold AxisModel.max_run in R.
  destruct (AxisModel.fix_dim dim (length (t_shape x))) as [axis| |] eqn:F; try discriminate R.
  destruct (negb _); [discriminate R|]. cbv zeta in R. ended R. injection R as <-.
  destruct (infer_one_ok dim keep p q (t_shape x) axis S I F) as [Q1 Q2].
  split; [cbn; congruence|exact Q1].
Qed.

Lemma erase_set_one n : forall s, AxisModel.erase n (AxisModel.set_one n s) = AxisModel.erase n s.
Proof. induction n as [|n IH]; intros [|x s]; try reflexivity. cbn [AxisModel.set_one AxisModel.erase]. now rewrite IH. Qed.

Lemma infer_sum_ok {A} add (zero : A) dim keep x p q y : describes p x ->
  infer_reduction [dim] keep p = Some q -> AxisModel.reduce_sum_run add zero dim keep x = SOk y -> describes q y.
Proof.
  intros [D S] I R. unfold AxisModel.reduce_sum_run in R.
  destruct (AxisModel.fix_dim dim (length (t_shape x))) as [axis| |] eqn:F; try discriminate R.
  destruct (negb _); [discriminate R|]. cbv zeta in R. ended R. injection R as <-.
  destruct (infer_one_ok dim keep p q (t_shape x) axis S I F) as [Q1 Q2].
  split; [cbn; congruence|]. cbn [t_shape]. destruct keep; [exact Q1|]. rewrite erase_set_one. exact Q1.
Qed.

(** reduce_mean: several axes, which follow one another *)
Lemma sort_seq n : forall a, sort_desc (map Z.of_nat (seq a n)) = map Z.of_nat (rev (seq a n)).
Proof.
  assert (Ins : forall a l, (forall b, In b l -> (a < b)%nat) -> insert_desc (Z.of_nat a) (map Z.of_nat l) = map Z.of_nat (l ++ [a])).
  { intros a l. induction l as [|b l IH]; intros H; [reflexivity|]. cbn [map app insert_desc].
    assert (a < b)%nat by (apply H; now left).
    destruct (Z.leb_spec (Z.of_nat b) (Z.of_nat a)); [lia|]. f_equal. apply IH. intros c Hc. apply H. now right. }
  induction n as [|n IH]; intros a; [reflexivity|].
  cbn [seq map]. unfold sort_desc in *. cbn [fold_right]. rewrite IH. cbn [rev]. apply Ins.
  intros b Hb. apply in_rev, in_seq in Hb. lia.
Qed.

Lemma drop_seq n : forall i a s, (i <= a)%nat -> (a + n <= i + length s)%nat ->
  AxisModel.drop_dims i s (seq a n) = firstn (a - i) s ++ skipn (a + n - i) s.
Proof.
  induction n as [|n IH]; intros i a s H1 H2.
  - cbn [seq]. rewrite Nat.add_0_r, firstn_skipn. destruct s; reflexivity.
  - revert i H1 H2. induction s as [|x s IHs]; intros i H1 H2; cbn [length] in H2; [lia|].
    cbn [seq AxisModel.drop_dims]. destruct (Nat.eqb_spec i a) as [->|N].
    + rewrite IH by lia. rewrite !Nat.sub_diag. cbn [firstn app].
      replace (a + S n - a)%nat with (S n) by lia. replace (S a + n - S a)%nat with n by lia. reflexivity.
    + change (a :: seq (S a) n) with (seq a (S n)). rewrite IHs by lia.
      replace (a - i)%nat with (S (a - S i)) by lia. replace (a + S n - i)%nat with (S (a + S n - S i)) by lia. reflexivity.
Qed.

Lemma reduce_seq_drop n : forall a s, (a + n <= length s)%nat ->
  fold_left (reduce_axis false) (map Z.of_nat (rev (seq a n))) s = firstn a s ++ skipn (a + n) s.
Proof.
  induction n as [|n IH]; intros a s H.
  - cbn. now rewrite Nat.add_0_r, firstn_skipn.
  - rewrite seq_S, rev_app_distr. cbn [rev app map fold_left]. unfold reduce_axis at 2. rewrite Nat2Z.id.
    assert (L : length (without (a + n) s) = (length s - 1)%nat).
    { unfold without. rewrite app_length, firstn_length, skipn_length. lia. }
    rewrite IH by lia. unfold without.
    rewrite firstn_app, skipn_app, !firstn_length. replace (a - Nat.min (a + n) (length s))%nat with O by lia.
    replace (a + n - Nat.min (a + n) (length s))%nat with O by lia. rewrite firstn_O, app_nil_r.
    rewrite firstn_firstn. replace (Nat.min a (a + n)) with a by lia.
    rewrite (skipn_all2 (firstn _ _)) by (rewrite firstn_length; lia). rewrite skipn_O. cbn [app].
    replace (a + S n)%nat with (S (a + n)) by lia. reflexivity.
Qed.

Lemma set_one_length n : forall s, length (AxisModel.set_one n s) = length s.
Proof. induction n as [|n IH]; intros [|x s]; cbn [AxisModel.set_one length]; try reflexivity. now rewrite IH. Qed.
Lemma set_one_comm n : forall m s, AxisModel.set_one n (AxisModel.set_one m s) = AxisModel.set_one m (AxisModel.set_one n s).
Proof.
  induction n as [|n IH]; intros [|m] [|x s]; cbn [AxisModel.set_one]; try reflexivity. now rewrite IH.
Qed.
Lemma fold_set_one_comm l : forall m s,
  fold_left (fun s d => AxisModel.set_one d s) l (AxisModel.set_one m s) = AxisModel.set_one m (fold_left (fun s d => AxisModel.set_one d s) l s).
Proof. induction l as [|d l IH]; intros m s; [reflexivity|]. cbn [fold_left]. now rewrite set_one_comm, IH. Qed.
Lemma fold_set_one_rev l : forall s,
  fold_left (fun s d => AxisModel.set_one d s) (rev l) s = fold_left (fun s d => AxisModel.set_one d s) l s.
Proof.
  induction l as [|d l IH]; intros s; [reflexivity|]. cbn [rev fold_left]. rewrite fold_left_app. cbn [fold_left].
  now rewrite IH, fold_set_one_comm.
Qed.
Lemma reduce_keep l : forall s, (forall d, In d l -> (d < length s)%nat) ->
  fold_left (reduce_axis true) (map Z.of_nat l) s = fold_left (fun s d => AxisModel.set_one d s) l s.
Proof.
  induction l as [|d l IH]; intros s H; [reflexivity|]. cbn [map fold_left].
  rewrite <- set_one_reduce by (apply H; now left). apply IH. intros e He. rewrite set_one_length. apply H. now right.
Qed.

Lemma fold_reduce_ok keep l : forall p s, shape_ok p s ->
  shape_ok (fold_left (reduce_axis keep) l p) (fold_left (reduce_axis keep) l s).
Proof. induction l as [|a l IH]; intros p s H; [exact H|]. cbn [fold_left]. now apply IH, reduce_axis_ok. Qed.

(** the axes as given follow one another, and all count from the same end *)
Definition same_end (dims : list Z) : Prop := (forall d, In d dims -> 0 <= d) \/ (forall d, In d dims -> d < 0).

Lemma continue_seq : forall dims d0, AxisModel.dims_continue (d0 :: dims) = true ->
  d0 :: dims = map (fun k => d0 + Z.of_nat k) (seq 0 (S (length dims))).
Proof.
  induction dims as [|d dims IH]; intros d0 H.
  - cbn. f_equal. lia.
  - cbn [AxisModel.dims_continue] in H. apply andb_true_iff in H. destruct H as [H1 H2]. apply Z.eqb_eq in H1.
    specialize (IH d H2). rewrite IH. rewrite map_length, seq_length.
    change (seq 0 (S (S (length dims)))) with (0%nat :: seq 1 (S (length dims))). cbn [map]. f_equal; [lia|].
    rewrite <- (seq_shift (S (length dims)) 0), map_map. apply map_ext. intros k. lia.
Qed.

Lemma fixed_axes dims rank fixed : same_end dims -> AxisModel.dims_continue dims = true ->
  AxisModel.fix_dims dims rank = SOk fixed -> fixed <> [] ->
  exists a n, fixed = seq a n /\ (a + n <= rank)%nat /\ fix_axes (Z.of_nat rank) dims = Some (map Z.of_nat (seq a n)).
Proof.
  intros SE C F Ne.
  assert (Fx : fix_axes (Z.of_nat rank) dims = Some (map Z.of_nat fixed) /\
    fixed = map (fun d => Z.to_nat (if d <? 0 then d + Z.of_nat rank else d)) dims /\
    Forall (fun d => 0 <= (if d <? 0 then d + Z.of_nat rank else d) < Z.of_nat rank) dims).
  { clear SE C Ne. revert fixed F. induction dims as [|d dims IH]; intros fixed F; cbn [AxisModel.fix_dims] in F.
    - injection F as <-. split; [reflexivity|]. split; [reflexivity|constructor].
    - unfold AxisModel.fix_dim in F. cbn [fix_axes].
      remember (if d <? 0 then d + Z.of_nat rank else d) as d' eqn:Ed.
      destruct (Z.leb_spec 0 d'), (Z.ltb_spec d' (Z.of_nat rank)); cbn [andb] in F; try discriminate F.
      destruct (AxisModel.fix_dims dims rank) as [l| |]; try discriminate F. injection F as <-.
      destruct (IH l eq_refl) as (A1 & A2 & A3). rewrite A1.
      destruct (Z.ltb_spec d' 0), (Z.leb_spec (Z.of_nat rank) d'); cbn [orb]; try lia.
      split; [cbn [map]; rewrite Z2Nat.id by lia; reflexivity|]. split.
      + cbn [map]. rewrite <- Ed. f_equal. exact A2.
      + constructor; [|exact A3]. rewrite <- Ed. lia. }
  destruct Fx as (A1 & A2 & A3).
  destruct dims as [|d0 dims]; [cbn in A2; congruence|].
  pose proof (continue_seq _ _ C) as Sq.
  remember (if d0 <? 0 then d0 + Z.of_nat rank else d0) as f0 eqn:Ef.
  assert (F0 : 0 <= f0 < Z.of_nat rank) by (inversion A3; subst; assumption).
  assert (Each : forall k, (k < S (length dims))%nat ->
    (if d0 + Z.of_nat k <? 0 then d0 + Z.of_nat k + Z.of_nat rank else d0 + Z.of_nat k) = f0 + Z.of_nat k).
  { intros k Hk. assert (I : In (d0 + Z.of_nat k) (d0 :: dims)).
    { rewrite Sq. apply in_map_iff. exists k. split; [reflexivity|]. apply in_seq. lia. }
    rewrite Ef. destruct SE as [P|P].
    - pose proof (P _ I). pose proof (P d0 (or_introl eq_refl)).
      destruct (Z.ltb_spec (d0 + Z.of_nat k) 0), (Z.ltb_spec d0 0); lia.
    - pose proof (P _ I). pose proof (P d0 (or_introl eq_refl)).
      destruct (Z.ltb_spec (d0 + Z.of_nat k) 0), (Z.ltb_spec d0 0); lia. }
  assert (Fs : fixed = seq (Z.to_nat f0) (S (length dims))).
  { rewrite A2, Sq, map_map. rewrite (map_ext_in _ (fun k => (Z.to_nat f0 + k)%nat)).
    - generalize (S (length dims)) (Z.to_nat f0). intros n a. clear.
      revert a. induction n as [|n IH]; intros a; [reflexivity|].
      cbn [seq map]. f_equal; [lia|]. rewrite <- (IH (S a)), <- (seq_shift n 0), map_map. apply map_ext. intros k. lia.
    - intros k Hk. apply in_seq in Hk. rewrite Each by lia. lia. }
  exists (Z.to_nat f0), (S (length dims)). split; [exact Fs|]. split.
  - rewrite Forall_forall in A3.
    assert (I : In (d0 + Z.of_nat (length dims)) (d0 :: dims)).
    { rewrite Sq. apply in_map_iff. exists (length dims). split; [reflexivity|]. apply in_seq. lia. }
    specialize (A3 _ I). rewrite Each in A3 by lia. lia.
  - rewrite A1, Fs. reflexivity.
Qed.

Lemma infer_mean_ok {A} add div (zero : A) dims keep x p q y : describes p x -> same_end dims ->
  infer_reduction dims keep p = Some q -> AxisModel.reduce_mean_run add div zero dims keep x = SOk y -> describes q y.
Proof.
  intros [D S] SE I R. unfold AxisModel.reduce_mean_run in R.
  destruct (AxisModel.dims_continue dims) eqn:C; [|discriminate R]. cbn [negb] in R.
  destruct (AxisModel.fix_dims dims (length (t_shape x))) as [fixed| |] eqn:F; try discriminate R.
  destruct (negb (tile_supports _)); [discriminate R|].
  assert (Ne : fixed <> []) by (intros ->; discriminate R).
  destruct (fixed_axes _ _ _ SE C F Ne) as (a & n & Ef & Hn & Fx).
  assert (Sh : t_shape y = AxisModel.mean_shape keep (t_shape x) fixed /\ t_dtype y = t_dtype x).
  { destruct fixed as [|f0 fixed]; [congruence|]. cbv zeta in R. ended R. injection R as <-. split; reflexivity. }
  destruct Sh as [Sh Dt]. unfold infer_reduction, rank_of in I. rewrite (shok_length _ _ S), Fx in I. injection I as <-.
  split; [cbn [p_dtype]; congruence|]. cbn [p_shape]. rewrite Sh, sort_seq.
  apply (fold_reduce_ok keep (map Z.of_nat (rev (seq a n)))) in S.
  replace (AxisModel.mean_shape keep (t_shape x) fixed) with (fold_left (reduce_axis keep) (map Z.of_nat (rev (seq a n))) (t_shape x)); [exact S|].
  unfold AxisModel.mean_shape. rewrite Ef. destruct keep.
  - rewrite reduce_keep, fold_set_one_rev; [reflexivity|]. intros d Hd. apply in_rev, in_seq in Hd. lia.
  - rewrite reduce_seq_drop by lia. rewrite drop_seq by lia. do 2 f_equal; lia.
Qed.

(** *** batches, pad, tile, nms *)
Lemma sok_if d n f g : size_ok d n -> (d = n -> f = g) -> size_ok (if d <? 0 then -1 else f) g.
Proof. intros [H|H] E; destruct (Z.ltb_spec d 0); [left; lia|lia|left; lia|right; auto]. Qed.

Lemma infer_b2s_ok {A} ct cb cl cr bh bw (x : tensor A) p q y : describes p x ->
  infer_b2s ct cb cl cr bh bw p = Some q -> b2s_run ct cb cl cr bh bw x = SOk y -> describes q y.
Proof.
  intros [D S] I R. unfold b2s_run in R. destruct (negb (block_ok bh bw)); [discriminate R|].
  destruct (t_shape x) as [|N [|C [|H [|W [|? ?]]]]]; try discriminate R.
  inversion S as [|n ? ? ? Sn S1 E1]; subst. inversion S1 as [|c ? ? ? Sc S2]; subst.
  inversion S2 as [|h ? ? ? Sh S3]; subst. inversion S3 as [|w ? ? ? Sw S4]; subst. inversion S4; subst.
  unfold infer_b2s in I. rewrite <- E1 in I. injection I as <-.
  destruct (negb (_ && _)); [discriminate R|]. cbv zeta in R. destruct (negb _); [discriminate R|]. ended R. injection R as <-.
  split; [exact D|]. cbn [p_shape t_shape].
  constructor; [apply (sok_if _ _ _ _ Sn); congruence|]. constructor; [apply (sok_if _ _ _ _ Sc); congruence|].
  constructor; [apply (sok_if _ _ _ _ Sh); congruence|]. constructor; [apply (sok_if _ _ _ _ Sw); congruence|]. constructor.
Qed.

Lemma infer_s2b_ok {A} zero pt pb pl pr bh bw (x : tensor A) p q y : describes p x ->
  infer_s2b pt pb pl pr bh bw p = Some q -> s2b_run zero pt pb pl pr bh bw x = SOk y -> describes q y.
Proof.
  intros [D S] I R. unfold s2b_run in R. destruct (negb (block_ok bh bw)); [discriminate R|].
  destruct (t_shape x) as [|N [|C [|H [|W [|? ?]]]]]; try discriminate R.
  inversion S as [|n ? ? ? Sn S1 E1]; subst. inversion S1 as [|c ? ? ? Sc S2]; subst.
  inversion S2 as [|h ? ? ? Sh S3]; subst. inversion S3 as [|w ? ? ? Sw S4]; subst. inversion S4; subst.
  unfold infer_s2b in I. rewrite <- E1 in I. injection I as <-.
  destruct (negb (_ && _)); [discriminate R|]. cbv zeta in R. destruct (negb _); [discriminate R|]. ended R. injection R as <-.
  split; [exact D|]. cbn [p_shape t_shape].
  constructor; [apply (sok_if _ _ _ _ Sn); congruence|]. constructor; [apply (sok_if _ _ _ _ Sc); congruence|].
  constructor; [apply (sok_if _ _ _ _ Sh); congruence|]. constructor; [apply (sok_if _ _ _ _ Sw); congruence|]. constructor.
Qed.

Lemma pad_shape_ok pads : forall p s, shape_ok p s ->
  (forall d l h, In (d, (l, h)) (combine s pads) -> d + (l + h) <> 0) ->
  shape_ok (map (fun xp => if fst xp <? 0 then fst xp else fst xp + (fst (snd xp) + snd (snd xp))) (combine p pads))
           (pad_shape s pads).
Proof.
  intros p s H. revert pads. induction H as [|d n p s Hd H IH]; intros pads K; [constructor|].
  destruct pads as [|[l h] pads]; [constructor|]. cbn [combine map pad_shape fst snd]. unfold pad_shape. cbn [combine map fst snd].
  constructor; [|apply IH; intros; apply K; now right].
  pose proof (K n l h (or_introl eq_refl)).
  destruct Hd as [Hd|Hd]; destruct (Z.ltb_spec d 0); try (left; lia). subst d.
  destruct (Z.ltb_spec (n + (l + h)) 1); [left; lia|right; reflexivity].
Qed.

Lemma infer_pad_ok {A} pads (v : A) x p q y : describes p x -> infer_pad pads p = Some q -> pad_run pads v x = SOk y ->
  (forallb (fun p => (fst p =? 0) && (snd p =? 0)) pads = true \/
   forall d l h, In (d, (l, h)) (combine (t_shape x) pads) -> d + (l + h) <> 0) -> describes q y.
Proof.
  intros [D S] I R K. unfold infer_pad in I. destruct (negb _) eqn:L; [discriminate|]. injection I as <-.
  unfold pad_run in R. destruct (negb _) eqn:L2 in R; [discriminate R|]. cbv zeta in R.
  apply negb_false_iff, Nat.eqb_eq in L. apply negb_false_iff, Nat.eqb_eq in L2.
  destruct (forallb _ pads) eqn:Z0.
  - injection R as <-. split; [exact D|]. cbn [p_shape t_shape]. clear K D L2. revert L Z0 S. generalize (p_shape p) (t_shape x).
    intros a b L Z0 S. revert pads L Z0. induction S as [|d n a b Hd S IH]; intros pads L Z0; [constructor|].
    destruct pads as [|[l h] pads]; [discriminate|]. cbn [forallb fst snd] in Z0. cbn [combine map fst snd length] in *.
    apply andb_true_iff in Z0. destruct Z0 as [Z1 Z2]. apply andb_true_iff in Z1. destruct Z1 as [Y1 Y2].
    apply Z.eqb_eq in Y1, Y2. subst l h. constructor; [|apply IH; [lia|exact Z2]].
    destruct (Z.ltb_spec d 0); [left; lia|]. destruct Hd; [lia|]. right. lia.
  - destruct K as [K|K]; [congruence|]. destruct (negb _) in R; [discriminate R|]. ended R. injection R as <-.
    split; [exact D|]. apply pad_shape_ok; assumption.
Qed.

Lemma infer_tile_ok {A} repeats (x : tensor A) p q y : describes p x -> infer_tile repeats p = Some q ->
  tile_run repeats x = SOk y -> describes q y.
Proof.
  intros [D S] I R. unfold infer_tile in I. injection I as <-. unfold tile_run in R.
  destruct (existsb _ repeats); [discriminate R|]. destruct (align (t_shape x) repeats) as [x' r'] eqn:Al.
  assert (G : shape_ok (map (fun xr => if fst xr <? 0 then -1 else fst xr * snd xr)
      (combine (ones_before (p_shape p) (length repeats)) (ones_before repeats (length (p_shape p))))) (tile_shape (t_shape x) repeats)).
  { unfold tile_shape, align. rewrite (shok_length _ _ S). apply shok_combine.
    - apply shok_ones, S.
    - intros u v c Hu. cbn [fst snd]. destruct (Z.ltb_spec u 0); [left; lia|]. destruct Hu; [lia|]. subst. apply sok_refl. }
  cbv zeta in R. destruct (existsb _ repeats) in R; [injection R as <-; split; [exact D|exact G]|].
  destruct (negb _); [discriminate R|]. ended R. injection R as <-. split; [exact D|exact G].
Qed.

Lemma infer_nms_ok top boxes xywh iou max_output scores thr p q y : shape_ok (p_shape p) [Z.of_nat (length scores)] ->
  infer_nms max_output p = Some q -> nms_run top boxes xywh iou max_output scores thr = SOk y ->
  max_output <= Z.of_nat (length scores) -> describes q y.
Proof.
  intros S I R K. unfold infer_nms in I. inversion S as [|n ? ? ? Hn S1 E1]; subst. inversion S1; subst.
  rewrite <- E1 in I. injection I as <-. unfold nms_run in R. destruct (Z.leb_spec max_output 0); [discriminate R|].
  cbv zeta in R. ended R. injection R as <-. split; [reflexivity|]. cbn [p_shape t_shape].
  constructor; [|constructor]. destruct Hn; [left|right]; lia.
Qed.
