(** ReduceSum and ReduceMean. *)
From Coq Require Import List ZArith Lia Bool Arith.
From Verif Require Import ShapeModel ShapeSpec ShapeProofs KernelBase KernelSpec KernelProofs CoordProofs TileModel EltwiseModel
  EltwiseKernelProofs AxisModel AxisSpec AxisProofs AxisScanProofs.
Import ListNotations.
Local Open Scope Z_scope.

Lemma inside_between S (b : list Z) T s t : inside S s -> inside T t ->
  inside (S ++ map (fun _ => 1) b ++ T) (s ++ map (fun _ => 0) b ++ t).
Proof.
  intros H1 H2. apply Forall2_app; [exact H1|]. apply Forall2_app; [|exact H2].
  clear. induction b as [|x b IH]; constructor; [lia|exact IH].
Qed.

Lemma ones_nonneg (b : list Z) : Forall (fun d => 0 <= d) (map (fun _ => 1) b).
Proof. induction b; constructor; [lia|assumption]. Qed.

(** a tensor of these values is the reduction *)
Lemma sum_reduced {A B} (add : A -> A -> A) (zero : A) (fin : A -> B) dt (x : tensor A) S R T between :
  wf x -> t_shape x = S ++ R ++ T ->
  let out := Tn dt (S ++ map (fun _ => 1) between ++ T)
    (map (fun p => fin (sum_value add zero (t_data x) (elements R) (elements T) p)) (upto (elements (S ++ map (fun _ => 1) between ++ T)))) in
  wf out /\ reduced (fun vs v => v = fin (fold_left add vs zero)) S R T between x out.
Proof.
  intros Wx Es out.
  assert (N := proj1 Wx). rewrite Es in N. apply Forall_app in N as [Ns N]. apply Forall_app in N as [Nr Nt].
  split.
  { apply wf_map. apply Forall_app. split; [exact Ns|]. apply Forall_app. split; [apply ones_nonneg|exact Nt]. }
  split; [exact Es|]. split; [reflexivity|]. intros s t Hs Ht.
  eexists _, _. split; [apply (along_data x S R T s t zero); assumption|]. split.
  - unfold out. rewrite elt_map by (now apply inside_between). rewrite position_out by exact Hs. reflexivity.
  - pose proof (position_bound _ _ Ht) as Bt. unfold sum_value.
    rewrite Z.div_add_l, Z.div_small, Z.add_0_r by lia.
    rewrite Z.add_comm, Z.mod_add, Z.mod_small by lia. reflexivity.
Qed.

Theorem reduce_sum_ok {A} (add : A -> A -> A) (zero : A) dim keep (x : tensor A) S d T :
  wf x -> t_shape x = S ++ d :: T -> axis_of dim (length (t_shape x)) (length S) -> tile_supports (t_dtype x) = true ->
  exists out, reduce_sum_run add zero dim keep x = SOk (filled out) /\ wf out /\ t_dtype out = t_dtype x /\
    reduced (fun vs v => v = fold_left add vs zero) S [d] T (if keep then [d] else []) x out.
Proof.
  intros Wx Es Ha Hs. unfold reduce_sum_run. rewrite (fix_dim_ok _ _ _ Ha), Hs. cbn [negb].
  assert (N := proj1 Wx). rewrite Es in N. apply Forall_app in N as [Ns N]. inversion N as [|? ? Nd Nt]; subst.
  pose proof (elements_nonneg _ Ns) as E1. pose proof (elements_nonneg _ Nt) as E2.
  rewrite Es, firstn_len, skipn_len, nth_len, set_one_app, !prod_elements.
  assert (Ee : elements (S ++ 1 :: T) = elements S * elements T) by (rewrite elements_app; cbn [elements]; ring).
  rewrite Ee. rewrite sum_compute by (auto; rewrite (proj2 Wx), Es, elements_app; cbn [elements]; ring).
  destruct (sum_reduced add zero (fun a => a) (t_dtype x) x S [d] T (if keep then [d] else []) Wx Es) as [W R].
  eexists. split; [|split; [exact W|split; [reflexivity|exact R]]].
  unfold filled. cbn [t_dtype t_shape t_data].
  assert (Er : elements [d] = d) by (cbn [elements]; ring). rewrite Er.
  rewrite elements_app, ones_between.
  f_equal. f_equal. destruct keep; cbn [map app]; [reflexivity|]. apply erase_app.
Qed.

(** axes in a row *)
Lemma map_seq_shift (f : nat -> Z) n : forall a, map f (seq (S a) n) = map (fun k => f (S k)) (seq a n).
Proof. induction n as [|n IH]; intros a; [reflexivity|]. cbn [seq map]. f_equal. apply IH. Qed.

Lemma continue_seq (f : nat -> Z) n : (forall k, f (S k) = f k + 1) -> forall a, dims_continue (map f (seq a n)) = true.
Proof.
  intros H. induction n as [|n IH]; intros a; [reflexivity|]. cbn [seq map dims_continue].
  destruct n as [|n]; [reflexivity|]. specialize (IH (S a)). cbn [seq map] in *. rewrite (proj2 (Z.eqb_eq _ _) (H a)). exact IH.
Qed.

Lemma fix_dims_seq (f : nat -> Z) rank n : forall a, (forall k, (a <= k < a + n)%nat -> axis_of (f k) rank k) ->
  fix_dims (map f (seq a n)) rank = SOk (seq a n).
Proof.
  induction n as [|n IH]; intros a H; [reflexivity|]. cbn [seq map fix_dims].
  rewrite (fix_dim_ok _ _ a) by (apply H; lia). rewrite IH; [reflexivity|]. intros k Hk. apply H. lia.
Qed.

Lemma ones_fold (R : list Z) : forall (S T : list Z),
  fold_left (fun s d => set_one d s) (seq (length S) (length R)) (S ++ R ++ T) = S ++ map (fun _ => 1) R ++ T.
Proof.
  induction R as [|r R IH]; intros S T; [reflexivity|]. cbn [length seq fold_left app map]. rewrite set_one_app.
  specialize (IH (S ++ [1]) T). rewrite app_length in IH. cbn [length] in IH. rewrite Nat.add_1_r, <- !app_assoc in IH. cbn [app] in IH. exact IH.
Qed.

Lemma drop_block (R T : list Z) : forall i, drop_dims i (R ++ T) (seq i (length R)) = T.
Proof.
  induction R as [|r R IH]; intros i; [destruct T; reflexivity|]. cbn [length seq app drop_dims]. rewrite Nat.eqb_refl. apply IH.
Qed.

Lemma drop_seq (S R T : list Z) : R <> [] -> forall i, drop_dims i (S ++ R ++ T) (seq (i + length S) (length R)) = S ++ T.
Proof.
  intros Hr. induction S as [|s S IH]; intros i.
  - rewrite Nat.add_0_r. cbn [app]. apply drop_block.
  - destruct R as [|r R]; [contradiction|]. specialize (IH (Datatypes.S i)). cbn [length seq app drop_dims] in *.
    destruct (Nat.eqb_spec i (i + Datatypes.S (length S))); [lia|].
    f_equal. replace (i + Datatypes.S (length S))%nat with (Datatypes.S i + length S)%nat by lia. exact IH.
Qed.

Lemma nth_block (R : list Z) : forall (S T : list Z), map (fun d => nth d (S ++ R ++ T) 0) (seq (length S) (length R)) = R.
Proof.
  induction R as [|r R IH]; intros S T; [reflexivity|]. cbn [length seq map app]. f_equal.
  - apply nth_len.
  - specialize (IH (S ++ [r]) T). rewrite app_length in IH. cbn [length] in IH. rewrite Nat.add_1_r, <- !app_assoc in IH. exact IH.
Qed.

Lemma last_seq n : forall a, last (seq a (S n)) O = (a + n)%nat.
Proof.
  induction n as [|n IH]; intros a; [cbn; lia|]. change (seq a (S (S n))) with (a :: seq (S a) (S n)).
  transitivity (last (seq (S a) (S n)) O); [reflexivity|]. rewrite IH. lia.
Qed.

Lemma block_fixed dims rank first count : block_dims dims rank first count -> (first + count <= rank)%nat ->
  dims_continue dims = true /\ fix_dims dims rank = SOk (seq first count).
Proof.
  intros [E|E] H; subst dims.
  - split; [apply continue_seq; intros; lia|]. apply fix_dims_seq. intros k Hk. split; [lia|]. now left.
  - split; [apply continue_seq; intros; lia|]. apply fix_dims_seq. intros k Hk. split; [lia|]. now right.
Qed.

Theorem reduce_mean_ok {A} (add : A -> A -> A) (div : A -> Z -> A) (zero : A) dims keep (x : tensor A) S R T :
  wf x -> t_shape x = S ++ R ++ T -> R <> [] -> block_dims dims (length (t_shape x)) (length S) (length R) ->
  tile_supports (t_dtype x) = true -> (integer_dtype (t_dtype x) = true -> elements R <> 0) ->
  exists out, reduce_mean_run add div zero dims keep x = SOk (filled out) /\ wf out /\ t_dtype out = t_dtype x /\
    reduced (fun vs v => v = div (fold_left add vs zero) (elements R)) S R T (if keep then R else []) x out.
Proof.
  intros Wx Es Hr Hb Hs Hz. unfold reduce_mean_run.
  assert (L : (length S + length R <= length (t_shape x))%nat) by (rewrite Es, !app_length; lia).
  destruct (block_fixed _ _ _ _ Hb L) as [-> ->]. cbn [negb]. rewrite Hs. cbn [negb].
  assert (N := proj1 Wx). rewrite Es in N. apply Forall_app in N as [Ns N]. apply Forall_app in N as [Nr Nt].
  pose proof (elements_nonneg _ Ns) as E1. pose proof (elements_nonneg _ Nt) as E2. pose proof (elements_nonneg _ Nr) as E3.
  rewrite Es.
  assert (Eo : mean_shape keep (S ++ R ++ T) (seq (length S) (length R)) = S ++ map (fun _ => 1) (if keep then R else []) ++ T).
  { unfold mean_shape. destruct keep; [apply ones_fold|]. apply (drop_seq S R T Hr 0). }
  rewrite Eo.
  assert (Eb : nth_error (seq (length S) (length R)) 0 = Some (length S)) by (destruct R; [contradiction|reflexivity]).
  destruct (seq (length S) (length R)) as [|first rest] eqn:Eq; [discriminate|]. injection Eb as ->.
  rewrite <- Eq. rewrite nth_block, firstn_len, !prod_elements.
  assert (Ew : skipn (Datatypes.S (last (seq (length S) (length R)) O)) (S ++ R ++ T) = T).
  { destruct R as [|r R]; [contradiction|]. cbn [length] in *. rewrite last_seq. rewrite app_assoc.
    replace (Datatypes.S (length S + length R)) with (length (S ++ r :: R)) by (rewrite app_length; cbn; lia).
    rewrite skipn_app, skipn_all, Nat.sub_diag. reflexivity. }
  rewrite Ew.
  set (o := S ++ map (fun _ => 1) (if keep then R else []) ++ T).
  assert (Ee : elements o = elements S * elements T) by (unfold o; rewrite elements_app, ones_between; reflexivity).
  rewrite Ee.
  assert (Ed : (if (elements R =? 0) && integer_dtype (t_dtype x) then SUndef else SOk (fun a => div a (elements R))) = SOk (fun a => div a (elements R))).
  { destruct (Z.eqb_spec (elements R) 0); [|reflexivity]. destruct (integer_dtype (t_dtype x)); [exfalso; now apply Hz|reflexivity]. }
  rewrite Ed.
  assert (C : computes (elements S * elements T) (sum_value add zero (t_data x) (elements R) (elements T))
    (zeros zero (elements S * elements T) ++ sum_updates add (t_data x) (elements S) (elements R) (elements T))).
  { apply sum_compute; auto. rewrite (proj2 Wx), Es, !elements_app. ring. }
  rewrite app_assoc. rewrite (exec_instrs_app _ _ _ _ C).
  set (n := elements S * elements T) in *. set (V := sum_value add zero (t_data x) (elements R) (elements T)) in *.
  destruct (upds_exec (map (fun i => (i, SOk (fun a => div a (elements R)))) (upto n)) (map V (upto n))) as (data' & X & Ld & P & _).
  { rewrite map_map. rewrite map_id. apply NoDup_upto. }
  { intros i f H. apply in_map_iff in H. destruct H as (i' & [= <- <-] & Hi). apply In_upto in Hi. rewrite map_length, length_upto. split; [lia|eauto]. }
  rewrite (map_map (fun i => (i, SOk (fun a => div a (elements R))))) in X. cbn [fst snd] in X. rewrite X.
  destruct (sum_reduced add zero (fun a => div a (elements R)) (t_dtype x) x S R T (if keep then R else []) Wx Es) as [W Rd].
  eexists. split; [|split; [exact W|split; [reflexivity|exact Rd]]].
  unfold filled. cbn [t_dtype t_shape t_data]. fold o. rewrite Ee. fold n V. f_equal. f_equal. f_equal.
  apply nth_error_ext. intros i.
  rewrite map_length, length_upto in Ld.
  destruct (Nat.lt_ge_cases i (Z.to_nat n)) as [Hi|Hi].
  - assert (Q : nth_error (map V (upto n)) i = Some (V (Z.of_nat i))) by (rewrite nth_error_map, nth_upto_nat by exact Hi; reflexivity).
    specialize (P (Z.of_nat i) (fun a => div a (elements R)) (V (Z.of_nat i))). rewrite Nat2Z.id in P. rewrite P.
    + rewrite nth_error_map, nth_upto_nat by exact Hi. reflexivity.
    + apply in_map_iff. exists (Z.of_nat i). split; [reflexivity|]. apply In_upto. lia.
    + exact Q.
  - rewrite (proj2 (nth_error_None _ _)) by lia. symmetry. apply nth_error_None. rewrite map_length, length_upto. lia.
Qed.
