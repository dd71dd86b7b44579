(** Properties of softmax, l2_norm and norm_image. *)
From Coq Require Import List ZArith Bool Lia Field_theory Field.
From Verif Require Import ShapeModel ShapeSpec ShapeProofs KernelBase KernelSpec KernelProofs LoopModel LoopProofs TileModel AxisModel AxisProofs NormModel NormSpec NormProofs DeconvProofs.
Import ListNotations.
Local Open Scope Z_scope.

Section Props.
Context {R : Type} (rO rI : R) (radd rmul rsub : R -> R -> R) (ropp : R -> R) (rdiv : R -> R -> R) (rinv : R -> R).
Hypothesis Fth : field_theory rO rI radd rmul rsub ropp rdiv rinv (@eq R).
Variable tdiv : Z -> R -> R -> R.
Variable ltb : R -> R -> bool.
Variable conv : Z -> R -> R.
Variables fsqrt fexp : R -> R.
Variable ofZ : Z -> R.
Add Field RF : Fth.

Notation sum_over := (sum_over rO radd).
Notation row_sum := (row_sum rO radd).
Notation val := (val rO).

Lemma sum_cons {X} (f : X -> R) a l : sum_over (a :: l) f = radd (f a) (sum_over l f).
Proof. reflexivity. Qed.
Lemma sum_eq {X} (f g : X -> R) l : (forall a, In a l -> f a = g a) -> sum_over l f = sum_over l g.
Proof.
  induction l as [|a l IH]; intros H; [reflexivity|]. rewrite !sum_cons, (H a) by now left. f_equal. apply IH. intros b Hb. apply H. now right.
Qed.
Lemma fold_sum {X} (f : X -> R) l : forall s, fold_left (fun s i => radd s (f i)) l s = radd s (sum_over l f).
Proof using Fth.
  induction l as [|a l IH]; intros s; cbn [fold_left]; [change (sum_over [] f) with rO; ring|]. rewrite IH, sum_cons. ring.
Qed.
Lemma fold_sum_0 {X} (f : X -> R) l : fold_left (fun s i => radd s (f i)) l rO = sum_over l f.
Proof using Fth. rewrite fold_sum. ring. Qed.
Lemma sum_scale {X} (f : X -> R) (k : R) l : sum_over l (fun a => rmul (f a) k) = rmul (sum_over l f) k.
Proof using Fth. induction l as [|a l IH]; [change (sum_over (@nil X) (fun a => rmul (f a) k)) with rO; change (sum_over [] f) with rO; ring|]. rewrite !sum_cons, IH. ring. Qed.
Lemma sum_minus {X} (f : X -> R) (m : R) l : sum_over l (fun a => rsub (f a) m) = rsub (sum_over l f) (rmul (sum_over l (fun _ => rI)) m).
Proof using Fth.
  induction l as [|a l IH]; [change (sum_over (@nil X) (fun a => rsub (f a) m)) with rO; change (sum_over [] f) with rO; change (sum_over (@nil X) (fun _ => rI)) with rO; ring|].
  rewrite !sum_cons, IH. ring.
Qed.
Lemma sum_positive {X} (P : R -> Prop) (f : X -> R) l : (forall a b, P a -> P b -> P (radd a b)) -> (forall a, P (f a)) -> l <> [] -> P (sum_over l f).
Proof using Fth.
  intros H1 H2. induction l as [|a l IH]; intros N; [congruence|]. rewrite sum_cons. destruct l as [|b l].
  - change (sum_over [] f) with rO. replace (radd (f a) rO) with (f a) by ring. apply H2.
  - apply H1; [apply H2|]. now apply IH.
Qed.

Lemma val_load (x : tensor R) c : val x c = nth (Z.to_nat (position (t_shape x) c)) (t_data x) rO.
Proof. unfold NormSpec.val, elt. destruct (nth_error _ _) eqn:E; [now rewrite (nth_error_nth _ _ rO E)|]. apply nth_error_None in E. now rewrite nth_overflow. Qed.

(** ** Rows along an axis, in general *)
Lemma along_ok dim axis body (x : tensor R) (run : Z -> list R -> Z -> Z -> Z -> sres (list (option R))) (V : Z -> Z -> Z -> R) (f : list Z -> R) :
  wf x -> axis_of dim (length (t_shape x)) axis -> tile_supports (t_dtype x) = true -> nth_error (t_shape x) axis = Some body ->
  (forall head tail, head = elements (firstn axis (t_shape x)) -> tail = elements (skipn (S axis) (t_shape x)) ->
     0 <= head -> 0 <= tail -> 0 <= body -> Z.of_nat (length (t_data x)) = head * body * tail ->
     (exists out, run (t_dtype x) (t_data x) head body tail = SOk (map Some out) /\ Z.of_nat (length out) = head * body * tail /\
       forall n i w, 0 <= n < head -> 0 <= i < body -> 0 <= w < tail -> nth_error out (Z.to_nat (n * body * tail + w + i * tail)) = Some (V n i w)) /\
     forall c n i w, inside (t_shape x) c -> 0 <= n < head -> 0 <= i < body -> 0 <= w < tail -> i = nth axis c 0 ->
       val x c = nth (Z.to_nat (n * body * tail + w + i * tail)) (t_data x) rO ->
       (forall g, row_sum x axis c g = sum_over (upto body) (fun j => g (nth (Z.to_nat (n * body * tail + w + j * tail)) (t_data x) rO))) ->
       V n i w = f c) ->
  exists out, along_axis dim run x = SOk (filled out) /\ tabulates x f out.
Proof.
  intros W A T E H. pose proof (proj1 W) as F. pose proof (axis_split _ _ _ E) as Sp.
  assert (Fs := F). rewrite Sp in Fs. apply Forall_app in Fs. destruct Fs as [Fa Fb]. inversion Fb as [|? ? Hb Fb' Q]; subst.
  destruct (H _ _ eq_refl eq_refl (elements_nonneg _ Fa) (elements_nonneg _ Fb') Hb) as ((out & Er & Lo & No) & Hf).
  { rewrite (proj2 W). rewrite Sp at 1. rewrite elements_app. cbn [elements]. ring. }
  exists (Tn (t_dtype x) (t_shape x) out). split.
  { unfold along_axis. rewrite (fix_dim_ok _ _ _ A), T. cbn [negb]. rewrite !prod_elements, (nth_error_nth _ _ 0 E), Er. reflexivity. }
  assert (Lx : Z.of_nat (length out) = elements (t_shape x)) by (rewrite Lo; rewrite Sp at 3; rewrite elements_app; cbn [elements]; ring).
  split; [split; [exact F|exact Lx]|]. split; [reflexivity|]. split; [reflexivity|].
  intros c Hc. destruct (axis_coords _ _ _ _ F E Hc) as (n & w & Hn & Hw & Hi & P & Q). cbv zeta in *.
  unfold elt. cbn [t_shape t_data]. rewrite P, No by assumption. f_equal. apply (Hf c n _ w); auto.
  - rewrite val_load, P. reflexivity.
  - intros g. unfold NormSpec.row_sum. rewrite (nth_error_nth _ _ 0 E). apply sum_eq. intros j Hj. apply In_upto in Hj.
    f_equal. unfold along. rewrite val_load. now rewrite (proj1 (proj2 (Q j Hj))).
Qed.

Lemma axis_size dim (x : tensor R) axis : axis_of dim (length (t_shape x)) axis -> nth_error (t_shape x) axis = Some (nth axis (t_shape x) 0).
Proof. intros [H _]. destruct (nth_error (t_shape x) axis) eqn:E; [now rewrite (nth_error_nth _ _ 0 E)|]. apply nth_error_None in E. lia. Qed.

(** ** C108: softmax along an axis divides the exponential of each element by
    the sum of the exponentials in its row, whether or not the largest element
    is subtracted first. *)
Theorem C108_softmax_partial positive dim smooth axis (x : tensor R) : exponential rO radd rsub rdiv fexp positive ->
  wf x -> axis_of dim (length (t_shape x)) axis -> 0 < nth axis (t_shape x) 0 ->
  t_dtype x = 10 \/ t_dtype x = 11 -> (forall v, conv (t_dtype x) v = v) -> (forall a b, tdiv (t_dtype x) a b = rdiv a b) ->
  exists out, softmax rO rI radd rsub tdiv ltb conv fexp dim smooth x = SOk (filled out) /\ softmaxed rO radd rdiv fexp axis x out.
Proof using Fth.
  intros (E1 & E2 & E3 & E4) W A B D Hc Hd. assert (T : tile_supports (t_dtype x) = true) by (destruct D as [->| ->]; reflexivity).
  set (body := nth axis (t_shape x) 0) in *.
  set (head := elements (firstn axis (t_shape x))). set (tail := elements (skipn (S axis) (t_shape x))).
  apply (along_ok dim axis body x (fun t => softmax_data rO rI radd rsub tdiv ltb conv fexp t smooth)
    (fun n i w => if body =? 1 then rI else tdiv (t_dtype x) (soft_e rO rsub ltb conv fexp (t_dtype x) body tail (t_data x) smooth n w i)
                    (soft_sum rO radd rsub ltb conv fexp (t_dtype x) body tail (t_data x) smooth n w))); auto; [now apply (axis_size dim)|].
  intros h t0 Eh Et Hh Ht Hb Lx. change (h = head) in Eh. change (t0 = tail) in Et. clearbody head tail. subst h t0. split.
  - apply softmax_rows; auto. lia.
  - intros c n i w Ic Hn Hi Hw Ei Hv Hs. rewrite Hv, Hs.
    set (X j := nth (Z.to_nat (n * body * tail + w + j * tail)) (t_data x) rO). fold (X i).
    change (fun j => fexp (nth (Z.to_nat (n * body * tail + w + j * tail)) (t_data x) rO)) with (fun j => fexp (X j)).
    assert (Ne : upto body <> []).
    { intros Q. assert (G : In 0 (upto body)) by (apply In_upto; lia). now rewrite Q in G. }
    assert (N : sum_over (upto body) (fun j => fexp (X j)) <> rO).
    { intros Q. apply E3. rewrite <- Q. apply sum_positive; auto. }
    assert (N' : forall v, fexp v <> rO) by (intros v Q; apply E3; rewrite <- Q; apply E1).
    destruct (Z.eqb_spec body 1) as [Eb|_].
    + assert (i = 0) by lia. subst i. rewrite Eb in *. change (upto 1) with [0] in *.
      replace (sum_over [0] (fun j => fexp (X j))) with (fexp (X 0)) by (rewrite sum_cons; change (sum_over (@nil Z) (fun j => fexp (X j))) with rO; ring).
      rewrite H. field. apply N'.
    + rewrite Hd. unfold soft_sum, soft_e. rewrite fold_sum_0.
      rewrite (sum_eq _ (fun j => rmul (fexp (X j)) (if smooth then rinv (fexp (greatest rO ltb body tail (t_data x) n w)) else rI))).
      2:{ intros j _. rewrite Hc. fold (X j). destruct smooth; [|ring]. rewrite E4. field. apply N'. }
      rewrite sum_scale, Hc. fold (X i). destruct smooth.
      * rewrite E4. field. split; [exact N|apply N'].
      * field. exact N.
Qed.

(** There is only one such tensor, so the two ways of computing agree. *)
Lemma tabulates_unique (x : tensor R) f out out' : tabulates x f out -> tabulates x f out' -> out = out'.
Proof.
  intros (W & D & S & E) (W' & D' & S' & E'). apply tensor_ext; auto; [congruence|congruence|].
  intros c Hc. rewrite E, E' by congruence. reflexivity.
Qed.
Theorem C108_smooth_does_not_matter positive dim axis (x : tensor R) : exponential rO radd rsub rdiv fexp positive ->
  wf x -> axis_of dim (length (t_shape x)) axis -> 0 < nth axis (t_shape x) 0 ->
  t_dtype x = 10 \/ t_dtype x = 11 -> (forall v, conv (t_dtype x) v = v) -> (forall a b, tdiv (t_dtype x) a b = rdiv a b) ->
  softmax rO rI radd rsub tdiv ltb conv fexp dim true x = softmax rO rI radd rsub tdiv ltb conv fexp dim false x.
Proof using Fth.
  intros Ex W A B D Hc Hd. destruct (C108_softmax_partial positive dim true axis x Ex W A B D Hc Hd) as (o & -> & H).
  destruct (C108_softmax_partial positive dim false axis x Ex W A B D Hc Hd) as (o' & -> & H').
  now rewrite (tabulates_unique _ _ _ _ H H').
Qed.

Lemma at_axis_twice axis f j c : at_axis axis f (at_axis axis (fun _ => j) c) = at_axis axis (fun _ => f j) c.
Proof. revert c. induction axis as [|n IH]; intros [|y c]; cbn; auto. now rewrite IH. Qed.
Lemma row_sum_same (x : tensor R) axis c j g : row_sum x axis (at_axis axis (fun _ => j) c) g = row_sum x axis c g.
Proof. unfold NormSpec.row_sum, along. apply sum_eq. intros k _. now rewrite at_axis_twice. Qed.

(** The elements of every row sum to one. *)
Theorem C108_rows_sum_to_one positive axis (x out : tensor R) : exponential rO radd rsub rdiv fexp positive ->
  wf x -> (axis < length (t_shape x))%nat -> softmaxed rO radd rdiv fexp axis x out ->
  forall c, inside (t_shape x) c -> row_sum out axis c (fun v => v) = rI.
Proof using Fth.
  intros (E1 & E2 & E3 & _) W L (Wo & Do & So & El) c Hc.
  assert (E : nth_error (t_shape x) axis = Some (nth axis (t_shape x) 0)).
  { destruct (nth_error (t_shape x) axis) eqn:Q; [now rewrite (nth_error_nth _ _ 0 Q)|]. apply nth_error_None in Q. lia. }
  destruct (axis_coords _ _ _ _ (proj1 W) E Hc) as (n & w & _ & _ & Hi & _ & Q). cbv zeta in Q.
  set (body := nth axis (t_shape x) 0) in *.
  set (S := row_sum x axis c fexp).
  assert (N : S <> rO).
  { intros Z0. apply E3. rewrite <- Z0. unfold S, NormSpec.row_sum. apply (sum_positive positive); auto. fold body.
    intros G. assert (I : In 0 (upto body)) by (apply In_upto; lia). now rewrite G in I. }
  unfold NormSpec.row_sum. rewrite So. fold body.
  rewrite (sum_eq _ (fun j => rmul (fexp (along rO x axis c j)) (rinv S))).
  - rewrite sum_scale. change (sum_over (upto body) (fun j => fexp (along rO x axis c j))) with S. field. exact N.
  - intros j Hj. apply In_upto in Hj. unfold along at 1. unfold NormSpec.val at 1. rewrite El by (now apply Q).
    rewrite row_sum_same. fold S. unfold along. field. exact N.
Qed.

(** Adding a constant to a row does not change the result. *)
Theorem C108_shift positive axis (x y out : tensor R) k : exponential rO radd rsub rdiv fexp positive ->
  (forall a b, fexp (radd a b) = rmul (fexp a) (fexp b)) ->
  wf x -> (axis < length (t_shape x))%nat -> tabulates x (fun c => radd (val x c) k) y -> softmaxed rO radd rdiv fexp axis x out ->
  softmaxed rO radd rdiv fexp axis y out.
Proof using Fth.
  intros (E1 & E2 & E3 & _) Ea W L (Wy & Dy & Sy & Ely) (Wo & Do & So & El). split; [exact Wo|]. split; [congruence|]. split; [congruence|].
  intros c Hc. rewrite Sy in Hc. rewrite (El c Hc). f_equal.
  assert (E : nth_error (t_shape x) axis = Some (nth axis (t_shape x) 0)).
  { destruct (nth_error (t_shape x) axis) eqn:Q; [now rewrite (nth_error_nth _ _ 0 Q)|]. apply nth_error_None in Q. lia. }
  destruct (axis_coords _ _ _ _ (proj1 W) E Hc) as (n & w & _ & _ & Hi & _ & Q). cbv zeta in Q.
  assert (Hv : forall d, inside (t_shape x) d -> val y d = radd (val x d) k).
  { intros d Hd. unfold NormSpec.val at 1. now rewrite Ely by exact Hd. }
  rewrite Hv, Ea by exact Hc.
  assert (Hr : row_sum y axis c fexp = rmul (row_sum x axis c fexp) (fexp k)).
  { unfold NormSpec.row_sum. rewrite Sy, <- sum_scale. apply sum_eq. intros j Hj. apply In_upto in Hj. unfold along.
    rewrite Hv by (now apply Q). apply Ea. }
  rewrite Hr. field. split; [intros Z0; apply E3; rewrite <- Z0; apply E1|].
  intros Z0. apply E3. rewrite <- Z0. unfold NormSpec.row_sum. apply (sum_positive positive); auto.
  intros G. assert (I : In 0 (upto (nth axis (t_shape x) 0))) by (apply In_upto; lia). now rewrite G in I.
Qed.

(** Axes the tensor does not have, and other types, are refused. *)
Theorem C108_refused dim smooth epsilon (x : tensor R) :
  (forall axis, ~ axis_of dim (length (t_shape x)) axis) \/ tile_supports (t_dtype x) = false ->
  softmax rO rI radd rsub tdiv ltb conv fexp dim smooth x = SErr /\ l2_norm rO rI radd rmul tdiv conv fsqrt dim epsilon x = SErr.
Proof.
  intros H. unfold softmax, l2_norm, along_axis. destruct H as [H|H].
  - rewrite (fix_dim_err _ _ H). auto.
  - rewrite H. destruct (fix_dim dim (length (t_shape x))) eqn:E; auto.
    unfold fix_dim in E. destruct (_ && _); discriminate.
Qed.

(** An axis of size zero: the first element of a row is read though there is
    none. *)
Theorem C108_empty_refuted dim axis (x : tensor R) : wf x -> axis_of dim (length (t_shape x)) axis -> tile_supports (t_dtype x) = true ->
  nth axis (t_shape x) 0 = 0 -> 0 < elements (firstn axis (t_shape x)) -> 0 < elements (skipn (S axis) (t_shape x)) ->
  softmax rO rI radd rsub tdiv ltb conv fexp dim true x = SUndef.
Proof.
  intros W A T B Hh Ht. unfold softmax, along_axis. rewrite (fix_dim_ok _ _ _ A), T. cbn [negb]. rewrite !prod_elements, B.
  assert (L : t_data x = []).
  { destruct W as [_ W]. rewrite (axis_split _ _ _ (axis_size _ _ _ A)), B in W. rewrite elements_app in W. cbn [elements] in W.
    apply length_zero_iff_nil. lia. }
  rewrite L. unfold softmax_data. change (0 =? 1) with false. cbv iota.
  set (h := elements (firstn axis (t_shape x))) in *. set (t := elements (skipn (S axis) (t_shape x))) in *. clearbody h t.
  assert (G : exists rest, loops [h; t] = [0; 0] :: rest).
  { assert (U : forall n, 0 < n -> exists r, upto n = 0 :: r).
    { intros n Hn. unfold upto. destruct (Z.to_nat n) eqn:En; [lia|]. cbn. eauto. }
    destruct (U h Hh) as (r & Er). destruct (U t Ht) as (r' & Er'). unfold loops. rewrite Er, Er'. cbn. eauto. }
  destruct G as (rest & ->). cbn [flat_map]. unfold softmax_channel at 1. unfold load at 1.
  replace (nth_error (@nil R) _) with (@None R) by (destruct (Z.to_nat _); reflexivity). 
  destruct (0 * 0 * t + 0 + 0 * t <? 0); reflexivity.
Qed.

(** ** C109: l2_norm divides each element by the norm of its row; norm_image
    subtracts the mean and divides by the deviation of each image. *)
Theorem C109_l2_norm_partial dim axis epsilon (x : tensor R) : wf x -> axis_of dim (length (t_shape x)) axis -> nth axis (t_shape x) 0 <> 1 ->
  t_dtype x = 10 \/ t_dtype x = 11 -> (forall v, conv (t_dtype x) v = v) -> (forall a b, tdiv (t_dtype x) a b = rdiv a b) ->
  exists out, l2_norm rO rI radd rmul tdiv conv fsqrt dim epsilon x = SOk (filled out) /\ normalised rO radd rmul rdiv fsqrt axis epsilon x out.
Proof using Fth.
  intros W A B D Hc Hd. assert (T : tile_supports (t_dtype x) = true) by (destruct D as [->| ->]; reflexivity).
  set (body := nth axis (t_shape x) 0) in *.
  set (head := elements (firstn axis (t_shape x))). set (tail := elements (skipn (S axis) (t_shape x))).
  apply (along_ok dim axis body x (fun t => l2_data rO rI radd rmul tdiv conv fsqrt t epsilon)
    (fun n i w => if body =? 1 then rI else tdiv (t_dtype x) (nth (Z.to_nat (n * body * tail + w + i * tail)) (t_data x) rO)
       (conv (t_dtype x) (fsqrt (radd (l2_sum rO radd rmul conv (t_dtype x) body tail (t_data x) n w) (conv (t_dtype x) epsilon)))))); auto; [now apply (axis_size dim)|].
  intros h t0 Eh Et Hh Ht Hb Lx. change (h = head) in Eh. change (t0 = tail) in Et. clearbody head tail. subst h t0. split.
  - now apply l2_rows.
  - intros c n i w Ic Hn Hi Hw Ei Hv Hs. rewrite Hv, Hs. destruct (Z.eqb_spec body 1); [contradiction|].
    rewrite Hd, !Hc. f_equal. f_equal. f_equal. unfold l2_sum. rewrite fold_sum_0. apply sum_eq. intros j _. apply Hc.
Qed.
(** the squares of a row of the result *)
Theorem C109_l2_rows axis epsilon (x out : tensor R) c : wf x -> (axis < length (t_shape x))%nat -> normalised rO radd rmul rdiv fsqrt axis epsilon x out -> inside (t_shape x) c ->
  let s := row_sum x axis c (fun v => rmul v v) in
  rmul (fsqrt (radd s epsilon)) (fsqrt (radd s epsilon)) = radd s epsilon -> radd s epsilon <> rO ->
  rmul (row_sum out axis c (fun v => rmul v v)) (radd s epsilon) = s.
Proof using Fth.
  intros W L (Wo & Do & So & El) Hc s Hq Hn.
  assert (E : nth_error (t_shape x) axis = Some (nth axis (t_shape x) 0)).
  { destruct (nth_error (t_shape x) axis) eqn:Q; [now rewrite (nth_error_nth _ _ 0 Q)|]. apply nth_error_None in Q. lia. }
  destruct (axis_coords _ _ _ _ (proj1 W) E Hc) as (n & w & _ & _ & Hi & _ & Q). cbv zeta in Q.
  set (r := fsqrt (radd s epsilon)) in *.
  assert (Nr : r <> rO) by (intros Z0; apply Hn; rewrite <- Hq, Z0; ring).
  unfold NormSpec.row_sum at 1. rewrite So.
  rewrite (sum_eq _ (fun j => rmul (rmul (along rO x axis c j) (along rO x axis c j)) (rinv (rmul r r)))).
  - rewrite sum_scale. change (sum_over (upto (nth axis (t_shape x) 0)) (fun j => rmul (along rO x axis c j) (along rO x axis c j))) with s.
    rewrite <- Hq. field. exact Nr.
  - intros j Hj. apply In_upto in Hj. unfold along at 1 2. unfold NormSpec.val at 1 2. rewrite El by (now apply Q).
    rewrite row_sum_same. fold s. fold r. unfold along. field. exact Nr.
Qed.

(** rows of one element become one, whatever the element *)
Theorem C109_single dim axis epsilon (x : tensor R) : wf x -> axis_of dim (length (t_shape x)) axis -> nth axis (t_shape x) 0 = 1 ->
  tile_supports (t_dtype x) = true ->
  exists out, l2_norm rO rI radd rmul tdiv conv fsqrt dim epsilon x = SOk (filled out) /\ tabulates x (fun _ => rI) out.
Proof using Fth.
  intros W A B T.
  apply (along_ok dim axis 1 x (fun t => l2_data rO rI radd rmul tdiv conv fsqrt t epsilon) (fun _ _ _ => rI)); auto.
  { rewrite (axis_size dim) by exact A. now rewrite B. }
  intros h t0 _ _ Hh Ht Hb Lx. split; [|auto]. exact (l2_rows rO rI radd rmul tdiv conv fsqrt (t_dtype x) h 1 t0 (t_data x) Hh Hb Ht Lx epsilon).
Qed.

Theorem C109_single_refuted (v epsilon : R) : let s := fsqrt (radd (rmul v v) epsilon) in s <> rO -> v <> s ->
  ~ exists out, l2_norm rO rI radd rmul tdiv conv fsqrt 0 epsilon (Tn 10 [1] [v]) = SOk (filled out) /\
      normalised rO radd rmul rdiv fsqrt 0 epsilon (Tn 10 [1] [v]) out.
Proof using Fth.
  intros s Ns Nv (out & E & (W & D & S & El)).
  assert (Wx : wf (Tn 10 [1] [v])) by (split; [repeat constructor; lia|reflexivity]).
  assert (A : axis_of 0 1 0) by (split; [lia|left; reflexivity]).
  destruct (C109_single 0 0%nat epsilon (Tn 10 [1] [v]) Wx A eq_refl eq_refl) as (o & E' & (W' & D' & S' & El')).
  rewrite E in E'. injection E' as Q1 Q2 Q3.
  assert (I : inside [1] [0]) by (repeat constructor; lia).
  specialize (El [0] I). specialize (El' [0] I). unfold elt in El, El'. rewrite Q2 in El.
  assert (Q : t_data out = t_data o).
  { clear - Q3. revert Q3. generalize (t_data out), (t_data o). induction l as [|a l IH]; intros [|b l'] H; try discriminate; auto. cbn in H. injection H as -> H. f_equal. auto. }
  rewrite Q, El' in El. injection El as El.
  change (rI = rdiv v (fsqrt (radd (radd (rmul v v) rO) epsilon))) in El.
  replace (radd (radd (rmul v v) rO) epsilon) with (radd (rmul v v) epsilon) in El by ring. fold s in El.
  apply Nv. replace v with (rmul (rdiv v s) s) by (field; exact Ns). rewrite <- El. ring.
Qed.

Lemma upto_loops s (f : Z -> R) : Forall (fun d => 0 <= d) s -> sum_over (loops s) (fun c => f (position s c)) = sum_over (upto (elements s)) f.
Proof.
  intros F. rewrite <- (length_loops s F).
  assert (E : map (position s) (loops s) = upto (Z.of_nat (length (loops s)))).
  { pose proof (counted_loops s) as C. unfold counted in C.
    assert (M : map fst (combine (upto (Z.of_nat (length (loops s)))) (loops s)) = map (position s) (loops s)) by (rewrite C, map_map; reflexivity).
    rewrite <- M. clear. set (l := loops s). clearbody l.
    assert (G : forall (a : list Z) (b : list (list Z)), length a = length b -> map fst (combine a b) = a).
    { induction a as [|y a IH]; intros [|z b] H; cbn in *; try discriminate; auto. f_equal. apply IH. lia. }
    apply G. rewrite length_upto. lia. }
  rewrite <- E. induction (loops s) as [|c l IH] in |- *; [reflexivity|]. cbn [map]. rewrite !sum_cons. now f_equal.
Qed.

Theorem C109_norm_image epsilon (x : tensor R) batch rest : wf x -> t_shape x = batch :: rest -> 0 < batch ->
  t_dtype x = 10 \/ t_dtype x = 11 -> (forall v, conv (t_dtype x) v = v) ->
  exists out, norm_image rO rI radd rmul rsub rdiv conv fsqrt ofZ epsilon x = SOk (filled out) /\
    standardised rO rI radd rmul rsub rdiv fsqrt ofZ epsilon x out.
Proof using Fth.
  intros [F Lx] Es Hb D Hc. rewrite Es in F, Lx. inversion F as [|? ? Hb' Fr]; subst. cbn [elements] in Lx.
  pose proof (elements_nonneg _ Fr) as Nr.
  destruct (image_rows rO rI radd rmul rsub rdiv conv fsqrt ofZ (t_dtype x) batch (elements rest) (t_data x) epsilon) as (out & E & Lo & No); auto.
  exists (Tn (t_dtype x) (t_shape x) out). split.
  { unfold norm_image. replace ((t_dtype x =? 10) || (t_dtype x =? 11)) with true by (destruct D as [->| ->]; reflexivity).
    cbn [negb]. rewrite Es. destruct (Z.eqb_spec batch 0); [lia|]. rewrite prod_elements. cbn [elements].
    replace (Z.quot (batch * elements rest) batch) with (elements rest) by (rewrite Z.mul_comm, Z.quot_mul; lia).
    rewrite E. reflexivity. }
  split; [split; [cbn; rewrite Es; exact F|cbn [t_data t_shape]; rewrite Es; exact Lo]|]. split; [reflexivity|]. split; [reflexivity|].
  intros c Hcc. rewrite Es in Hcc. destruct c as [|n r]; [inversion Hcc|]. apply WinogradProofs.inside_inv in Hcc. destruct Hcc as [Hn Hr].
  pose proof (position_bound _ _ Hr) as Br.
  assert (V : forall r, val x (n :: r) = nth (Z.to_nat (n * elements rest + position rest r)) (t_data x) rO).
  { intros r'. rewrite val_load, Es. reflexivity. }
  unfold elt. cbn [t_data t_shape]. rewrite Es. cbn [position hd]. rewrite No by assumption. rewrite V, !Hc.
  assert (Me : image_mean rO radd rdiv ofZ (elements rest) (t_data x) n = mean rO radd rdiv ofZ x n).
  { unfold image_mean, mean, image_sum. rewrite Es. cbn [tl]. rewrite fold_sum_0. f_equal.
    rewrite (sum_eq (fun c => val x (n :: c)) (fun c => nth (Z.to_nat (n * elements rest + position rest c)) (t_data x) rO)) by (intros; apply V).
    symmetry. exact (upto_loops rest (fun i => nth (Z.to_nat (n * elements rest + i)) (t_data x) rO) Fr). }
  assert (De : image_dev rO radd rmul rsub rdiv fsqrt ofZ (elements rest) (t_data x) n = deviation rO radd rmul rsub rdiv fsqrt ofZ x n).
  { unfold image_dev, deviation, image_sum. rewrite Es, Me. cbn [tl]. rewrite fold_sum_0. do 2 f_equal.
    set (m := mean rO radd rdiv ofZ x n).
    rewrite (sum_eq (fun c => rmul (rsub (val x (n :: c)) m) (rsub (val x (n :: c)) m)) (fun c => (fun i => rmul (rsub (nth (Z.to_nat (n * elements rest + i)) (t_data x) rO) m) (rsub (nth (Z.to_nat (n * elements rest + i)) (t_data x) rO) m)) (position rest c)))
      by (intros; now rewrite V).
    symmetry. exact (upto_loops rest (fun i => rmul (rsub (nth (Z.to_nat (n * elements rest + i)) (t_data x) rO) m) (rsub (nth (Z.to_nat (n * elements rest + i)) (t_data x) rO) m)) Fr). }
  rewrite Me, De. reflexivity.
Qed.

(** The mean of every image of the result is zero. *)
Theorem C109_image_mean epsilon (x out : tensor R) batch rest n : wf x -> t_shape x = batch :: rest -> 0 <= n < batch ->
  ofZ (elements rest) = sum_over (loops rest) (fun _ => rI) -> ofZ (elements rest) <> rO ->
  standardised rO rI radd rmul rsub rdiv fsqrt ofZ epsilon x out -> mean rO radd rdiv ofZ out n = rO.
Proof using Fth.
  intros W Es Hn Hz Nz (Wo & Do & So & El). unfold mean, image_sum. rewrite So, Es. cbn [tl].
  set (k := rdiv rI (radd (deviation rO radd rmul rsub rdiv fsqrt ofZ x n) epsilon)).
  rewrite (sum_eq _ (fun c => rmul (rsub (val x (n :: c)) (mean rO radd rdiv ofZ x n)) k)).
  - rewrite sum_scale, sum_minus, <- Hz. unfold mean, image_sum. rewrite Es. cbn [tl]. 
    set (S := sum_over (loops rest) (fun c => val x (n :: c))). field. exact Nz.
  - intros c Hc. apply In_loops in Hc. unfold NormSpec.val at 1. rewrite El; [reflexivity|]. rewrite Es. constructor; assumption.
Qed.

(** Nothing is defined for tensors without images, and other types are refused. *)
Theorem C109_image_refused epsilon (x : tensor R) : t_dtype x <> 10 -> t_dtype x <> 11 ->
  norm_image rO rI radd rmul rsub rdiv conv fsqrt ofZ epsilon x = SErr.
Proof.
  intros H H'. unfold norm_image. destruct (Z.eqb_spec (t_dtype x) 10); [contradiction|]. destruct (Z.eqb_spec (t_dtype x) 11); [contradiction|reflexivity].
Qed.
Theorem C109_image_empty_refuted epsilon (x : tensor R) : t_dtype x = 10 -> t_shape x = [] \/ (exists rest, t_shape x = 0 :: rest) ->
  norm_image rO rI radd rmul rsub rdiv conv fsqrt ofZ epsilon x = SUndef.
Proof. intros D [E|(r & E)]; unfold norm_image; now rewrite D, E. Qed.
End Props.
Print Assumptions C108_softmax_partial.
Print Assumptions C108_smooth_does_not_matter.
Print Assumptions C108_rows_sum_to_one.
Print Assumptions C108_shift.
Print Assumptions C108_refused.
Print Assumptions C108_empty_refuted.
Print Assumptions C109_l2_norm_partial.
Print Assumptions C109_l2_rows.
Print Assumptions C109_single.
Print Assumptions C109_single_refuted.
Print Assumptions C109_norm_image.
Print Assumptions C109_image_mean.
Print Assumptions C109_image_refused.
Print Assumptions C109_image_empty_refuted.

(** ** The real numbers meet the assumptions.  The axioms of these are those of
    the real numbers of the standard library. *)
From Coq Require Import Reals RealField.
Definition rltb (a b : R) : bool := if Rlt_dec a b then true else false.
Lemma C108_real_exponential : exponential 0%R Rplus Rminus Rdiv exp (fun v => (0 < v)%R).
Proof.
  split; [exact exp_pos|]. split; [exact Rplus_lt_0_compat|]. split; [apply Rlt_irrefl|].
  intros a b. unfold Rminus. rewrite exp_plus, exp_Ropp. reflexivity.
Qed.
Theorem C108_softmax_reals_partial dim smooth axis (x : tensor R) : wf x -> axis_of dim (length (t_shape x)) axis -> 0 < nth axis (t_shape x) 0 -> t_dtype x = 10 ->
  exists out, softmax 0%R 1%R Rplus Rminus (fun _ => Rdiv) rltb (fun _ v => v) exp dim smooth x = SOk (filled out) /\
    softmaxed 0%R Rplus Rdiv exp axis x out /\
    forall c, inside (t_shape x) c -> row_sum 0%R Rplus out axis c (fun v => v) = 1%R.
Proof.
  intros W A B D.
  destruct (C108_softmax_partial 0%R 1%R Rplus Rmult Rminus Ropp Rdiv Rinv Rfield (fun _ => Rdiv) rltb (fun _ v => v) exp
    (fun v => (0 < v)%R) dim smooth axis x C108_real_exponential W A B (or_introl D) (fun _ => eq_refl) (fun _ _ => eq_refl)) as (out & E & S).
  exists out. split; [exact E|]. split; [exact S|].
  apply (C108_rows_sum_to_one 0%R 1%R Rplus Rmult Rminus Ropp Rdiv Rinv Rfield exp (fun v => (0 < v)%R) axis x out C108_real_exponential W (proj1 A) S).
Qed.
Print Assumptions C108_softmax_reals_partial.
Example C108_real_example : wf (Tn 10 [2; 3] [1; 2; 3; 0; 0; -1]%R) /\ axis_of (-1) 2 1 /\ 0 < nth 1 [2; 3] 0.
Proof. split; [split; [repeat constructor; lia|reflexivity]|]. split; [split; [lia|right; reflexivity]|cbn; lia]. Qed.

(** Integers: the quotients are cut off, so rows do not sum to one. *)
Theorem C108_integers_refuted : exists x : tensor Z, wf x /\ t_shape x = [2] /\ t_dtype x = 5 /\
  exists out, softmax 0 1 Z.add Z.sub (fun _ => Z.quot) Z.ltb (fun _ v => v) (fun v => if v <? 0 then 0 else 2 ^ v) 0 true x = SOk (filled out) /\
    row_sum 0 Z.add out 0 [0] (fun v => v) = 0.
Proof.
  exists (Tn 5 [2] [7; 7]). split; [split; [repeat constructor; lia|reflexivity]|]. split; [reflexivity|]. split; [reflexivity|].
  exists (Tn 5 [2] [0; 0]). split; vm_compute; reflexivity.
Qed.
Print Assumptions C108_integers_refuted.
(** two rows of two, along the first axis, with 2^v for the exponential *)
Example C108_example :
  softmax 0 1 Z.add Z.sub (fun _ a b => 100 * a / b) Z.ltb (fun _ v => v) (fun v => if v <? 0 then 0 else 2 ^ v) 0 true (Tn 10 [2; 2] [3; 5; 3; 2])
  = SOk (Tn 10 [2; 2] (map Some [50; 100; 50; 0])) /\
  softmax 0 1 Z.add Z.sub (fun _ a b => 100 * a / b) Z.ltb (fun _ v => v) (fun v => if v <? 0 then 0 else 2 ^ v) (-1) false (Tn 10 [2; 2] [3; 5; 3; 2])
  = SOk (Tn 10 [2; 2] (map Some [20; 80; 66; 33])) /\
  softmax 0 1 Z.add Z.sub (fun _ a b => 100 * a / b) Z.ltb (fun _ v => v) (fun v => if v <? 0 then 0 else 2 ^ v) 2 false (Tn 10 [2; 2] [3; 5; 3; 2]) = SErr.
Proof. repeat split; vm_compute; reflexivity. Qed.
Example C109_example :
  l2_norm 0 1 Z.add Z.mul (fun _ a b => 100 * a / b) (fun _ v => v) Z.sqrt 1 0 (Tn 10 [2; 2] [3; 4; 6; 8]) = SOk (Tn 10 [2; 2] (map Some [60; 80; 60; 80])) /\
  l2_norm 0 1 Z.add Z.mul (fun _ => Z.div) (fun _ v => v) Z.sqrt 1 0 (Tn 10 [2; 1] [-3; -4]) = SOk (Tn 10 [2; 1] (map Some [1; 1])) /\
  norm_image 0 100 Z.add Z.mul Z.sub Z.div (fun _ v => v) Z.sqrt (fun n => n) 0 (Tn 10 [2; 2] [1; 5; 3; 7]) = SOk (Tn 10 [2; 2] (map Some [-100; 100; -100; 100])).
Proof. repeat split; vm_compute; reflexivity. Qed.
Example C109_single_example : exists v epsilon : R, (sqrt (v * v + epsilon) <> 0 /\ v <> sqrt (v * v + epsilon))%R.
Proof.
  exists (-1)%R, 0%R. replace (-1 * -1 + 0)%R with 1%R by ring. rewrite sqrt_1. split; [exact R1_neq_R0|].
  intros H. apply (Rlt_irrefl 0). apply Rlt_trans with 1%R; [exact Rlt_0_1|]. rewrite <- H. apply Ropp_lt_gt_0_contravar. exact Rlt_0_1.
Qed.
