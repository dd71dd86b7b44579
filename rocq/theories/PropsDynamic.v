(** C95: depthwise_conv2d_v2, whose padding is an input. *)
From Coq Require Import List ZArith Bool Lia QArith.
From Verif Require Import ShapeModel KernelBase EltwiseModel GemmModel ConvModel DepthwiseModel DynamicModel DynamicSpec.
Import ListNotations.
Local Open Scope Z_scope.

Lemma shape_is_true t s : shape_is t s = true <-> t_shape t = s.
Proof. unfold shape_is. destruct list_eq_dec; split; congruence. Qed.

(** * Any operator of this kind *)
Section Generic.
Context {I X Y : Type} (init : list (tensor Z) -> I -> I * bool) (run : I -> X -> sres Y).
Variable none : I.
Variable arity : nat.
Hypothesis by_value : forall ps qs i, Forall2 same ps qs -> init ps i = init qs i.
Hypothesis forgets : forall ps i j, snd (init ps i) = true -> init ps j = init ps i.

Let start : state (I := I) := (repeat None arity, none).


Lemma unchanged_some ps qs : unchanged ps (map Some qs) = SOk true -> Forall2 same ps qs.
Proof.
  revert qs. induction ps as [|p ps IH]; intros [|q qs] H; cbn in H; try discriminate; [constructor|].
  destruct (unchanged ps (map Some qs)) as [b| |] eqn:U; try discriminate.
  injection H as H. apply andb_prop in H. destruct H as [H1 H2]. subst b.
  apply andb_prop in H1. destruct H1 as [S D]. constructor; [|apply IH; exact U].
  split; [apply shape_is_true; exact S|]. destruct (list_eq_dec Z.eq_dec (t_data p) (t_data q)); [assumption|discriminate].
Qed.
Lemma same_unchanged ps qs : Forall2 same ps qs -> unchanged ps (map Some qs) = SOk true.
Proof.
  induction 1 as [|p q ps qs [S D] F IH]; [reflexivity|]. cbn. rewrite IH, andb_true_r.
  apply shape_is_true in S. rewrite S. destruct list_eq_dec; [reflexivity|contradiction].
Qed.
Lemma unchanged_total ps qs : length ps = length qs -> exists b, unchanged ps (map Some qs) = SOk b.
Proof.
  revert qs. induction ps as [|p ps IH]; intros [|q qs] L; try discriminate; [exists true; reflexivity|].
  injection L as L. destruct (IH qs L) as [b E]. cbn. rewrite E. eexists. reflexivity.
Qed.
Lemma unchanged_start ps : length ps = arity -> (0 < arity)%nat ->
  unchanged ps (repeat None arity) = SOk false \/ unchanged ps (repeat None arity) = SUndef.
Proof.
  intros L. revert ps L. induction arity as [|k IH]; intros ps L P; [lia|]. destruct ps as [|p ps]; [discriminate|].
  injection L as L. cbn. destruct (shape_is p []); [now right|]. destruct k.
  - destruct ps; [left; reflexivity|discriminate].
  - destruct (IH ps L ltac:(lia)) as [E|E]; rewrite E; [left|right]; reflexivity.
Qed.
Lemma same_trans ps qs rs : Forall2 same ps qs -> Forall2 same qs rs -> Forall2 same ps rs.
Proof.
  intros F. revert rs. induction F as [|p q ps qs [A B] F IH]; intros rs G; inversion G; subst; [constructor|].
  constructor; [|apply IH; assumption]. destruct H1 as [C D]. split; congruence.
Qed.
Lemma same_refl ps : Forall2 same ps ps.
Proof. induction ps; constructor; [split; reflexivity|assumption]. Qed.

Lemma latest_snoc {A} (h : list A) x : latest (h ++ [x]) = Some x.
Proof. unfold latest. rewrite rev_app_distr. reflexivity. Qed.

Lemma after_snoc h st ps : after init st (h ++ [ps]) =
  match after init st h with Some st' => match update init st' ps with SOk (s, _) => Some s | SErr => Some st' | SUndef => None end | None => None end.
Proof.
  revert st. induction h as [|q h IH]; intros st; cbn.
  - destruct (update init st ps) as [[s b]| |]; reflexivity.
  - destruct (update init st q) as [[s b]| |]; [apply IH|apply IH|reflexivity].
Qed.

Lemma reached_after : (0 < arity)%nat -> forall h st, Forall (fun ps => length ps = arity) h -> after init start h = Some st ->
  (h = [] /\ st = start) \/
  exists ps j qs, fst st = map Some ps /\ snd st = fst (init ps j) /\ length ps = arity /\ latest h = Some qs /\ Forall2 same qs ps.
Proof.
  intros P h. induction h as [|ps h IH] using rev_ind; intros st F E.
  - left. injection E as <-. split; reflexivity.
  - right. apply Forall_app in F. destruct F as [F Lp]. apply Forall_inv in Lp.
    rewrite after_snoc in E. destruct (after init start h) as [s|] eqn:A; [|discriminate].
    specialize (IH s F eq_refl). unfold update in E. rewrite latest_snoc.
    destruct IH as [[-> ->]|(qs & j & rs & Q1 & Q2 & Q3 & Q4 & Q5)].
    + cbn [fst start] in E. destruct (unchanged_start ps Lp P) as [U|U]; rewrite U in E; [|discriminate].
      destruct (init ps (snd start)) as [i ok] eqn:N. injection E as <-.
      exists ps, (snd start), ps. cbn [fst snd]. rewrite N. cbn [fst].
      split; [reflexivity|]. split; [reflexivity|]. split; [assumption|]. split; [reflexivity|apply same_refl].
    + rewrite Q1 in E. destruct (unchanged_total ps qs ltac:(congruence)) as [[|] U]; rewrite U in E.
      * injection E as <-. exists qs, j, ps. split; [assumption|]. split; [assumption|]. split; [assumption|].
        split; [reflexivity|]. apply unchanged_some. exact U.
      * destruct (init ps (snd s)) as [i ok] eqn:N. injection E as <-.
        exists ps, (snd s), ps. cbn [fst snd]. rewrite N. cbn [fst].
        split; [reflexivity|]. split; [reflexivity|]. split; [assumption|]. split; [reflexivity|apply same_refl].
Qed.

(** acceptable parameters take effect whatever was called before *)
Lemma accepted h st ps x i : (0 < arity)%nat -> Forall (fun ps => length ps = arity) h -> after init start h = Some st ->
  length ps = arity -> Forall (fun p => t_shape p <> []) ps -> snd (init ps i) = true ->
  call init run st ps x = run (fst (init ps i)) x.
Proof.
  intros P F A L NS Ok. unfold call, update. destruct (reached_after P h st F A) as [[-> ->]|(qs & j & rs & Q1 & Q2 & Q3 & Q4 & Q5)].
  - cbn [fst start]. assert (U : unchanged ps (repeat None arity) = SOk false).
    { destruct (unchanged_start ps L P) as [U|U]; [exact U|exfalso].
      clear -U NS. revert ps NS U. induction arity as [|k IH]; intros [|p ps] NS U; cbn in U; try discriminate.
      inversion NS; subst. destruct (shape_is p []) eqn:S; [apply shape_is_true in S; contradiction|].
      destruct (unchanged ps (repeat None k)) eqn:V; try discriminate. apply (IH ps); assumption. }
    rewrite U. rewrite (forgets ps i (snd start) Ok). destruct (init ps i) as [f ok]. cbn in Ok |- *. subst ok. reflexivity.
  - rewrite Q1. destruct (unchanged_total ps qs ltac:(congruence)) as [[|] U]; rewrite U.
    + rewrite Q2. apply unchanged_some in U. rewrite <- (by_value ps qs j U). rewrite (forgets ps i j Ok). reflexivity.
    + rewrite (forgets ps i (snd st) Ok). destruct (init ps i) as [f ok]. cbn in Ok |- *. subst ok. reflexivity.
Qed.

(** unacceptable parameters are refused, unless the last call had the same *)
Lemma refused h st ps x : (0 < arity)%nat -> Forall (fun ps => length ps = arity) h -> after init start h = Some st ->
  length ps = arity -> Forall (fun p => t_shape p <> []) ps -> (forall i, snd (init ps i) = false) ->
  (forall qs, latest h = Some qs -> ~ Forall2 same ps qs) ->
  call init run st ps x = SErr.
Proof.
  intros P F A L NS Ok Ne. unfold call, update. destruct (reached_after P h st F A) as [[-> ->]|(qs & j & rs & Q1 & Q2 & Q3 & Q4 & Q5)].
  - cbn [fst start]. assert (U : unchanged ps (repeat None arity) = SOk false).
    { destruct (unchanged_start ps L P) as [U|U]; [exact U|exfalso].
      clear -U NS. revert ps NS U. induction arity as [|k IH]; intros [|p ps] NS U; cbn in U; try discriminate.
      inversion NS; subst. destruct (shape_is p []) eqn:S; [apply shape_is_true in S; contradiction|].
      destruct (unchanged ps (repeat None k)) eqn:V; try discriminate. apply (IH ps); assumption. }
    rewrite U. specialize (Ok (snd start)). destruct (init ps (snd start)) as [f ok]. cbn in Ok |- *. subst ok. reflexivity.
  - rewrite Q1. destruct (unchanged_total ps qs ltac:(congruence)) as [[|] U]; rewrite U.
    + exfalso. apply unchanged_some in U. apply (Ne rs Q4). apply (same_trans ps qs rs U).
      clear -Q5. induction Q5 as [|a b la lb [S D] F IH]; constructor; [split; congruence|assumption].
    + specialize (Ok (snd st)). destruct (init ps (snd st)) as [f ok]. cbn in Ok |- *. subst ok. reflexivity.
Qed.
End Generic.

(** * The depthwise convolution *)
Section Depthwise.
Context {R : Type} (rO : R) (radd rmul : R -> R -> R).

Lemma zeros_at nchw p : length (t_data p) = 8%nat -> unpadded nchw p ->
  forall s d, length (t_data s) = 4%nat -> length (t_data d) = 4%nat -> ones nchw s -> ones nchw d ->
  exists win, conv_init nchw (t_data p) (t_data s) (t_data d) = Some win.
Proof.
  intros Lp U s d Ls Ld Os Od. unfold unpadded, ones in *.
  destruct (t_data p) as [|p0 [|p1 [|p2 [|p3 [|p4 [|p5 [|p6 [|p7 [|]]]]]]]]]; try discriminate Lp.
  destruct (t_data s) as [|s0 [|s1 [|s2 [|s3 [|]]]]]; try discriminate Ls.
  destruct (t_data d) as [|d0 [|d1 [|d2 [|d3 [|]]]]]; try discriminate Ld.
  destruct nchw; cbn [other_axes] in *.
  - destruct (U 0%nat (or_introl eq_refl)) as [A B]. destruct (U 1%nat (or_intror (or_introl eq_refl))) as [C D].
    pose proof (Os 0%nat (or_introl eq_refl)) as E. pose proof (Os 1%nat (or_intror (or_introl eq_refl))) as F.
    pose proof (Od 0%nat (or_introl eq_refl)) as G. pose proof (Od 1%nat (or_intror (or_introl eq_refl))) as H.
    cbn in A, B, C, D, E, F, G, H. injection A as ->. injection B as ->. injection C as ->. injection D as ->.
    injection E as ->. injection F as ->. injection G as ->. injection H as ->. eexists. reflexivity.
  - destruct (U 0%nat (or_introl eq_refl)) as [A B]. destruct (U 3%nat (or_intror (or_introl eq_refl))) as [C D].
    pose proof (Os 0%nat (or_introl eq_refl)) as E. pose proof (Os 3%nat (or_intror (or_introl eq_refl))) as F.
    pose proof (Od 0%nat (or_introl eq_refl)) as G. pose proof (Od 3%nat (or_intror (or_introl eq_refl))) as H.
    cbn in A, B, C, D, E, F, G, H. injection A as ->. injection B as ->. injection C as ->. injection D as ->.
    injection E as ->. injection F as ->. injection G as ->. injection H as ->. eexists. reflexivity.
Qed.
Lemma init_zeros nchw p s d win : length (t_data p) = 8%nat -> length (t_data s) = 4%nat -> length (t_data d) = 4%nat ->
  conv_init nchw (t_data p) (t_data s) (t_data d) = Some win -> unpadded nchw p /\ ones nchw s /\ ones nchw d.
Proof.
  intros Lp Ls Ld. unfold unpadded, ones.
  destruct (t_data p) as [|p0 [|p1 [|p2 [|p3 [|p4 [|p5 [|p6 [|p7 [|]]]]]]]]]; try discriminate Lp.
  destruct (t_data s) as [|s0 [|s1 [|s2 [|s3 [|]]]]]; try discriminate Ls.
  destruct (t_data d) as [|d0 [|d1 [|d2 [|d3 [|]]]]]; try discriminate Ld.
  unfold conv_init. cbn [length Nat.eqb andb negb nth]. intros H.
  destruct nchw; cbn [other_axes].
  all: repeat match type of H with context[?a =? ?b] => destruct (Z.eqb_spec a b); cbn [andb negb] in H; try discriminate H; subst end.
  all: split; [|split]; intros a [<-|[<-|[]]]; cbn; try split; reflexivity.
Qed.

Lemma depthwise_fields nchw stride dilation pv packed slack p win x w :
  conv_init nchw (t_data p) (t_data stride) (t_data dilation) = Some win ->
  depthwise_core rO radd rmul nchw pv packed slack (Some (t_data p, t_data stride, t_data dilation)) (x, w) =
  depthwise_conv2d rO radd rmul nchw (t_data p) (t_data stride) (t_data dilation) pv packed x w slack.
Proof.
  intros E. unfold depthwise_core, depthwise_conv2d. rewrite E.
  assert (W : conv_window nchw (Some (t_data p, t_data stride, t_data dilation)) = SOk win).
  { unfold conv_window. unfold conv_init in E. destruct (negb _) in E; [discriminate|].
    destruct nchw; repeat match type of E with context[if ?b then None else _] => destruct b; [discriminate|] end;
    injection E as <-; reflexivity. }
  rewrite W. cbn [bind]. destruct (t_shape x) as [|n [|x1 [|x2 [|x3 [|]]]]], (t_shape w) as [|w0 [|w1 [|w2 [|w3 [|]]]]]; reflexivity.
Qed.

Lemma reinit_value nchw stride dilation ps qs i : Forall2 same ps qs ->
  conv_reinit nchw stride dilation ps i = conv_reinit nchw stride dilation qs i.
Proof.
  intros F. inversion F as [|p q ps' qs' [S D] F' E1 E2]; [reflexivity|]. inversion F'; subst.
  - unfold conv_reinit, shape_is. rewrite S, D. reflexivity.
  - reflexivity.
Qed.
Lemma reinit_forgets nchw stride dilation ps i j : snd (conv_reinit nchw stride dilation ps i) = true ->
  conv_reinit nchw stride dilation ps j = conv_reinit nchw stride dilation ps i.
Proof.
  unfold conv_reinit. destruct ps as [|p [|]]; try discriminate. destruct (negb _); [discriminate|]. reflexivity.
Qed.
Lemma reinit_ok nchw stride dilation p i : table p -> four stride -> four dilation -> unpadded nchw p -> ones nchw stride -> ones nchw dilation ->
  conv_reinit nchw stride dilation [p] i = (Some (t_data p, t_data stride, t_data dilation), true).
Proof.
  intros [Sp Lp] [Ss Ls] [Sd Ld] U O1 O2. unfold conv_reinit.
  assert (A1 : shape_is p [4; 2] = true) by (apply shape_is_true; exact Sp).
  assert (A2 : shape_is stride [4] = true) by (apply shape_is_true; exact Ss).
  assert (A3 : shape_is dilation [4] = true) by (apply shape_is_true; exact Sd).
  rewrite A1, A2, A3. cbn [andb negb]. destruct (zeros_at nchw p Lp U stride dilation Ls Ld O1 O2) as [win E]. rewrite E. reflexivity.
Qed.

(** A padding the operator supports takes effect whatever calls, refused or not,
    came before: the answer is that of a depthwise_conv2d with the attribute *)
Theorem C95_depthwise_partial : forall nchw stride dilation pv packed slack history st p x w,
  Forall (fun ps => length ps = 1%nat) history ->
  after (conv_reinit nchw stride dilation) new_conv history = Some st ->
  table p -> four stride -> four dilation -> unpadded nchw p -> ones nchw stride -> ones nchw dilation ->
  depthwise_conv2d_v2 rO radd rmul nchw stride dilation pv packed slack st [p] (x, w) =
  depthwise_conv2d rO radd rmul nchw (t_data p) (t_data stride) (t_data dilation) pv packed x w slack.
Proof.
  intros nchw stride dilation pv packed slack h st p x w F A Tp Fs Fd U O1 O2. unfold depthwise_conv2d_v2.
  pose proof (reinit_ok nchw stride dilation p None Tp Fs Fd U O1 O2) as R0.
  rewrite (accepted (conv_reinit nchw stride dilation) (depthwise_core rO radd rmul nchw pv packed slack) None 1
             (reinit_value nchw stride dilation) (reinit_forgets nchw stride dilation) h st [p] (x, w) None).
  - rewrite R0. cbn [fst]. destruct (zeros_at nchw p (proj2 Tp) U stride dilation (proj2 Fs) (proj2 Fd) O1 O2) as [win E].
    apply (depthwise_fields nchw stride dilation pv packed slack p win x w E).
  - lia.
  - exact F.
  - exact A.
  - reflexivity.
  - constructor; [rewrite (proj1 Tp); discriminate|constructor].
  - rewrite R0. reflexivity.
Qed.

(** Everything else is refused, unless it is the padding of the last call *)
Theorem C95_depthwise_refused_partial : forall nchw stride dilation pv packed slack history st p x w,
  Forall (fun ps => length ps = 1%nat) history ->
  after (conv_reinit nchw stride dilation) new_conv history = Some st ->
  t_shape p <> [] ->
  (t_shape p = [4; 2] -> length (t_data p) = 8%nat) -> (t_shape stride = [4] -> length (t_data stride) = 4%nat) ->
  (t_shape dilation = [4] -> length (t_data dilation) = 4%nat) ->
  ~ (table p /\ four stride /\ four dilation /\ unpadded nchw p /\ ones nchw stride /\ ones nchw dilation) ->
  (forall q, latest history = Some [q] -> ~ same p q) ->
  depthwise_conv2d_v2 rO radd rmul nchw stride dilation pv packed slack st [p] (x, w) = SErr.
Proof.
  intros nchw stride dilation pv packed slack h st p x w F A Np Lp Ls Ld Bad Ne. unfold depthwise_conv2d_v2.
  apply (refused (conv_reinit nchw stride dilation) (depthwise_core rO radd rmul nchw pv packed slack) None 1
           h st [p] (x, w)).
  - lia.
  - exact F.
  - exact A.
  - reflexivity.
  - constructor; [exact Np|constructor].
  - intros i. unfold conv_reinit.
    destruct (shape_is p [4; 2]) eqn:S1; [|reflexivity]. destruct (shape_is stride [4]) eqn:S2; [|reflexivity].
    destruct (shape_is dilation [4]) eqn:S3; [|reflexivity]. cbn [andb negb snd].
    apply shape_is_true in S1, S2, S3.
    destruct (conv_init nchw (t_data p) (t_data stride) (t_data dilation)) as [win|] eqn:E; [|reflexivity].
    exfalso. apply Bad. destruct (init_zeros nchw p stride dilation win (Lp S1) (Ls S2) (Ld S3) E) as (U & O1 & O2).
    refine (conj (conj S1 (Lp S1)) (conj (conj S2 (Ls S2)) (conj (conj S3 (Ld S3)) (conj U (conj O1 O2))))).
  - intros qs L S. inversion S as [|a q la lq Sm Sr E1 E2]. subst. inversion Sr. subst. exact (Ne q L Sm).
Qed.
End Depthwise.

(** Repeating a refused call: a padding of the batch axis is refused, then accepted;
    a table of the wrong shape is refused, then the call answers as with the padding
    that was in force before *)
Theorem C95_depthwise_repeated_refuted :
  let stride := Tn 5 [4] [1; 1; 1; 1] in let one := Tn 5 [4; 2] [0; 0; 0; 0; 1; 0; 0; 0] in
  let batch := Tn 5 [4; 2] [1; 0; 0; 0; 0; 0; 0; 0] in let flat := Tn 5 [8] [0; 0; 0; 0; 0; 0; 0; 0] in
  let x := Tn 10 [1; 1; 1; 2] [3; 5] in let w := Tn 10 [1; 1; 1; 1] [2] in
  let op st p := depthwise_conv2d_v2 0 Z.add Z.mul true stride stride 0 false [] st [p] (x, w) in
  let st h := after (conv_reinit true stride stride) new_conv h in
  ~ unpadded true batch /\ ~ table flat /\
  (forall s, st [] = Some s -> op s batch = SErr) /\
  (forall s, st [[batch]] = Some s -> op s batch = SOk (Tn 10 [1; 1; 1; 2] [Some 6; Some 10])) /\
  (forall s, st [[one]] = Some s -> op s flat = SErr) /\
  (forall s, st [[one]; [flat]] = Some s -> op s flat = SOk (Tn 10 [1; 1; 2; 2] [Some 0; Some 0; Some 6; Some 10])) /\
  st [] <> None /\ st [[batch]] <> None /\ st [[one]] <> None /\ st [[one]; [flat]] <> None.
Proof.
  cbv zeta. split; [intros U; destruct (U 0%nat (or_introl eq_refl)) as [A _]; discriminate A|].
  split; [intros [A _]; discriminate A|].
  split; [intros s E; injection E as <-; vm_compute; reflexivity|].
  split; [intros s E; injection E as <-; vm_compute; reflexivity|].
  split; [intros s E; injection E as <-; vm_compute; reflexivity|].
  split; [intros s E; injection E as <-; vm_compute; reflexivity|].
  repeat split; vm_compute; discriminate.
Qed.

(** A case of the hypotheses: two calls, one of them refused, then another padding *)
Example C95_depthwise_example :
  let stride := Tn 5 [4] [1; 1; 1; 1] in let one := Tn 5 [4; 2] [0; 0; 0; 0; 1; 0; 0; 0] in
  let flat := Tn 5 [8] [0; 0; 0; 0; 0; 0; 0; 0] in let none := Tn 5 [4; 2] [0; 0; 0; 0; 0; 0; 0; 0] in
  exists st, after (conv_reinit true stride stride) new_conv [[one]; [flat]] = Some st /\
  table none /\ four stride /\ unpadded true none /\ ones true stride /\
  depthwise_conv2d_v2 0 Z.add Z.mul true stride stride 0 false [] st [none] (Tn 10 [1; 1; 1; 2] [3; 5], Tn 10 [1; 1; 1; 1] [2])
  = SOk (Tn 10 [1; 1; 1; 2] [Some 6; Some 10]).
Proof.
  cbv zeta. eexists. split; [reflexivity|]. split; [split; reflexivity|]. split; [split; reflexivity|].
  split; [intros a [<-|[<-|[]]]; split; reflexivity|]. split; [intros a [<-|[<-|[]]]; reflexivity|]. vm_compute. reflexivity.
Qed.

Print Assumptions C95_depthwise_partial.
Print Assumptions C95_depthwise_refused_partial.
Print Assumptions C95_depthwise_repeated_refuted.
Print Assumptions C95_depthwise_example.
