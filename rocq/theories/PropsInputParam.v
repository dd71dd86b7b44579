(** C95: operators that take their parameters as inputs. *)
From Coq Require Import List ZArith Bool Lia.
From Verif Require Import ShapeModel KernelBase ConvModel PoolingModel InputParamModel.
Import ListNotations.
Local Open Scope Z_scope.

Lemma zlist_eqb_eq a : forall b, zlist_eqb a b = true <-> a = b.
Proof.
  induction a as [|x a IH]; intros [|y b]; cbn; split; try congruence; try discriminate.
  - rewrite andb_true_iff, Z.eqb_eq, IH. intros [-> ->]. reflexivity.
  - intros H. injection H as -> ->. rewrite Z.eqb_refl. cbn. now apply IH.
Qed.

(** what an int32 parameter tensor of the model is *)
Definition full (t : itensor) : Prop := fold_right Z.mul 1 (fst t) = Z.of_nat (length (snd t)).

Lemma int_equal_some t q : is_int_equal t (Some q) = SOk true -> t = q.
Proof.
  cbn. intros H. injection H as H. rewrite andb_true_iff, !zlist_eqb_eq in H. destruct t, q. cbn in *. destruct H. congruence.
Qed.

Section Pool.
Context {T : Type} (ltb : T -> T -> bool) (zero : T) (add : T -> T -> T) (div : T -> Z -> T).
Variables (nchw : bool) (ty : pool_type) (pad : pad_type).

(** whatever parameters the object keeps: if they are supported, then the
    inner operator has them *)
Definition agrees (st : pool_v2) : Prop :=
  match c_padding st, c_ksize st, c_stride st with
  | Some p, Some k, Some s => has_shape p [4; 2] = true -> has_shape k [4] = true -> has_shape s [4] = true ->
      pool_init nchw (snd p) (snd k) (snd s) <> None -> inner st = PM (snd p) (snd k) (snd s)
  | None, None, None => True
  | _, _, _ => False
  end.

Lemma run_agrees st p k s x : agrees st -> agrees (fst (pool_v2_run ltb zero add div nchw ty pad st p k s x)).
Proof.
  intros A. unfold pool_v2_run. destruct st as [cp ck cs m]. unfold agrees in A. cbn [c_padding c_ksize c_stride inner] in *.
  destruct cp as [cp|], ck as [ck|], cs as [cs|]; try contradiction.
  - destruct (is_int_equal p (Some cp)) as [a| |] eqn:Ea; try exact A. destruct (is_int_equal k (Some ck)) as [b| |] eqn:Eb; try exact A.
    destruct (is_int_equal s (Some cs)) as [c| |] eqn:Ec; try exact A.
    assert (Hp : (if a then Some cp else Some p) = Some p) by (destruct a; [now rewrite (int_equal_some _ _ Ea)|reflexivity]).
    assert (Hk : (if b then Some ck else Some k) = Some k) by (destruct b; [now rewrite (int_equal_some _ _ Eb)|reflexivity]).
    assert (Hs : (if c then Some cs else Some s) = Some s) by (destruct c; [now rewrite (int_equal_some _ _ Ec)|reflexivity]).
    rewrite Hp, Hk, Hs. destruct (a && b && c) eqn:E; cbn [negb].
    + rewrite !andb_true_iff in E. destruct E as [[-> ->] ->]. cbn [fst]. unfold agrees. cbn [c_padding c_ksize c_stride inner].
      rewrite (int_equal_some _ _ Ea), (int_equal_some _ _ Eb), (int_equal_some _ _ Ec). exact A.
    + unfold pool_reinit. destruct (has_shape p [4; 2]) eqn:E1; destruct (has_shape k [4]) eqn:E2; destruct (has_shape s [4]) eqn:E3; cbn [andb negb fst];
        unfold agrees; cbn [c_padding c_ksize c_stride inner]; intros; congruence || reflexivity.
  - destruct (is_int_equal p None) as [a| |] eqn:Ea; try exact A. destruct (is_int_equal k None) as [b| |] eqn:Eb; try exact A.
    destruct (is_int_equal s None) as [c| |] eqn:Ec; try exact A.
    assert (a = false) as -> by (unfold is_int_equal in Ea; destruct (fst p); congruence).
    assert (b = false) as -> by (unfold is_int_equal in Eb; destruct (fst k); congruence).
    assert (c = false) as -> by (unfold is_int_equal in Ec; destruct (fst s); congruence).
    cbn [andb negb]. unfold pool_reinit. destruct (has_shape p [4; 2]) eqn:E1; destruct (has_shape k [4]) eqn:E2; destruct (has_shape s [4]) eqn:E3; cbn [andb negb fst];
        unfold agrees; cbn [c_padding c_ksize c_stride inner]; intros; congruence || reflexivity.
Qed.

Lemma history_agrees runs : forall st, agrees st -> agrees (pool_v2_history ltb zero add div nchw ty pad st runs).
Proof.
  induction runs as [|[[[p k] s] x] runs IH]; intros st A; [exact A|]. cbn [pool_v2_history]. apply IH. now apply run_agrees.
Qed.

Lemma inner_is p k s x : length p = 8%nat -> pool_init nchw p k s <> None ->
  pool_inner_run ltb zero add div nchw ty pad (PM p k s) x = pooling2d ltb zero add div nchw ty pad p k s x.
Proof.
  intros L H. unfold pool_inner_run, pooling2d. cbn [m_padding]. destruct p as [|p0 p]; [discriminate|].
  destruct (pool_init nchw (p0 :: p) k s) as [win|] eqn:E; [|congruence]. clear H.
  assert (Ew : members_window nchw (PM (p0 :: p) k s) = win).
  { unfold pool_init in E. unfold members_window. cbn [m_padding m_ksize m_stride].
    destruct (negb _) in E; [discriminate|]. destruct nchw.
    - destruct (negb _) in E; [discriminate|]. destruct (negb _) in E; [discriminate|]. destruct (negb _) in E; [discriminate|]. now injection E as <-.
    - destruct (negb _) in E; [discriminate|]. destruct (negb _) in E; [discriminate|]. destruct (negb _) in E; [discriminate|]. now injection E as <-. }
  rewrite Ew. reflexivity.
Qed.

(** C95: after any sequence of earlier runs, accepted or refused, pooling2d_v2
    with supported parameters gives what pooling2d gives with them. *)
Theorem C95_pooling_partial : forall runs (p k s : itensor) (x : tensor T),
  full p -> fst p = [4; 2] -> fst k = [4] -> fst s = [4] -> pool_init nchw (snd p) (snd k) (snd s) <> None ->
  snd (pool_v2_run ltb zero add div nchw ty pad (pool_v2_history ltb zero add div nchw ty pad pool_v2_new runs) p k s x) =
  pooling2d ltb zero add div nchw ty pad (snd p) (snd k) (snd s) x.
Proof.
  intros runs p k s x Fp Ep Ek Es H.
  assert (Lp : length (snd p) = 8%nat) by (unfold full in Fp; rewrite Ep in Fp; cbn in Fp; lia).
  assert (Hp : has_shape p [4; 2] = true) by (unfold has_shape; now rewrite Ep).
  assert (Hk : has_shape k [4] = true) by (unfold has_shape; now rewrite Ek).
  assert (Hs : has_shape s [4] = true) by (unfold has_shape; now rewrite Es).
  pose proof (history_agrees runs pool_v2_new I) as A. set (st := pool_v2_history _ _ _ _ _ _ _ _ runs) in *. clearbody st.
  assert (R : pool_reinit nchw p k s (inner st) = (PM (snd p) (snd k) (snd s), true)).
  { unfold pool_reinit. rewrite Hp, Hk, Hs. cbn [andb negb]. destruct (pool_init _ _ _ _); [reflexivity|congruence]. }
  unfold pool_v2_run. destruct st as [cp ck cs m]. unfold agrees in A. cbn [c_padding c_ksize c_stride inner] in *.
  destruct cp as [cp|], ck as [ck|], cs as [cs|]; try contradiction.
  - destruct (is_int_equal p (Some cp)) as [a| |] eqn:Ea; [|discriminate|discriminate]. destruct (is_int_equal k (Some ck)) as [b| |] eqn:Eb; [|discriminate|discriminate].
    destruct (is_int_equal s (Some cs)) as [c| |] eqn:Ec; [|discriminate|discriminate].
    destruct (a && b && c) eqn:E; cbn [negb].
    + rewrite !andb_true_iff in E. destruct E as [[-> ->] ->]. rewrite <- (int_equal_some _ _ Ea), <- (int_equal_some _ _ Eb), <- (int_equal_some _ _ Ec) in A.
      rewrite (A Hp Hk Hs H). cbn [snd]. now apply inner_is.
    + rewrite R. cbn [snd]. now apply inner_is.
  - cbn [is_int_equal]. rewrite Ep, Ek, Es. cbn [andb negb]. rewrite R. cbn [snd]. now apply inner_is.
Qed.

(** Unsupported parameters are refused when they differ from those of the
    run before.  Missing: C95_repeated_refuted. *)
Theorem C95_refused_partial : forall st (p k s : itensor) (x : tensor T),
  fst p <> [] -> fst k <> [] -> fst s <> [] ->
  Some p <> c_padding st \/ Some k <> c_ksize st \/ Some s <> c_stride st ->
  fst p <> [4; 2] \/ fst k <> [4] \/ fst s <> [4] \/ pool_init nchw (snd p) (snd k) (snd s) = None ->
  snd (pool_v2_run ltb zero add div nchw ty pad st p k s x) = SErr.
Proof.
  intros st p k s x Np Nk Ns Hd Hu. unfold pool_v2_run.
  assert (V : forall t c, fst t <> [] -> exists b : bool, is_int_equal t c = SOk b /\ (b = true -> c = Some t)).
  { intros t [q|] Nt.
    - destruct (is_int_equal t (Some q)) as [b| |] eqn:E; [|discriminate|discriminate]. exists b. split; [reflexivity|]. intros ->. now rewrite (int_equal_some _ _ E).
    - unfold is_int_equal. destruct (fst t); [congruence|]. exists false. split; [reflexivity|discriminate]. }
  destruct (V p (c_padding st) Np) as (a & -> & Ha). destruct (V k (c_ksize st) Nk) as (b & -> & Hb). destruct (V s (c_stride st) Ns) as (c & -> & Hc).
  assert (E : a && b && c = false).
  { destruct (a && b && c) eqn:E; [|reflexivity]. rewrite !andb_true_iff in E. destruct E as [[-> ->] ->].
    rewrite (Ha eq_refl), (Hb eq_refl), (Hc eq_refl) in Hd. destruct Hd as [Hd|[Hd|Hd]]; exfalso; now apply Hd. }
  rewrite E. cbn [negb]. unfold pool_reinit. destruct (negb (has_shape p [4; 2] && has_shape k [4] && has_shape s [4])) eqn:Es; [reflexivity|].
  rewrite negb_false_iff, !andb_true_iff in Es. destruct Es as [[E1 E2] E3]. unfold has_shape in *. rewrite zlist_eqb_eq in E1, E2, E3. cbn [snd].
  destruct Hu as [Hu|[Hu|[Hu|Hu]]]; try congruence. now rewrite Hu.
Qed.
End Pool.

(** C95 fails for parameters refused once: given again, they are accepted and
    the padding of the batch axis is silently ignored. *)
Theorem C95_repeated_refuted :
  let p := ([4; 2], [1; 1; 0; 0; 0; 0; 0; 0]) in let k := ([4], [1; 1; 2; 2]) in let s := ([4], [1; 1; 2; 2]) in
  let x := Tn 10 [1; 1; 2; 2] [1; 2; 3; 4] in
  let run st := pool_v2_run Z.ltb 0 Z.add Z.div true MaxPool Black st p k s x in
  snd (run pool_v2_new) = SErr /\ snd (run (fst (run pool_v2_new))) = SOk (Tn 10 [1; 1; 1; 1] [Some 4]).
Proof. vm_compute. split; reflexivity. Qed.

Section Conv.
Context {R : Type} (rO rI : R) (radd rmul : R -> R -> R).
Variable near : R -> R -> bool.
Variables (nchw : bool) (stride dilation : itensor) (pv : R) (packed : bool).

Definition conv_agrees (st : conv_v2) : Prop :=
  match cc_padding st with
  | Some p => has_shape p [4; 2] = true -> has_shape stride [4] = true -> has_shape dilation [4] = true ->
      conv_init nchw (snd p) (snd stride) (snd dilation) <> None -> c_inner st = CM (snd p) (snd stride) (snd dilation)
  | None => True
  end.

Lemma conv_run_agrees st p x w : conv_agrees st -> conv_agrees (fst (conv_v2_run rO rI radd rmul near nchw stride dilation pv packed st p x w)).
Proof.
  intros A. unfold conv_v2_run. destruct (is_int_equal p (cc_padding st)) as [[|]| |] eqn:E; try exact A.
  unfold conv_reinit. destruct (has_shape p [4; 2]) eqn:E1; destruct (has_shape stride [4]) eqn:E2; destruct (has_shape dilation [4]) eqn:E3; cbn [andb negb fst];
    unfold conv_agrees; cbn [cc_padding c_inner]; intros; congruence || reflexivity.
Qed.

Lemma conv_inner_is p x w : length p = 8%nat -> conv_init nchw p (snd stride) (snd dilation) <> None ->
  conv_inner_run rO rI radd rmul near nchw pv packed (CM p (snd stride) (snd dilation)) x w =
  conv2d rO rI radd rmul near nchw p (snd stride) (snd dilation) pv packed x w.
Proof.
  intros L H. unfold conv_inner_run, conv2d. cbn [cm_padding]. destruct p as [|p0 p]; [discriminate|].
  destruct (conv_init nchw (p0 :: p) (snd stride) (snd dilation)) as [win|] eqn:E; [|congruence]. clear H.
  assert (Ew : conv_members_window nchw (CM (p0 :: p) (snd stride) (snd dilation)) = win).
  { unfold conv_init in E. unfold conv_members_window. cbn [cm_padding cm_stride cm_dilation].
    destruct (negb _) in E; [discriminate|]. destruct nchw.
    - destruct (negb _) in E; [discriminate|]. destruct (negb _) in E; [discriminate|]. destruct (negb _) in E; [discriminate|]. now injection E as <-.
    - destruct (negb _) in E; [discriminate|]. destruct (negb _) in E; [discriminate|]. destruct (negb _) in E; [discriminate|]. now injection E as <-. }
  rewrite Ew. reflexivity.
Qed.

(** the same for conv2d_v2, whose padding is an input *)
Theorem C95_convolution_partial : forall runs (p : itensor) (x w : tensor R),
  full p -> fst p = [4; 2] -> fst stride = [4] -> fst dilation = [4] -> conv_init nchw (snd p) (snd stride) (snd dilation) <> None ->
  snd (conv_v2_run rO rI radd rmul near nchw stride dilation pv packed
        (conv_v2_history rO rI radd rmul near nchw stride dilation pv packed conv_v2_new runs) p x w) =
  conv2d rO rI radd rmul near nchw (snd p) (snd stride) (snd dilation) pv packed x w.
Proof.
  intros runs p x w Fp Ep Es Ed H.
  assert (Lp : length (snd p) = 8%nat) by (unfold full in Fp; rewrite Ep in Fp; cbn in Fp; lia).
  assert (Hp : has_shape p [4; 2] = true) by (unfold has_shape; now rewrite Ep).
  assert (Hs : has_shape stride [4] = true) by (unfold has_shape; now rewrite Es).
  assert (Hd : has_shape dilation [4] = true) by (unfold has_shape; now rewrite Ed).
  assert (A : forall runs st, conv_agrees st -> conv_agrees (conv_v2_history rO rI radd rmul near nchw stride dilation pv packed st runs)).
  { clear. induction runs as [|[[p x] w] runs IH]; intros st A; [exact A|]. cbn [conv_v2_history]. apply IH. now apply conv_run_agrees. }
  specialize (A runs conv_v2_new I). set (st := conv_v2_history _ _ _ _ _ _ _ _ _ _ _ runs) in *. clearbody st.
  unfold conv_v2_run. unfold conv_agrees in A.
  assert (E : is_int_equal p (cc_padding st) = SOk false \/ cc_padding st = Some p /\ is_int_equal p (cc_padding st) = SOk true).
  { destruct (cc_padding st) as [q|] eqn:Eq.
    - destruct (is_int_equal p (Some q)) as [[|]| |] eqn:E; [right; split; [now rewrite (int_equal_some _ _ E)|reflexivity]|now left|discriminate|discriminate].
    - left. unfold is_int_equal. now rewrite Ep. }
  destruct E as [E|[Eq E]]; rewrite E.
  - unfold conv_reinit. rewrite Hp, Hs, Hd. cbn [andb negb]. destruct (conv_init nchw (snd p) (snd stride) (snd dilation)) eqn:Ei; [|congruence].
    cbn [snd]. apply conv_inner_is; [exact Lp|congruence].
  - rewrite Eq in A. rewrite (A Hp Hs Hd H). cbn [snd]. now apply conv_inner_is.
Qed.
End Conv.

Theorem C95_example :
  let p := ([4; 2], [0; 0; 0; 0; 0; 0; 0; 0]) in let p' := ([4; 2], [1; 1; 0; 0; 0; 0; 0; 0]) in
  let k := ([4], [1; 1; 2; 2]) in let s := ([4], [1; 1; 2; 2]) in
  let x := Tn 10 [1; 1; 2; 2] [1; 2; 3; 4] in
  full p /\ pool_init true (snd p) (snd k) (snd s) <> None /\
  snd (pool_v2_run Z.ltb 0 Z.add Z.div true MaxPool Black
        (pool_v2_history Z.ltb 0 Z.add Z.div true MaxPool Black pool_v2_new [(p', k, s, x); (p', k, s, x)]) p k s x)
  = SOk (Tn 10 [1; 1; 1; 1] [Some 4]).
Proof. split; [reflexivity|]. split; [discriminate|]. vm_compute. reflexivity. Qed.

Print Assumptions C95_pooling_partial.
Print Assumptions C95_refused_partial.
Print Assumptions C95_repeated_refuted.
Print Assumptions C95_convolution_partial.
Print Assumptions C95_example.
