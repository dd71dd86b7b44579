(** C166: packing a gemm at compile time. *)
From Coq Require Import List ZArith Bool Lia Ring.
From Verif Require Import ShapeModel ShapeSpec ShapeProofs KernelBase KernelSpec KernelProofs TileModel EltwiseModel EltwiseSpec EltwiseProofs EltwiseMainProofs PropsEltwise
  GemmModel GemmSpec GemmProofs PropsGemm ConvModel GemmOpModel GemmOpSpec ConvSpec GemmOpProofs PropsGemmOp PosterProofs GemmPackModel.
Import ListNotations.
Local Open Scope Z_scope.

Section Props.
Context {R : Type} (rO rI : R) (radd rmul : R -> R -> R).
Hypothesis Rth : semi_ring_theory rO rI radd rmul eq.
Add Ring Rring : Rth.
Variable near : R -> R -> bool.
Hypothesis near_refl : forall x, near x x = true.
Variables near_zero near_one is_zero : R -> bool.
Variable cast : Z -> Z -> R -> R.
Notation "a +! b" := (radd a b) (at level 50, left associativity).
Notation "a *! b" := (rmul a b) (at level 40, left associativity).
Local Notation value := (value rO).

Lemma map_flat {X Y W} (f : Y -> W) (h : X -> list Y) l : map f (flat_map h l) = flat_map (fun x => map f (h x)) l.
Proof. induction l as [|x l IH]; [reflexivity|]. cbn [flat_map]. rewrite map_app, IH. reflexivity. Qed.

Lemma settled_filled (t : tensor R) : settled (filled t) = SOk t.
Proof.
  unfold settled, filled. cbn [t_data t_dtype t_shape]. rewrite map_map. rewrite (each_ok _ (fun x => x)) by (intros; reflexivity).
  cbn [bind]. rewrite map_id. destruct t; reflexivity.
Qed.

Lemma transposed_ok (t : tensor R) m n : wf t -> t_dtype t = 10 -> t_shape t = [m; n] ->
  exists t', transposed t = SOk t' /\ wf t' /\ t_dtype t' = 10 /\ t_shape t' = [n; m] /\
    forall i j, 0 <= i < n -> 0 <= j < m -> value t' [i; j] = value t [j; i].
Proof.
  intros W T S. destruct (wf2 t m n W S) as [Hm Hn]. unfold transposed. rewrite S, T. cbn [Z.eqb Pos.eqb negb].
  set (data := map (fun p => value t [p mod m; p / m]) (upto (m * n))).
  assert (E : flat_map (fun i => map (fun j => load (t_data t) (j * n + i)) (upto m)) (upto n) = map SOk data).
  { unfold data. rewrite (upto_grid n m Hn Hm). rewrite map_map. rewrite map_flat. apply flat_map_eq. intros i Hi. apply In_upto in Hi.
    rewrite map_map. apply map_ext_in. intros j Hj. apply In_upto in Hj. rewrite (load_mat rO t m n j i W S Hj Hi).
    rewrite Z.add_comm, Z.mod_add, Z.div_add, Z.mod_small, Z.div_small by lia. reflexivity. }
  rewrite E, (each_ok _ (fun x => x)) by (intros; reflexivity). cbn [bind]. rewrite map_id.
  assert (Wd : wf (Tn 10 [n; m] data)).
  { split; [repeat constructor; assumption|]. cbn [t_data t_shape elements]. unfold data. rewrite map_length, length_upto. nia. }
  exists (Tn 10 [n; m] data). split; [reflexivity|]. split; [exact Wd|]. split; [reflexivity|]. split; [reflexivity|].
  intros i j Hi Hj. unfold ConvSpec.value at 1, elt. cbn [t_data t_shape]. replace (position [n; m] [i; j]) with (i * m + j) by (cbn [position elements]; ring).
  unfold data. rewrite nth_error_map, nth_error_upto by nia. cbn [option_map].
  rewrite Z.add_comm, Z.mod_add, Z.div_add, Z.mod_small, Z.div_small by lia. reflexivity.
Qed.

(** *** Multiplying by a scalar and adding a broadcast operand *)
Lemma aligned_self s : aligned (length s) s = s.
Proof. unfold aligned. rewrite Nat.sub_diag. reflexivity. Qed.
Lemma broadcast_scalar s : broadcast [] s s.
Proof.
  unfold broadcast. cbn [length Nat.max]. rewrite aligned_self. unfold aligned. cbn [length]. rewrite Nat.sub_0_r, app_nil_r.
  induction s as [|d s IH]; [constructor|]. cbn [length repeat]. constructor; [|exact IH]. unfold axis_broadcast. right. left. split; reflexivity.
Qed.
Lemma shown_self s c : inside s c -> shown s c = c.
Proof.
  intros H. unfold shown. rewrite <- (inside_length _ _ H), Nat.sub_diag. cbn [skipn]. induction H as [|k d c s Hk H IH] using Forall2_ind.
  - reflexivity.
  - cbn [combine map fst snd]. rewrite IH. destruct (Z.eqb_spec k 1); f_equal; lia.
Qed.
Lemma mul_ok a (t : tensor R) : wf t -> t_dtype t = 10 ->
  exists t', mul_ rmul cast (Tn 10 [] [a]) t = SOk t' /\ wf t' /\ t_dtype t' = 10 /\ t_shape t' = t_shape t /\
    forall c, inside (t_shape t) c -> value t' c = a *! value t c.
Proof.
  intros W T. assert (Wa : wf (Tn 10 [] [a])) by (split; [constructor|reflexivity]).
  destruct (C41_broadcasting_commutative_partial rmul (mul_kernel rmul) cast (Tn 10 [] [a]) t 10 (t_shape t)) as (out & E & Wo & Do & Bo & Po); auto.
  { intros x y. ring. } { rewrite T. reflexivity. } { apply broadcast_scalar. }
  assert (So : t_shape out = t_shape t) by exact (C41_shape_unique _ _ _ _ Bo (broadcast_scalar (t_shape t))).
  unfold mul_. rewrite E. cbn [bind]. rewrite settled_filled. exists out. split; [reflexivity|]. split; [exact Wo|]. split; [exact Do|]. split; [exact So|].
  intros c Hc. destruct (Po c) as (_ & _ & x & y & Ex & Ey & Ec); [rewrite So; exact Hc|].
  cbn [t_shape] in Ex. unfold elt in Ex. cbn [t_data t_shape] in Ex. unfold shown in Ex. cbn [combine map position] in Ex. injection Ex as <-.
  rewrite (shown_self _ _ Hc) in Ey. unfold ConvSpec.value. rewrite Ec, Ey. unfold convert. rewrite T. cbn [t_dtype Z.eqb Pos.eqb]. reflexivity.
Qed.
Lemma broadcast_matrix s m n : broadcasts s m n -> broadcast [m; n] s [m; n].
Proof.
  unfold broadcasts, broadcast. destruct s as [|c0 [|c1 [|]]]; [| | |contradiction]; cbn [length Nat.max]; unfold aligned; cbn [length Nat.sub repeat app];
    intros H; repeat apply sb_cons; try apply sb_nil; unfold axis_broadcast; intuition lia.
Qed.
(** the place of a broadcast operand that is shown *)
Lemma shown_value (t : tensor R) m n i j : broadcasts (t_shape t) m n -> 0 <= i < m -> 0 <= j < n -> value t (shown (t_shape t) [i; j]) = broadcast_value rO t i j.
Proof.
  unfold broadcasts, broadcast_value, shown. destruct (t_shape t) as [|c0 [|c1 [|]]]; [| | |contradiction]; intros H Hi Hj; cbn [length Nat.sub skipn combine map fst snd]; reflexivity.
Qed.
Lemma add_ok (y c : tensor R) m n : wf y -> wf c -> t_dtype y = 10 -> t_dtype c = 10 -> t_shape y = [m; n] -> broadcasts (t_shape c) m n ->
  exists t', add_ radd cast y c = SOk t' /\ wf t' /\ t_dtype t' = 10 /\ t_shape t' = [m; n] /\
    forall i j, 0 <= i < m -> 0 <= j < n -> value t' [i; j] = value y [i; j] +! broadcast_value rO c i j.
Proof.
  intros Wy Wc Ty Tc Sy B. pose proof (broadcast_matrix _ _ _ B) as Bm. rewrite <- Sy in Bm at 1.
  destruct (C41_broadcasting_commutative_partial radd (add_kernel radd) cast y c 10 [m; n]) as (out & E & Wo & Do & Bo & Po); auto.
  { intros a b. ring. } { rewrite Ty, Tc. reflexivity. }
  assert (So : t_shape out = [m; n]) by exact (C41_shape_unique _ _ _ _ Bo Bm).
  unfold add_. rewrite E. cbn [bind]. rewrite settled_filled. exists out. split; [reflexivity|]. split; [exact Wo|]. split; [exact Do|]. split; [exact So|].
  intros i j Hi Hj. assert (I : inside [m; n] [i; j]) by (constructor; [exact Hi|constructor; [exact Hj|constructor]]).
  destruct (Po [i; j]) as (_ & _ & x & z & Ex & Ez & Ec); [rewrite So; exact I|].
  rewrite Sy, (shown_self _ _ I) in Ex. rewrite <- (shown_value c m n i j B Hi Hj). unfold ConvSpec.value. rewrite Ec, Ex, Ez.
  unfold convert. rewrite Ty, Tc. reflexivity.
Qed.
Lemma broadcast_value_scaled (c t : tensor R) a m n i j : t_shape t = t_shape c -> (forall k, inside (t_shape c) k -> value t k = a *! value c k) ->
  broadcasts (t_shape c) m n -> 0 <= i < m -> 0 <= j < n -> broadcast_value rO t i j = a *! broadcast_value rO c i j.
Proof.
  intros S H B Hi Hj. unfold broadcast_value, broadcasts in *. rewrite S. destruct (t_shape c) as [|c0 [|c1 [|]]] eqn:E; [| | |contradiction]; apply H.
  - constructor.
  - constructor; [|constructor]. destruct (Z.eqb_spec c0 1); lia.
  - constructor; [|constructor; [|constructor]]; [destruct (Z.eqb_spec c0 1); lia|destruct (Z.eqb_spec c1 1); lia].
Qed.

(** ** The property *)
(** [c] is the value of an input that may be a constant *)
Definition holds (c : option (tensor R)) (t : tensor R) : Prop := c = None \/ c = Some t.

(** The operators that take the place of a float gemm give the gemm's answer, when
    the second operand is constant if it is to be transposed, the two operands are
    two nodes if one of them is to be transposed, and alpha and beta are floats and
    are 1 or 0 exactly when they are near to it *)
Theorem C166_same_answer_partial : rI <> rO -> forall (g : gemm_node R) A B C m k n,
  wf A -> wf B -> wf C -> t_dtype A = 10 -> t_dtype B = 10 -> t_dtype C = 10 ->
  t_shape A = (if transA g then [k; m] else [m; k]) -> t_shape B = (if transB g then [n; k] else [k; n]) -> broadcasts (t_shape C) m n ->
  holds (constA g) A -> holds (constB g) B ->
  (transB g = true -> constB g = Some B) -> (same g = true -> transA g = false /\ transB g = false /\ A = B) ->
  scale_type g = 10 ->
  (near (alpha g) rO = true -> alpha g = rO) -> (near (beta g) rO = true -> beta g = rO) -> (near (beta g) rI = true -> beta g = rI) ->
  (near_one (alpha g) = true -> alpha g = rI) -> (near_zero (beta g) = true <-> beta g = rO) -> (is_zero (beta g) = true <-> beta g = rO) ->
  exists y, run_gemm rO rI radd rmul near near_zero is_zero g A B C = SOk y /\
    (pack_gemm near_zero near_one g = SOk None \/
     exists p, pack_gemm near_zero near_one g = SOk (Some p) /\ run_rewritten rO rI radd rmul near cast g p A B C = SOk y).
Proof using Rth near_refl.
  intros nontrivial g A B C m k n WA WB WC TA TB TC SA SB BC HA HB HtB Hs Hst Na Nb0 Nb1 N1 Nz Iz.
  destruct (C90_gemm_partial rO rI radd rmul Rth near near_refl nontrivial near_zero is_zero (alpha g) (beta g) (transA g) (transB g) A B C m k n) as (y & Ey & Wy & Ty & Sy & Py); auto.
  { congruence. } { left. congruence. }
  exists y. split; [unfold run_gemm; rewrite Ey; cbn [bind]; apply settled_filled|].
  (* the operands of the inner product *)
  assert (K : forall p A' B', match newA p with Some v => v | None => A end = A' -> match newB p with Some v => v | None => B end = B' ->
     with_alpha p = negb (near_one (alpha g)) -> with_beta p = negb (near_zero (beta g)) ->
     wf A' -> wf B' -> t_dtype A' = 10 -> t_dtype B' = 10 -> t_shape A' = [m; k] -> t_shape B' = [k; n] ->
     (forall i h, 0 <= i < m -> 0 <= h < k -> value A' [i; h] = op (transA g) (fun a b => value A [a; b]) i h) ->
     (forall h j, 0 <= h < k -> 0 <= j < n -> value B' [h; j] = op (transB g) (fun a b => value B [a; b]) h j) ->
     run_rewritten rO rI radd rmul near cast g p A B C = SOk y).
  { intros p A' B' EA EB Ea Eb WA' WB' TA' TB' SA' SB' VA VB. unfold run_rewritten. rewrite EA, EB.
    destruct (inner_matrix rO rI radd rmul Rth near near_refl false A' B' m k n WA' WB' TA' TB' SA' SB' ltac:(discriminate)) as (ip & Ei & Wi & Ti & Si & Pi).
    rewrite Ei. cbn [bind]. rewrite settled_filled. cbn [bind]. rewrite Ea, Eb, Hst.
    set (prd i j := product rO radd rmul k (op (transA g) (fun a b => value A [a; b])) (op (transB g) (fun a b => value B [a; b])) i j) in *.
    assert (Vi : forall i j, 0 <= i < m -> 0 <= j < n -> value ip [i; j] = prd i j).
    { intros i j Hi Hj. unfold ConvSpec.value at 1. rewrite (Pi i j Hi Hj). unfold prd, product. apply (PropsGemm.sum_ext rO radd). intros h Hh. rewrite (VA i h Hi Hh), (VB h j Hh Hj). reflexivity. }
    assert (M : exists t, (if negb (near_one (alpha g)) then mul_ rmul cast (Tn 10 [] [alpha g]) ip else SOk ip) = SOk t /\ wf t /\ t_dtype t = 10 /\ t_shape t = [m; n] /\
      forall i j, 0 <= i < m -> 0 <= j < n -> value t [i; j] = alpha g *! prd i j).
    { destruct (near_one (alpha g)) eqn:E1; cbn [negb].
      - exists ip. split; [reflexivity|]. split; [exact Wi|]. split; [exact Ti|]. split; [exact Si|]. intros i j Hi Hj. rewrite (Vi i j Hi Hj), (N1 eq_refl). ring.
      - destruct (mul_ok (alpha g) ip Wi Ti) as (t & Et & Wt & Tt & St & Pt). exists t. split; [exact Et|]. split; [exact Wt|]. split; [exact Tt|]. split; [congruence|].
        intros i j Hi Hj. rewrite Pt; [rewrite (Vi i j Hi Hj); reflexivity|]. rewrite Si. constructor; [exact Hi|constructor; [exact Hj|constructor]]. }
    destruct M as (t & Et & Wt & Tt & St & Pt). rewrite Et. cbn [bind].
    assert (F : exists z, (if negb (near_zero (beta g)) then bind (mul_ rmul cast (Tn 10 [] [beta g]) C) (fun c => add_ radd cast t c) else SOk t) = SOk z /\
      wf z /\ t_dtype z = 10 /\ t_shape z = [m; n] /\
      forall i j, 0 <= i < m -> 0 <= j < n -> value z [i; j] = alpha g *! prd i j +! beta g *! broadcast_value rO C i j).
    { destruct (near_zero (beta g)) eqn:E0; cbn [negb].
      - exists t. split; [reflexivity|]. split; [exact Wt|]. split; [exact Tt|]. split; [exact St|]. intros i j Hi Hj. rewrite (Pt i j Hi Hj). rewrite (proj1 Nz eq_refl). ring.
      - destruct (mul_ok (beta g) C WC TC) as (c & Ec & Wc & Tc & Sc & Pc). rewrite Ec. cbn [bind].
        destruct (add_ok t c m n Wt Wc Tt Tc St ltac:(rewrite Sc; exact BC)) as (z & Ez & Wz & Tz & Sz & Pz). exists z.
        split; [exact Ez|]. split; [exact Wz|]. split; [exact Tz|]. split; [exact Sz|]. intros i j Hi Hj. rewrite (Pz i j Hi Hj), (Pt i j Hi Hj).
        rewrite (broadcast_value_scaled C c (beta g) m n i j Sc Pc BC Hi Hj). reflexivity. }
    destruct F as (z & Ez & Wz & Tz & Sz & Pz). rewrite Ez. f_equal.
    apply tensor_ext; [exact Wz|exact Wy|congruence|congruence|]. intros c Hc. rewrite Sz in Hc.
    inversion Hc as [|? i ? c' Hi Hc1]; subst. inversion Hc1 as [|? j ? c'' Hj Hc2]; subst. inversion Hc2; subst.
    rewrite (Py i j Hi Hj). specialize (Pz i j Hi Hj). unfold ConvSpec.value in Pz at 1.
    destruct (elt_some z [i; j] Wz) as (v & Ev); [rewrite Sz; exact Hc|]. rewrite Ev in *. rewrite Pz. reflexivity. }
  unfold pack_gemm.
  (* the second operand *)
  assert (PB : forall cb, (cb = None /\ transB g = false \/ cb = Some B) ->
    exists b', match cb with Some b => if transB g then bind (transposed b) (fun b' => SOk (Some b')) else SOk (Some b) | None => SOk None end = SOk b' /\
      (transB g = false -> b' = cb) /\
      let B' := match b' with Some v => v | None => B end in wf B' /\ t_dtype B' = 10 /\ t_shape B' = [k; n] /\
      forall h j, 0 <= h < k -> 0 <= j < n -> value B' [h; j] = op (transB g) (fun a b => value B [a; b]) h j).
  { intros cb [[-> Et]| ->].
    - exists None. split; [reflexivity|]. split; [reflexivity|]. cbn zeta. rewrite Et in *. split; [exact WB|]. split; [exact TB|]. split; [exact SB|]. reflexivity.
    - destruct (transB g) eqn:Et.
      + destruct (transposed_ok B n k WB TB SB) as (b' & Eb & Wb & Tb & Sb & Vb). rewrite Eb. cbn [bind]. exists (Some b'). split; [reflexivity|]. split; [discriminate|]. cbn zeta.
        split; [exact Wb|]. split; [exact Tb|]. split; [exact Sb|]. intros h j Hh Hj. rewrite (Vb h j Hh Hj). reflexivity.
      + exists (Some B). split; [reflexivity|]. split; [reflexivity|]. cbn zeta. split; [exact WB|]. split; [exact TB|]. split; [exact SB|]. reflexivity. }
  assert (CB : constB g = None /\ transB g = false \/ constB g = Some B).
  { destruct HB as [E|E]; [left; split; [exact E|]; destruct (transB g); [rewrite HtB in E by reflexivity; discriminate|reflexivity]|right; exact E]. }
  destruct (constA g) as [a|] eqn:Ea.
  - assert (a = A) as -> by (destruct HA as [E|E]; [discriminate|now injection E]). right.
    destruct (transA g) eqn:EtA.
    + assert (Es : same g = false) by (destruct (same g); [destruct (Hs eq_refl); discriminate|reflexivity]). rewrite Es.
      destruct (transposed_ok A k m WA TA SA) as (a' & Ea' & Wa & Ta & Sa & Va). rewrite Ea'. cbn [bind].
      destruct (PB (constB g) CB) as (b' & Eb & _ & Wb & Tb & Sb & Vb). rewrite Eb. cbn [bind]. eexists. split; [reflexivity|].
      eapply K; cbn [newA newB with_alpha with_beta]; try reflexivity; assumption.
    + cbn [bind]. destruct (same g) eqn:Es.
      * destruct (Hs eq_refl) as (_ & EtB & EAB). destruct (PB (Some A)) as (b' & Eb & Ebb & Wb & Tb & Sb & Vb); [right; congruence|]. rewrite Eb. cbn [bind]. eexists. split; [reflexivity|].
        rewrite (Ebb EtB) in *.
        eapply K; cbn [newA newB with_alpha with_beta]; try reflexivity; assumption.
      * destruct (PB (constB g) CB) as (b' & Eb & _ & Wb & Tb & Sb & Vb). rewrite Eb. cbn [bind]. eexists. split; [reflexivity|].
        eapply K; cbn [newA newB with_alpha with_beta]; try reflexivity; assumption.
  - destruct (transA g) eqn:EtA; [left; reflexivity|]. right.
    destruct (PB (constB g) CB) as (b' & Eb & _ & Wb & Tb & Sb & Vb). rewrite Eb. cbn [bind]. eexists. split; [reflexivity|].
    eapply K; cbn [newA newB with_alpha with_beta]; try reflexivity; assumption.
Qed.
End Props.

(** ** Where it does not hold: integers for numbers *)
Section Refuted.
Let no_cast (_ _ : Z) (v : Z) := v.
Let gemm_ := run_gemm 0 1 Z.add Z.mul Z.eqb (Z.eqb 0) (Z.eqb 0).
Let packed := pack_gemm (R := Z) (Z.eqb 0) (Z.eqb 1).
Let after_ := run_rewritten 0 1 Z.add Z.mul Z.eqb no_cast.
Let M := Tn 10 [2; 2] [1; 2; 3; 4].
Let I2 := Tn 10 [2; 2] [1; 0; 0; 1].
Let zero := Tn 10 [] [0].

(** A second operand that is an input and is to be transposed is not *)
Theorem C166_variable_refuted : exists p, packed (GemmNode 1 0 10 false true None None false) = SOk (Some p) /\
  gemm_ (GemmNode 1 0 10 false true None None false) I2 M zero = SOk (Tn 10 [2; 2] [1; 3; 2; 4]) /\
  after_ (GemmNode 1 0 10 false true None None false) p I2 M zero = SOk (Tn 10 [2; 2] [1; 2; 3; 4]).
Proof. eexists. split; [reflexivity|]. split; vm_compute; reflexivity. Qed.

(** A constant that is both operands is transposed for both *)
Theorem C166_one_constant_refuted : exists p, packed (GemmNode 1 0 10 true false (Some M) (Some M) true) = SOk (Some p) /\
  gemm_ (GemmNode 1 0 10 true false (Some M) (Some M) true) M M zero = SOk (Tn 10 [2; 2] [10; 14; 14; 20]) /\
  after_ (GemmNode 1 0 10 true false (Some M) (Some M) true) p M M zero = SOk (Tn 10 [2; 2] [7; 15; 10; 22]).
Proof. eexists. split; [reflexivity|]. split; vm_compute; reflexivity. Qed.

(** A double alpha makes the answer double *)
Theorem C166_type_refuted : exists p, packed (GemmNode 2 0 11 false false None (Some M) false) = SOk (Some p) /\
  gemm_ (GemmNode 2 0 11 false false None (Some M) false) I2 M zero = SOk (Tn 10 [2; 2] [2; 4; 6; 8]) /\
  after_ (GemmNode 2 0 11 false false None (Some M) false) p I2 M zero = SOk (Tn 11 [2; 2] [2; 4; 6; 8]).
Proof. eexists. split; [reflexivity|]. split; vm_compute; reflexivity. Qed.

(** A gemm of doubles that works is an error of the compiler *)
Theorem C166_double_refuted :
  packed (GemmNode 1 0 11 false true None (Some (Tn 11 [2; 2] [1; 2; 3; 4])) false) = SErr /\
  gemm_ (GemmNode 1 0 11 false true None (Some (Tn 11 [2; 2] [1; 2; 3; 4])) false) (Tn 11 [2; 2] [1; 0; 0; 1]) (Tn 11 [2; 2] [1; 2; 3; 4]) (Tn 11 [] [0])
    = SOk (Tn 11 [2; 2] [1; 3; 2; 4]).
Proof. split; vm_compute; reflexivity. Qed.

(** What gemm refuses is computed: the third operand larger than the product *)
Theorem C166_refusal_refuted : exists p, packed (GemmNode 1 1 10 false false None (Some (Tn 10 [1; 1] [5])) false) = SOk (Some p) /\
  gemm_ (GemmNode 1 1 10 false false None (Some (Tn 10 [1; 1] [5])) false) (Tn 10 [1; 1] [2]) (Tn 10 [1; 1] [5]) I2 = SErr /\
  after_ (GemmNode 1 1 10 false false None (Some (Tn 10 [1; 1] [5])) false) p (Tn 10 [1; 1] [2]) (Tn 10 [1; 1] [5]) I2 = SOk (Tn 10 [2; 2] [11; 10; 10; 11]).
Proof. eexists. split; [reflexivity|]. split; vm_compute; reflexivity. Qed.

(** A case of the hypotheses: both operands constant and transposed, alpha and beta used *)
Example C166_example : exists p, packed (GemmNode 2 3 10 true true (Some M) (Some I2) false) = SOk (Some p) /\
  after_ (GemmNode 2 3 10 true true (Some M) (Some I2) false) p M I2 (Tn 10 [2] [1; 10]) = SOk (Tn 10 [2; 2] [5; 36; 7; 38]) /\
  gemm_ (GemmNode 2 3 10 true true (Some M) (Some I2) false) M I2 (Tn 10 [2] [1; 10]) = SOk (Tn 10 [2; 2] [5; 36; 7; 38]) /\
  wf M /\ wf I2 /\ broadcasts [2] 2 2.
Proof.
  eexists. split; [reflexivity|]. split; [vm_compute; reflexivity|]. split; [vm_compute; reflexivity|].
  split; [split; [repeat constructor; lia|reflexivity]|]. split; [split; [repeat constructor; lia|reflexivity]|]. right. reflexivity.
Qed.
End Refuted.

Print Assumptions C166_same_answer_partial.
Print Assumptions C166_variable_refuted.
Print Assumptions C166_one_constant_refuted.
Print Assumptions C166_type_refuted.
Print Assumptions C166_double_refuted.
Print Assumptions C166_refusal_refuted.
Print Assumptions C166_example.
