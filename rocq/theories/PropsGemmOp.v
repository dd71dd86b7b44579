(** C90-C92: the operators gemm, inner_prod and matmul. *)
From Coq Require Import List ZArith Bool Lia Ring.
From Verif Require Import ShapeModel ShapeSpec ShapeProofs KernelBase KernelSpec KernelProofs LoopModel LoopProofs EltwiseModel
  GemmModel GemmSpec GemmProofs GemmPlainProofs PropsGemm ConvModel ConvSpec ConvProofs GemmOpModel GemmOpSpec GemmOpProofs.
Import ListNotations.
Local Open Scope Z_scope.

Section Props.
Context {R : Type} (rO rI : R) (radd rmul : R -> R -> R).
Hypothesis Rth : semi_ring_theory rO rI radd rmul eq.
Add Ring Rring : Rth.
Variable near : R -> R -> bool.
Hypothesis near_refl : forall x, near x x = true.
Notation "a +! b" := (radd a b) (at level 50, left associativity).
Notation "a *! b" := (rmul a b) (at level 40, left associativity).

Lemma broadcast_load (C : tensor R) c_shape m n i j : wf C -> broadcasts (t_shape C) m n ->
  c_shape = front_append_ones (t_shape C) (2 - length (t_shape C)) -> 0 <= i < m -> 0 <= j < n ->
  mod_load (t_data C) c_shape [i; j] = SOk (broadcast_value rO C i j).
Proof.
  intros W B -> Hi Hj.
  assert (G : forall c0 c1 x y, (c0 = 1 /\ x = 0 \/ c0 = m /\ x = i) -> (c1 = 1 /\ y = 0 \/ c1 = n /\ y = j) ->
    forall v, nth_error (t_data C) (Z.to_nat (x * c1 + y)) = Some v -> mod_load (t_data C) [c0; c1] [i; j] = SOk v).
  { intros c0 c1 x y H0 H1 v Hv. unfold mod_load. cbn [mod_coordinate].
    assert (E0 : c0 =? 0 = false /\ Z.rem i c0 = x).
    { destruct H0 as [[-> ->]|[-> ->]]; [split; [reflexivity|apply Z.rem_1_r]|]. split; [lia|]. now apply Z.rem_small. }
    assert (E1 : c1 =? 0 = false /\ Z.rem j c1 = y).
    { destruct H1 as [[-> ->]|[-> ->]]; [split; [reflexivity|apply Z.rem_1_r]|]. split; [lia|]. now apply Z.rem_small. }
    destruct E0 as [-> ->], E1 as [-> ->]. cbn [lift1].
    assert (I : inside [c0; c1] [x; y]).
    { constructor; [destruct H0 as [[-> ->]|[-> ->]]; lia|]. constructor; [destruct H1 as [[-> ->]|[-> ->]]; lia|constructor]. }
    rewrite (to_index_ok [c0; c1] [x; y]) by (cbn; lia). cbn [length Nat.sub skipn]. apply load_inv. split; [now apply position_bound|].
    replace (position [c0; c1] [x; y]) with (x * c1 + y) by (cbn [position elements]; ring). exact Hv. }
  unfold broadcast_value, broadcasts in *. unfold front_append_ones. destruct (t_shape C) as [|c0 [|c1 [|]]] eqn:Es; [| | |contradiction].
  - cbn [length Nat.sub repeat app]. destruct (elt_some C [] W) as (v & Ev); [rewrite Es; constructor|].
    apply (G 1 1 0 0); auto. unfold value. rewrite Ev. unfold elt in Ev. rewrite Es in Ev. exact Ev.
  - cbn [length Nat.sub repeat app]. set (y := if c0 =? 1 then 0 else j).
    assert (Hy : c0 = 1 /\ y = 0 \/ c0 = n /\ y = j) by (unfold y; destruct (Z.eqb_spec c0 1); [left; auto|right; split; [destruct B; congruence|reflexivity]]).
    destruct (elt_some C [y] W) as (v & Ev); [rewrite Es; constructor; [destruct Hy as [[-> ->]|[-> ->]]; lia|constructor]|].
    apply (G 1 c0 0 y); auto. unfold value. rewrite Ev. unfold elt in Ev. rewrite Es in Ev.
    replace (position [c0] [y]) with (0 * c0 + y) in Ev by (cbn [position elements]; ring). exact Ev.
  - cbn [length Nat.sub repeat app]. set (x := if c0 =? 1 then 0 else i). set (y := if c1 =? 1 then 0 else j). destruct B as [B0 B1].
    assert (Hx : c0 = 1 /\ x = 0 \/ c0 = m /\ x = i) by (unfold x; destruct (Z.eqb_spec c0 1); [left; auto|right; split; [destruct B0; congruence|reflexivity]]).
    assert (Hy : c1 = 1 /\ y = 0 \/ c1 = n /\ y = j) by (unfold y; destruct (Z.eqb_spec c1 1); [left; auto|right; split; [destruct B1; congruence|reflexivity]]).
    destruct (elt_some C [x; y] W) as (v & Ev).
    { rewrite Es; constructor; [destruct Hx as [[-> ->]|[-> ->]]; lia|]. constructor; [destruct Hy as [[-> ->]|[-> ->]]; lia|constructor]. }
    apply (G c0 c1 x y); auto. unfold value. rewrite Ev. unfold elt in Ev. rewrite Es in Ev.
    replace (position [c0; c1] [x; y]) with (x * c1 + y) in Ev by (cbn [position elements]; ring). exact Ev.
Qed.

(** C90: gemm gives alpha op(A) op(B) + beta C, C broadcast to the shape of
    the product; float and double; factors the code does not confuse with 0
    or 1. *)
Theorem C90_gemm_partial : rI <> rO -> forall (near_zero is_zero : R -> bool) (alpha beta : R) (transA transB : bool) (A B C : tensor R) m k n,
  (near alpha rO = true -> alpha = rO) -> (near beta rO = true -> beta = rO) -> (near beta rI = true -> beta = rI) ->
  (near_zero beta = true <-> beta = rO) -> (is_zero beta = true <-> beta = rO) ->
  wf A -> wf B -> wf C -> t_dtype A = 10 \/ t_dtype A = 11 -> t_dtype B = t_dtype A -> t_dtype C = t_dtype A \/ beta = rO ->
  t_shape A = (if transA then [k; m] else [m; k]) -> t_shape B = (if transB then [n; k] else [k; n]) ->
  broadcasts (t_shape C) m n ->
  exists out, gemm_op rO rI radd rmul near near_zero is_zero alpha beta transA transB A B C = SOk (filled out) /\ wf out /\
    t_dtype out = t_dtype A /\ t_shape out = [m; n] /\
    forall i j, 0 <= i < m -> 0 <= j < n ->
      elt out [i; j] = Some (alpha *! product rO radd rmul k (op transA (fun a b => value rO A [a; b])) (op transB (fun a b => value rO B [a; b])) i j
                              +! beta *! broadcast_value rO C i j).
Proof using Rth near_refl.
  intros nontrivial near_zero is_zero alpha beta transA transB A B C m k n Na Nb0 Nb1 Nz Iz WA WB WC TA TB TC SA SB HC.
  assert (HA2 : 0 <= m /\ 0 <= k) by (destruct transA; destruct (wf2 A _ _ WA SA); auto).
  assert (HB2 : 0 <= n) by (destruct transB; destruct (wf2 B _ _ WB SB); auto). destruct HA2 as [Hm Hk].
  set (c_shape := front_append_ones (t_shape C) (2 - length (t_shape C))).
  set (c0 := nth 0 c_shape 0). set (c1 := nth 1 c_shape 0).
  assert (Hc : (length (t_shape C) <= 2)%nat /\ (c0 = 1 \/ c0 = m) /\ (c1 = 1 \/ c1 = n)).
  { unfold c0, c1, c_shape, broadcasts, front_append_ones in *. destruct (t_shape C) as [|x [|y [|]]]; cbn in *; [lia|lia|lia|contradiction]. }
  destruct Hc as (Lc & Hc0 & Hc1).
  (* C broadcast to the output *)
  assert (Hout : exists out0 : list (option R),
    (if negb (near_zero beta) then exec (fresh (m * n)) (gemm_broadcast (t_data C) c_shape m n) else SOk (fresh (m * n))) = SOk out0 /\
    Z.of_nat (length out0) = m * n /\
    (beta = rO \/ forall i j, 0 <= i < m -> 0 <= j < n -> nth_error out0 (Z.to_nat (i * n + j)) = Some (Some (broadcast_value rO C i j)))).
  { destruct (near_zero beta) eqn:Ez; cbn [negb].
    - exists (fresh (m * n)). split; [reflexivity|]. split; [unfold fresh; rewrite repeat_length; nia|]. left. now apply Nz.
    - destruct (exec_grid [m; n] (fun c => match c with [i; j] => broadcast_value rO C i j | _ => rO end) (gemm_broadcast (t_data C) c_shape m n) (fresh (m * n))) as (out & E & L & P).
      + repeat constructor; assumption.
      + unfold fresh. rewrite repeat_length. cbn [elements]. nia.
      + intros d v Hin. apply in_map_iff in Hin. destruct Hin as ((p & c) & Ed & Hin). apply In_counted_loops in Hin. destruct Hin as [Hin ->].
        cbn [fst snd] in Ed. injection Ed as <- <-. exists c. split; [exact Hin|]. split; [reflexivity|].
        inversion Hin as [|? i ? c' Hi Hin1]; subst. inversion Hin1 as [|? j ? c'' Hj Hin2]; subst. inversion Hin2; subst.
        now apply (broadcast_load C c_shape m n).
      + intros c Hin. apply in_map_iff. eexists. split; [|apply in_map_iff; exists (position [m; n] c, c); split; [reflexivity|now apply In_counted_loops]]. reflexivity.
      + exists (map Some out). split; [exact E|]. split; [rewrite map_length, L; cbn [elements]; ring|]. right. intros i j Hi Hj.
        specialize (P [i; j]). replace (position [m; n] [i; j]) with (i * n + j) in P by (cbn [position elements]; ring).
        rewrite nth_error_map, P; [reflexivity|]. repeat (constructor; [lia|]); constructor. }
  destruct Hout as (out0 & Eout & Lout & Pout).
  assert (Eb : (if near_zero beta then rO else beta) = beta) by (destruct (near_zero beta) eqn:Ez; [symmetry; now apply Nz|reflexivity]).
  set (lda := if transA then m else k). set (ldb := if transB then k else n).
  destruct (C87_gemm rO rI radd rmul Rth near nontrivial near_refl (t_dtype A =? 10) false transA transB m n k alpha beta (t_data A) (t_data B) out0 lda ldb n
     (fun a b => value rO A [a; b]) (fun a b => value rO B [a; b]) (fun i j => match nth_error out0 (Z.to_nat (i * n + j)) with Some v => v | None => None end))
    as (out & E & L & P & _); auto.
  { unfold ld_ok, lda. lia. } { unfold ld_ok, ldb. lia. } { unfold ld_ok. lia. }
  { intros a b Ha Hb. unfold place, lda. destruct transA.
    - pose proof (load_mat rO A k m a b WA SA Ha Hb) as Lm. apply load_inv in Lm. apply Lm.
    - pose proof (load_mat rO A m k a b WA SA Ha Hb) as Lm. apply load_inv in Lm. apply Lm. }
  { intros a b Ha Hb. unfold place, ldb. destruct transB.
    - pose proof (load_mat rO B n k a b WB SB Ha Hb) as Lm. apply load_inv in Lm. apply Lm.
    - pose proof (load_mat rO B k n a b WB SB Ha Hb) as Lm. apply load_inv in Lm. apply Lm. }
  { intros i j Hi Hj. unfold place. assert (Z.to_nat (i * n + j) < length out0)%nat by nia. destruct (nth_error out0 (Z.to_nat (i * n + j))) eqn:En; [reflexivity|].
    apply nth_error_None in En. lia. }
  { destruct Pout as [Z0|Pout]; [now left|right]. intros i j Hi Hj. rewrite Pout by assumption. discriminate. }
  assert (Hall : forall i j, 0 <= i < m -> 0 <= j < n -> nth_error out (Z.to_nat (i * n + j)) = Some (Some
     (alpha *! product rO radd rmul k (op transA (fun a b => value rO A [a; b])) (op transB (fun a b => value rO B [a; b])) i j +! beta *! broadcast_value rO C i j))).
  { intros i j Hi Hj. specialize (P i j Hi Hj). cbn zeta in P. unfold place in P. rewrite P. do 3 f_equal.
    destruct Pout as [->|Pout]; [ring|]. now rewrite (Pout i j Hi Hj). }
  set (data := map (fun p => alpha *! product rO radd rmul k (op transA (fun a b => value rO A [a; b])) (op transB (fun a b => value rO B [a; b])) (p / n) (p mod n)
                  +! beta *! broadcast_value rO C (p / n) (p mod n)) (upto (m * n))).
  assert (Ed : out = map Some data).
  { apply nth_error_ext. intros p. destruct (Z_lt_dec (Z.of_nat p) (m * n)) as [Hlt|Hge].
    - assert (0 < n) by nia. pose proof (Z.div_mod (Z.of_nat p) n ltac:(lia)) as D. pose proof (Z.mod_pos_bound (Z.of_nat p) n ltac:(lia)).
      assert (0 <= Z.of_nat p / n < m) by (split; [apply Z.div_pos; lia|apply Z.div_lt_upper_bound; nia]).
      unfold data. rewrite !nth_error_map. rewrite <- (Nat2Z.id p) at 2. rewrite nth_error_upto by lia. cbn [option_map].
      rewrite <- Hall by lia. f_equal. lia.
    - rewrite (proj2 (nth_error_None out p)) by lia. symmetry. apply nth_error_None. unfold data. rewrite !map_length, length_upto. lia. }
  exists (Tn (t_dtype A) [m; n] data). split; [|split; [split; [repeat constructor; assumption|]|split; [reflexivity|split; [reflexivity|]]]].
  - unfold gemm_op.
    assert (EA : t_shape A = [if transA then k else m; if transA then m else k]) by (rewrite SA; destruct transA; reflexivity).
    assert (EB : t_shape B = [if transB then n else k; if transB then k else n]) by (rewrite SB; destruct transB; reflexivity).
    rewrite EA, EB. destruct (Nat.ltb_spec 2 (length (t_shape C))); [lia|]. rewrite TB, Z.eqb_refl. cbn [negb].
    assert (Ec : is_zero beta || (t_dtype C =? t_dtype A) = true).
    { destruct TC as [->|Ez]; [rewrite Z.eqb_refl; apply orb_true_r|]. apply Iz in Ez. now rewrite Ez. }
    rewrite Ec. cbn [negb].
    assert (E1 : (if transA then (if transA then m else k, if transA then k else m) else (if transA then k else m, if transA then m else k)) = (m, k)) by (destruct transA; reflexivity).
    assert (E2 : (if transB then (if transB then k else n, if transB then n else k) else (if transB then n else k, if transB then k else n)) = (k, n)) by (destruct transB; reflexivity).
    rewrite E1, E2, Z.eqb_refl. cbn [negb]. fold c_shape. fold c0 c1.
    assert (E3 : (negb (c0 =? 1) && negb (c0 =? m)) || (negb (c1 =? 1) && negb (c1 =? n)) = false).
    { destruct (Z.eqb_spec c0 1), (Z.eqb_spec c0 m), (Z.eqb_spec c1 1), (Z.eqb_spec c1 n); try reflexivity; exfalso; lia. }
    rewrite E3. assert (E4 : (t_dtype A =? 10) || (t_dtype A =? 11) = true) by (destruct TA as [->| ->]; reflexivity). rewrite E4. cbn [negb].
    rewrite Eout. cbn [bind]. rewrite Eb. fold lda ldb. rewrite E. cbn [bind]. rewrite Ed. reflexivity.
  - cbn [t_data t_shape elements]. unfold data. rewrite map_length, length_upto. nia.
  - intros i j Hi Hj. unfold elt. cbn [t_data t_shape]. replace (position [m; n] [i; j]) with (i * n + j) by (cbn [position elements]; ring).
    specialize (Hall i j Hi Hj). rewrite Ed, nth_error_map in Hall. destruct (nth_error data (Z.to_nat (i * n + j))); cbn in Hall; congruence.
Qed.

(** C90: operands that do not match are refused. *)
Theorem C90_refused : forall (near_zero is_zero : R -> bool) (alpha beta : R) (transA transB : bool) (A B C : tensor R),
  length (t_shape A) <> 2%nat \/ length (t_shape B) <> 2%nat \/ t_dtype B <> t_dtype A \/
  (exists a0 a1 b0 b1, t_shape A = [a0; a1] /\ t_shape B = [b0; b1] /\
     let m := if transA then a1 else a0 in let ka := if transA then a0 else a1 in
     let kb := if transB then b1 else b0 in let n := if transB then b0 else b1 in
     ka <> kb \/ ~ broadcasts (t_shape C) m n) ->
  gemm_op rO rI radd rmul near near_zero is_zero alpha beta transA transB A B C = SErr.
Proof.
  intros near_zero is_zero alpha beta transA transB A B C H. unfold gemm_op.
  destruct (t_shape A) as [|a0 [|a1 [|]]]; try reflexivity. destruct (t_shape B) as [|b0 [|b1 [|]]]; try reflexivity.
  destruct (Nat.ltb_spec 2 (length (t_shape C))); [reflexivity|]. destruct (Z.eqb_spec (t_dtype A) (t_dtype B)); cbn [negb]; [|reflexivity].
  destruct (negb (is_zero beta || (t_dtype C =? t_dtype A))); [reflexivity|].
  destruct H as [H|[H|[H|(x0 & x1 & y0 & y1 & EA & EB & H)]]]; [cbn in H; lia|cbn in H; lia|congruence|].
  injection EA as -> ->. injection EB as -> ->.
  assert (E1 : (if transA then (x1, x0) else (x0, x1)) = (if transA then x1 else x0, if transA then x0 else x1)) by (destruct transA; reflexivity).
  assert (E2 : (if transB then (y1, y0) else (y0, y1)) = (if transB then y1 else y0, if transB then y0 else y1)) by (destruct transB; reflexivity).
  rewrite E1, E2. cbn zeta in H. set (m := if transA then x1 else x0) in *. set (ka := if transA then x0 else x1) in *.
  set (kb := if transB then y1 else y0) in *. set (n := if transB then y0 else y1) in *.
  destruct (Z.eqb_spec ka kb) as [Ek|Ek]; cbn [negb]; [|reflexivity]. destruct H as [H|H]; [contradiction|].
  destruct (_ || _) eqn:E3; [reflexivity|]. exfalso. apply H. apply orb_false_iff in E3. destruct E3 as [E3 E4].
  assert (G : forall c d, negb (c =? 1) && negb (c =? d) = false -> c = 1 \/ c = d).
  { intros c d. destruct (Z.eqb_spec c 1), (Z.eqb_spec c d); auto; discriminate. }
  apply G in E3, E4. unfold broadcasts, front_append_ones in *. destruct (t_shape C) as [|s0 [|s1 [|]]]; cbn in *; auto. lia.
Qed.

(** ** inner_prod *)

(** C91: inner_prod flattens the left operand after its first axis and
    multiplies with the right one, or with its transpose; float. *)
Theorem C91_inner_prod_partial : forall (transpose : bool) (l r : tensor R) d0 rest n, wf l -> wf r -> t_dtype l = 10 -> t_dtype r = 10 ->
  t_shape l = d0 :: rest -> positive_shape (t_shape l) -> positive_shape (t_shape r) ->
  t_shape r = (if transpose then [n; elements rest] else [elements rest; n]) ->
  exists out, inner_prod rO rI radd rmul near transpose false l r = SOk (filled out) /\ wf out /\ t_dtype out = 10 /\ t_shape out = [d0; n] /\
    forall i j, 0 <= i < d0 -> 0 <= j < n ->
      elt out [i; j] = Some (sum_of rO radd (elements rest) (fun h =>
        value rO (Tn 10 [d0; elements rest] (t_data l)) [i; h] *! value rO r (if transpose then [j; h] else [h; j]))).
Proof using Rth near_refl.
  intros transpose l r d0 rest n Wl Wr Tl Tr Sl Pl Pr Sr. rewrite (inner_view rO rI radd rmul near transpose false l r d0 rest Sl Pl). rewrite Tl.
  apply (inner_matrix rO rI radd rmul Rth near near_refl transpose (Tn 10 [d0; elements rest] (t_data l)) r d0 (elements rest) n); auto.
  - destruct Wl as [F L]. rewrite Sl in F, L. inversion F as [|? ? F0 F1]; subst. split; [repeat constructor; auto; now apply elements_nonneg|].
    cbn [t_data t_shape elements] in *. rewrite L. ring.
  - intros ->. rewrite Sr in Pr. inversion Pr as [|? ? P0 P1]; subst. inversion P1; subst. lia.
Qed.

(** C91: a right operand packed in advance gives the same result. *)
Theorem C91_kernel_packed : forall (l r : tensor R) packed m k n, wf l -> wf r -> t_dtype l = 10 -> t_dtype r = 10 ->
  t_shape l = [m; k] -> t_shape r = [k; n] ->
  exec (fresh (n * k)) (pack8_B k n (load (t_data r)) n) = SOk (map Some packed) ->
  inner_prod rO rI radd rmul near false true l (Tn 10 [k; n] packed) = inner_prod rO rI radd rmul near false false l r.
Proof using Rth near_refl. exact (inner_packed rO rI radd rmul Rth near near_refl). Qed.

(** C91 is not so for double: the output is not written. *)
Theorem C91_double_refuted : inner_prod rO rI radd rmul near false false (Tn 11 [1; 1] [rI]) (Tn 11 [1; 1] [rI]) = SOk (Tn 11 [1; 1] [None]).
Proof using near_refl. unfold inner_prod, packed_gemm. cbn. rewrite !near_refl. reflexivity. Qed.

(** ** matmul *)

(** C92: matmul multiplies the last axis of the left operand, of any rank,
    with a matrix; float. *)
Theorem C92_matmul_partial : forall (a b : tensor R) lead k n, wf a -> wf b -> t_dtype a = 10 -> t_dtype b = 10 ->
  t_shape a = lead ++ [k] -> t_shape b = [k; n] -> positive_shape (t_shape a) -> 1 <= n ->
  exists out, matmul rO rI radd rmul near a b = SOk (filled out) /\ wf out /\ t_dtype out = 10 /\ t_shape out = lead ++ [n] /\
    forall c j, inside lead c -> 0 <= j < n ->
      elt out (c ++ [j]) = Some (sum_of rO radd k (fun h => value rO a (c ++ [h]) *! value rO b [h; j])).
Proof using Rth near_refl.
  intros a b lead k n Wa Wb Ta Tb Sa Sb Pa Pn.
  assert (Pk : 1 <= k /\ positive_shape lead).
  { rewrite Sa in Pa. apply Forall_app in Pa. destruct Pa as [P1 P2]. inversion P2; subst. split; [lia|exact P1]. }
  destruct Pk as [Pk Plead]. pose proof (elements_pos lead Plead) as Pe.
  assert (Wa2 : wf (Tn 10 [elements lead; k] (t_data a))).
  { destruct Wa as [_ L]. rewrite Sa, elements_app in L. split; [repeat constructor; lia|]. cbn [t_data t_shape elements] in *. lia. }
  destruct (inner_matrix rO rI radd rmul Rth near near_refl false (Tn 10 [elements lead; k] (t_data a)) b (elements lead) k n Wa2 Wb eq_refl Tb eq_refl Sb ltac:(discriminate))
    as (out & E & Wo & To & So & Po).
  assert (Ev : forall c h, inside lead c -> 0 <= h < k -> value rO (Tn 10 [elements lead; k] (t_data a)) [position lead c; h] = value rO a (c ++ [h])).
  { intros c h Hc Hh. unfold value, elt. cbn [t_shape t_data]. rewrite Sa, position_app by (apply inside_length in Hc; lia). cbn [position elements].
    replace (position lead c * (k * 1) + (h * 1 + 0)) with (position lead c * (k * 1) + (h * 1 + 0)) by reflexivity. reflexivity. }
  destruct out as [dt s data]. cbn [t_dtype t_shape] in To, So. subst dt s.
  exists (Tn 10 (lead ++ [n]) data). split; [|split; [|split; [reflexivity|split; [reflexivity|]]]].
  - unfold matmul, matmul_infer. rewrite Sa, Sb. cbn [length Nat.eqb Nat.ltb Nat.leb]. rewrite andb_false_r.
    assert (En : exists x y, lead ++ [k] = x :: y) by (destruct lead; cbn; eauto). destruct En as (x & y & En). rewrite En at 1. cbn [bind].
    rewrite Sa, app_length. cbn [length]. destruct (Nat.eqb_spec (length lead + 1) 2) as [E2|E2].
    + destruct lead as [|d0 [|]]; try (cbn in E2; lia). cbn [elements] in E. rewrite Z.mul_1_r in E.
      assert (Ea : a = Tn 10 [d0; k] (t_data a)) by (destruct a; cbn in *; now subst). rewrite ?Sb. cbn [length Nat.add Nat.eqb]. rewrite Ea, E. reflexivity.
    + replace (Z.to_nat (Z.of_nat (length lead + 1) - 1)) with (length lead) by lia. rewrite Sb. cbv beta iota.
      assert (E3 : prod (firstn (length lead) (lead ++ [k])) = elements lead).
      { rewrite firstn_app, Nat.sub_diag, firstn_all. cbn [firstn]. rewrite app_nil_r. apply prod_elements. }
      rewrite E3. rewrite app_nth2, Nat.sub_diag by lia. cbn [nth].
      assert (E4 : reshape (lead ++ [k]) [elements lead; k] = SOk [elements lead; k]).
      { rewrite Sa in Pa. apply reshape_ok_iff; [exact Pa|]. split; [unfold one_wildcard; cbn; destruct (Z.ltb_spec (elements lead) 0); [lia|]; destruct (Z.ltb_spec k 0); [lia|]; cbn; lia|].
        split; [|rewrite elements_app; cbn [elements]; ring].
        constructor; [destruct (Z.ltb_spec (elements lead) 0); [lia|reflexivity]|]. constructor; [destruct (Z.ltb_spec k 0); [lia|reflexivity]|constructor]. }
      rewrite E4. cbn [bind]. rewrite Ta, E. cbn [bind filled t_shape t_dtype t_data].
      assert (E5 : set_nth (length lead) n (lead ++ [k]) = lead ++ [n]).
      { clear. induction lead as [|x l IH]; [reflexivity|]. cbn. now rewrite IH. }
      rewrite E5.
      assert (E6 : reshape [elements lead; n] (lead ++ [n]) = SOk (lead ++ [n])).
      { assert (Pf : forall s, positive_shape s -> fits s s).
        { intros s H. induction H as [|d s Hd H IH]; [constructor|]. constructor; [destruct (Z.ltb_spec d 0); [lia|reflexivity]|exact IH]. }
        assert (Pl : positive_shape (lead ++ [n])) by (apply Forall_app; split; [exact Plead|repeat constructor; lia]).
        apply reshape_ok_iff; [repeat constructor; lia|]. split; [|split; [now apply Pf|rewrite elements_app; cbn [elements]; ring]].
        unfold one_wildcard. clear - Pl. induction Pl as [|d s Hd H IH]; cbn; [lia|]. destruct (Z.ltb_spec d 0); [lia|exact IH]. }
      rewrite E6. cbn [length]. rewrite (proj2 (Nat.eqb_neq _ _) E2). reflexivity.
  - destruct Wo as [_ L]. cbn [t_data t_shape elements] in L. split; [apply Forall_app; split; [eapply Forall_impl; [|exact Plead]; cbn; lia|repeat constructor; lia]|].
    cbn [t_data t_shape]. rewrite elements_app. cbn [elements]. lia.
  - intros c j Hc Hj. pose proof (position_bound lead c Hc) as Hb. specialize (Po (position lead c) j Hb Hj).
    unfold elt in *. cbn [t_data t_shape] in *. rewrite position_app by (apply inside_length in Hc; lia). cbn [position elements] in Po |- *.
    rewrite Po. f_equal. apply sum_ext. intros h Hh. now rewrite (Ev c h Hc Hh).
Qed.

(** C92: two operands of rank four must both have a single matrix: batches
    are refused, one matrix is multiplied. *)
Theorem C92_batch : forall (a b : tensor R) p q m k r s k' n, t_shape a = [p; q; m; k] -> t_shape b = [r; s; k'; n] ->
  positive_shape (t_shape a) -> positive_shape (t_shape b) -> (p * q <> 1 \/ r * s <> 1) ->
  matmul rO rI radd rmul near a b = SErr.
Proof.
  intros a b p q m k r s k' n Sa Sb Pa Pb H. unfold matmul, matmul_infer. rewrite Sa, Sb. cbn [length Nat.eqb Nat.ltb Nat.leb nth].
  destruct (_ =? 0); [reflexivity|]. unfold reshape.
  assert (forall x y, 0 < x -> 0 < y -> scan_wildcard [x; y] false = Some ([x; y], false)) as Hs.
  { intros x y Hx Hy. cbn [scan_wildcard]. destruct (Z.ltb_spec x 0); [lia|]. destruct (Z.ltb_spec y 0); [lia|]. reflexivity. }
  rewrite Sa in Pa. rewrite Sb in Pb.
  inversion Pa as [|? ? A1 A2]; subst. inversion A2 as [|? ? A3 A4]; subst. inversion A4 as [|? ? A5 A6]; subst. inversion A6 as [|? ? A7 A8]; subst.
  inversion Pb as [|? ? B1 B2]; subst. inversion B2 as [|? ? B3 B4]; subst. inversion B4 as [|? ? B5 B6]; subst. inversion B6 as [|? ? B7 B8]; subst.
  rewrite !Hs by assumption. rewrite !prod_elements. cbn [elements].
  destruct (Z.eqb_spec (m * (k * 1)) (p * (q * (m * (k * 1))))) as [E1|E1]; [|reflexivity].
  cbn [bind]. destruct (Z.eqb_spec (k' * (n * 1)) (r * (s * (k' * (n * 1))))) as [E2|E2]; [|reflexivity]. exfalso.
  assert (p * q = 1) by (assert (0 < m * k) by nia; nia). assert (r * s = 1) by (assert (0 < k' * n) by nia; nia). lia.
Qed.

Theorem C92_single : forall (a b : tensor R) m k n, t_shape a = [1; 1; m; k] -> t_shape b = [1; 1; k; n] ->
  positive_shape (t_shape a) -> positive_shape (t_shape b) ->
  matmul rO rI radd rmul near a b =
  match matmul rO rI radd rmul near (Tn (t_dtype a) [m; k] (t_data a)) (Tn (t_dtype b) [k; n] (t_data b)) with
  | SOk out => SOk (Tn (t_dtype out) (1 :: 1 :: t_shape out) (t_data out))
  | SErr => SErr
  | SUndef => SUndef
  end.
Proof.
  intros a b m k n Sa Sb Pa Pb. unfold matmul, matmul_infer. rewrite Sa, Sb. cbn [t_shape t_dtype t_data length Nat.eqb Nat.ltb Nat.leb nth].
  change (1 * 1 * 1 * 1 =? 0) with false. cbv iota.
  rewrite Sa in Pa. rewrite Sb in Pb.
  inversion Pa as [|? ? A1 A2]; subst. inversion A2 as [|? ? A3 A4]; subst. inversion A4 as [|? ? A5 A6]; subst. inversion A6 as [|? ? A7 A8]; subst.
  inversion Pb as [|? ? B1 B2]; subst. inversion B2 as [|? ? B3 B4]; subst. inversion B4 as [|? ? B5 B6]; subst. inversion B6 as [|? ? B7 B8]; subst.
  assert (Hr : forall x y, 0 < x -> 0 < y -> reshape [1; 1; x; y] [x; y] = SOk [x; y]).
  { intros x y Hx Hy. unfold reshape. cbn [scan_wildcard]. destruct (Z.ltb_spec x 0); [lia|]. destruct (Z.ltb_spec y 0); [lia|].
    rewrite !prod_elements. cbn [elements]. replace (1 * (1 * (x * (y * 1)))) with (x * (y * 1)) by ring. now rewrite Z.eqb_refl. }
  rewrite !Hr by assumption. cbn [bind andb].
  destruct (inner_prod rO rI radd rmul near false false (Tn (t_dtype a) [m; k] (t_data a)) (Tn (t_dtype b) [k; n] (t_data b))) as [o| |] eqn:E; try reflexivity.
  cbn [bind]. unfold inner_prod in E. destruct (inner_prod_infer _ _ _) as [[[x y] z]| |]; try discriminate. cbn [bind] in E.
  destruct (negb _); [discriminate|]. cbn [andb bind] in E. destruct (packed_gemm _ _ _ _ _ _ _ _ _ _ _ _ _ _ _) ; try discriminate. cbn [bind] in E.
  destruct (exec _ _); try discriminate. cbn [bind] in E. injection E as <-. reflexivity.
Qed.
End Props.

Theorem C90_example :
  gemm_op 0 1 Z.add Z.mul Z.eqb (Z.eqb 0) (Z.eqb 0) 2 3 true false
    (Tn 11 [2; 2] [1; 2; 3; 4]) (Tn 11 [2; 3] [1; 0; 1; 0; 1; 1]) (Tn 11 [3] [10; 20; 30])
  = SOk (Tn 11 [2; 3] (map Some [32; 66; 98; 34; 68; 102])).
Proof. vm_compute. reflexivity. Qed.
Theorem C91_example :
  inner_prod 0 1 Z.add Z.mul Z.eqb true false (Tn 10 [1; 2; 2] [1; 2; 3; 4]) (Tn 10 [2; 4] [1; 1; 1; 1; 0; 0; 0; 2])
  = SOk (Tn 10 [1; 2] (map Some [10; 8])).
Proof. vm_compute. reflexivity. Qed.
Theorem C92_example :
  matmul 0 1 Z.add Z.mul Z.eqb (Tn 10 [2; 1; 2] [1; 2; 3; 4]) (Tn 10 [2; 2] [1; 1; 0; 2])
  = SOk (Tn 10 [2; 1; 2] (map Some [1; 5; 3; 11])).
Proof. vm_compute. reflexivity. Qed.

Print Assumptions C90_gemm_partial.
Print Assumptions C90_refused.
Print Assumptions C91_inner_prod_partial.
Print Assumptions C91_kernel_packed.
Print Assumptions C91_double_refuted.
Print Assumptions C92_matmul_partial.
Print Assumptions C92_batch.
Print Assumptions C92_single.
Print Assumptions C90_example.
Print Assumptions C91_example.
Print Assumptions C92_example.
