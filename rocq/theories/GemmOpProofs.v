(** The operators gemm, inner_prod and matmul. *)
From Coq Require Import List ZArith Bool Lia Ring.
From Verif Require Import ShapeModel ShapeSpec ShapeProofs KernelBase KernelSpec KernelProofs LoopModel LoopProofs EltwiseModel
  TransposeModel TransposeSpec PropsTranspose GemmModel GemmSpec GemmProofs GemmPlainProofs PropsGemm ConvModel ConvSpec ConvProofs GemmOpModel.
Import ListNotations.
Local Open Scope Z_scope.

Section Proofs.
Context {R : Type} (rO rI : R) (radd rmul : R -> R -> R).
Hypothesis Rth : semi_ring_theory rO rI radd rmul eq.
Variable near : R -> R -> bool.
Hypothesis near_refl : forall x, near x x = true.
Notation "a +! b" := (radd a b) (at level 50, left associativity).
Notation "a *! b" := (rmul a b) (at level 40, left associativity).
Notation sum_of := (sum_of rO radd).

(** the result of a packed product, as a matrix *)
Lemma packed_result M N K (a b : Z -> sres R) A B packB : 0 <= M -> 0 <= N -> 0 <= K ->
  (forall i k, 0 <= i < M -> 0 <= k < K -> a (i * K + k) = SOk (A i k)) ->
  (if packB : bool then forall k j, 0 <= k < K -> 0 <= j < N -> b (k * N + j) = SOk (B k j) else packed_cols N K b B) ->
  exists stores out, packed_gemm rO rI radd rmul near true M N K rI a b rO true packB = SOk stores /\
    exec (fresh (M * N)) stores = SOk (map Some out) /\ Z.of_nat (length out) = M * N /\
    forall i j, 0 <= i < M -> 0 <= j < N -> nth_error out (Z.to_nat (i * N + j)) = Some (sum_of K (fun k => A i k *! B k j)).
Proof using Rth near_refl.
  intros HM HN HK Ha Hb. unfold packed_gemm. rewrite !near_refl. cbn [negb orb].
  destruct (pack_A_ok rO rI radd rmul Rth M K K a A HM HK Ha) as (da & -> & Pa).
  assert (Eb : exists b', (if packB then lift1 read (exec (fresh (N * K)) (pack8_B K N b N)) else SOk b) = SOk b' /\ packed_cols N K b' B).
  { destruct packB; [|now exists b]. destruct (pack_B_ok rO rI radd rmul Rth K N N b B HK HN Hb) as (db & -> & Pb). eexists. split; [reflexivity|exact Pb]. }
  destruct Eb as (b' & -> & Pb). cbn [lift1].
  pose proof (kernel_events rO rI radd rmul Rth M N K _ b' A B HM HN HK Pa Pb) as Hev.
  pose proof (kernel_covers rO rI radd rmul Rth M N K _ b' A B HM HN HK Pa Pb) as Hcov.
  eexists. 
  destruct (exec_grid [M; N] (fun c => match c with [i; j] => sum_of K (fun k => A i k *! B k j) | _ => rO end)
    (kernel_8x8 rO radd rmul true M K N (read (map Some da)) b' N) (fresh (M * N))) as (out & E & L & P).
  - repeat constructor; assumption.
  - unfold fresh. rewrite repeat_length. cbn [elements]. nia.
  - intros d v Hin. destruct (Hev d v Hin) as (i & j & Hi & Hj & -> & ->). exists [i; j]. split; [repeat (constructor; [lia|]); constructor|].
    split; [cbn [position elements]; ring|reflexivity].
  - intros c Hc. inversion Hc as [|? i ? c1 Hi Hc1]; subst. inversion Hc1 as [|? j ? c2 Hj Hc2]; subst. inversion Hc2; subst.
    replace (position [M; N] [i; j]) with (i * N + j) by (cbn [position elements]; ring). now apply Hcov.
  - exists out. split; [reflexivity|]. split; [exact E|]. split; [rewrite L; cbn [elements]; ring|]. intros i j Hi Hj.
    specialize (P [i; j]). replace (position [M; N] [i; j]) with (i * N + j) in P by (cbn [position elements]; ring). apply P.
    repeat (constructor; [lia|]); constructor.
Qed.

Lemma load_mat (t : tensor R) m n i j : wf t -> t_shape t = [m; n] -> 0 <= i < m -> 0 <= j < n ->
  load (t_data t) (i * n + j) = SOk (value rO t [i; j]).
Proof.
  intros W E Hi Hj. destruct (elt_some t [i; j] W) as (v & Ev); [rewrite E; repeat (constructor; [lia|]); constructor|].
  unfold value. rewrite Ev. apply load_inv. split; [nia|]. unfold elt in Ev. rewrite E in Ev.
  replace (position [m; n] [i; j]) with (i * n + j) in Ev by (cbn [position elements]; ring). exact Ev.
Qed.

Lemma wf2 (t : tensor R) m n : wf t -> t_shape t = [m; n] -> 0 <= m /\ 0 <= n.
Proof. intros [F _] E. rewrite E in F. inversion F as [|? ? F1 Fa]; subst. inversion Fa; subst. auto. Qed.

(** inner_prod, once the left operand is a matrix *)
Lemma inner_matrix transpose (l r : tensor R) m k n : wf l -> wf r -> t_dtype l = 10 -> t_dtype r = 10 ->
  t_shape l = [m; k] -> t_shape r = (if transpose : bool then [n; k] else [k; n]) -> (transpose = true -> 1 <= k /\ 1 <= n) ->
  exists out, inner_prod rO rI radd rmul near transpose false l r = SOk (filled out) /\ wf out /\ t_dtype out = 10 /\ t_shape out = [m; n] /\
    forall i j, 0 <= i < m -> 0 <= j < n ->
      elt out [i; j] = Some (sum_of k (fun h => value rO l [i; h] *! value rO r (if transpose then [j; h] else [h; j]))).
Proof using Rth near_refl.
  intros Wl Wr Tl Tr Sl Sr Hpos.
  destruct (wf2 l m k Wl Sl) as [Hm Hk].
  assert (Hn : 0 <= n) by (destruct transpose; destruct (wf2 r _ _ Wr Sr); assumption).
  assert (Hr : exists b, (if transpose then bind (transpose_run true (Some [1; 0]) r) (fun t => SOk (read (t_data t))) else SOk (load (t_data r))) = SOk b /\
     forall h j, 0 <= h < k -> 0 <= j < n -> b (h * n + j) = SOk (value rO r (if transpose then [j; h] else [h; j]))).
  { destruct transpose.
    - destruct (Hpos eq_refl) as [Pk Pn]. pose proof (C34_transpose true [1; 0] r Wr ltac:(discriminate)) as Ht.
      destruct (transpose_run true (Some [1; 0]) r) as [t| |] eqn:Et; [| |destruct Ht].
      + destruct Ht as (o & -> & Wo & (Td & Ts & Te) & _ & _ & _). eexists. split; [reflexivity|].
        intros h j Hh Hj. cbn [filled t_data]. unfold with_rank in Te, Ts. rewrite Sr in Te, Ts. cbn [length Nat.sub repeat app t_shape] in Te, Ts.
        assert (I : inside [n; k] [j; h]) by (repeat (constructor; [lia|]); constructor).
        specialize (Te [j; h] I). unfold permuted in Te, Ts. cbn in Ts. change (map (fun p => nth (Z.to_nat p) [j; h] 0) [1; 0]) with [h; j] in Te.
        pose proof (load_mat o k n h j Wo Ts Hh Hj) as Lo. unfold read.
        assert (El : load (map Some (t_data o)) (h * n + j) = SOk (Some (value rO o [h; j]))).
        { apply load_inv in Lo. destruct Lo as [L0 L1]. apply load_inv. split; [exact L0|]. rewrite nth_error_map, L1. reflexivity. }
        rewrite El. f_equal. unfold value. rewrite Te. f_equal. unfold elt. cbn [t_shape t_data]. now rewrite Sr.
      + exfalso. apply Ht. split; [|split].
        * unfold is_permutation. cbn. apply Permutation.perm_swap.
        * rewrite Sr. cbn. lia.
        * rewrite Sr. repeat constructor; lia.
    - eexists. split; [reflexivity|]. intros h j Hh Hj. now apply (load_mat r k n). }
  destruct Hr as (b & Eb & Pb).
  destruct (packed_result m n k (load (t_data l)) b (fun i h => value rO l [i; h]) (fun h j => value rO r (if transpose then [j; h] else [h; j])) true Hm Hn Hk)
    as (stores & out & E1 & E2 & L & P).
  { intros i h Hi Hh. now apply (load_mat l m k). }
  { exact Pb. }
  exists (Tn 10 [m; n] out). split; [|split; [split; [repeat constructor; assumption|cbn [t_data t_shape elements]; rewrite L; ring]|split; [reflexivity|split; [reflexivity|]]]].
  - unfold inner_prod, inner_prod_infer. rewrite Sl, Tl, Tr. cbn [length Nat.eqb bind].
    assert (Es : match t_shape r with [r0; r1] => if negb (k =? (if transpose then r1 else r0)) then SErr else if negb (10 =? 10) then SErr else SOk (m, k, if transpose then r0 else r1) | _ => SErr end = SOk (m, k, n)).
    { rewrite Sr. destruct transpose; rewrite Z.eqb_refl; reflexivity. }
    destruct (t_shape r) as [|r0 [|r1 [|]]]; try discriminate Es. rewrite Es. cbn [bind Z.eqb Pos.eqb orb negb].
    rewrite andb_false_r. rewrite Eb. cbn [bind negb]. rewrite E1. cbn [bind]. rewrite E2. reflexivity.
  - intros i j Hi Hj. unfold elt. cbn [t_shape t_data]. replace (position [m; n] [i; j]) with (i * n + j) by (cbn [position elements]; ring). now apply P.
Qed.

(** the same with a right operand packed before *)
Lemma inner_packed (l r : tensor R) packed m k n : wf l -> wf r -> t_dtype l = 10 -> t_dtype r = 10 ->
  t_shape l = [m; k] -> t_shape r = [k; n] ->
  exec (fresh (n * k)) (pack8_B k n (load (t_data r)) n) = SOk (map Some packed) ->
  inner_prod rO rI radd rmul near false true l (Tn 10 [k; n] packed) = inner_prod rO rI radd rmul near false false l r.
Proof using Rth near_refl.
  intros Wl Wr Tl Tr Sl Sr Hp. destruct (wf2 l m k Wl Sl) as [Hm Hk]. destruct (wf2 r k n Wr Sr) as [_ Hn].
  assert (Ha : forall i h, 0 <= i < m -> 0 <= h < k -> load (t_data l) (i * k + h) = SOk (value rO l [i; h])) by (intros; now apply (load_mat l m k)).
  assert (Hb : forall h j, 0 <= h < k -> 0 <= j < n -> load (t_data r) (h * n + j) = SOk (value rO r [h; j])) by (intros; now apply (load_mat r k n)).
  destruct (pack_B_ok rO rI radd rmul Rth k n n (load (t_data r)) (fun h j => value rO r [h; j]) Hk Hn Hb) as (db & Eb & Pb).
  rewrite Eb in Hp. injection Hp as Hp. rewrite Hp in Pb.
  assert (Hrd : forall (l : list R) i v, read (map Some l) i = SOk v -> load l i = SOk v).
  { intros l' i v. unfold read. destruct (load (map Some l') i) as [[y|]| |] eqn:E; try discriminate. intros Ex. injection Ex as ->.
    apply load_inv in E. destruct E as [E0 E]. apply load_inv. split; [exact E0|]. rewrite nth_error_map in E.
    destruct (nth_error l' (Z.to_nat i)); cbn in E; congruence. }
  assert (Pb' : packed_cols n k (load packed) (fun h j => value rO r [h; j])).
  { destruct Pb as [P1 P2]. split; intros; apply Hrd; [now apply P1|now apply P2]. }
  destruct (packed_result m n k (load (t_data l)) (load (t_data r)) _ _ true Hm Hn Hk Ha Hb) as (s1 & o1 & E1 & X1 & L1 & P1).
  destruct (packed_result m n k (load (t_data l)) (load packed) _ _ false Hm Hn Hk Ha Pb') as (s2 & o2 & E2 & X2 & L2 & P2).
  assert (o1 = o2) as <-.
  { apply nth_error_ext. intros p. destruct (Z_lt_dec (Z.of_nat p) (m * n)) as [Hlt|Hge].
    - assert (0 < n) by nia. pose proof (Z.div_mod (Z.of_nat p) n ltac:(lia)) as D. pose proof (Z.mod_pos_bound (Z.of_nat p) n ltac:(lia)).
      assert (0 <= Z.of_nat p / n < m) by (split; [apply Z.div_pos; lia|apply Z.div_lt_upper_bound; nia]).
      replace p with (Z.to_nat (Z.of_nat p / n * n + Z.of_nat p mod n)) by (rewrite Z.mul_comm, <- D; lia).
      rewrite P1, P2 by lia. reflexivity.
    - rewrite (proj2 (nth_error_None o1 p)), (proj2 (nth_error_None o2 p)) by lia. reflexivity. }
  unfold inner_prod, inner_prod_infer. rewrite Sl, Sr, Tl, Tr. cbn [t_shape t_dtype t_data length Nat.eqb bind]. rewrite Z.eqb_refl.
  cbn [negb Z.eqb Pos.eqb orb andb bind]. rewrite E1, E2. cbn [bind]. rewrite X1, X2. reflexivity.
Qed.

(** only the shape of the left operand changes *)
Lemma inner_view transpose packed (l r : tensor R) d0 rest : t_shape l = d0 :: rest -> positive_shape (t_shape l) ->
  inner_prod rO rI radd rmul near transpose packed l r = inner_prod rO rI radd rmul near transpose packed (Tn (t_dtype l) [d0; elements rest] (t_data l)) r.
Proof.
  intros Sl Pl. assert (E : (if Nat.eqb (length (t_shape l)) 2 then SOk (t_shape l) else reshape (t_shape l) [d0; -1]) = SOk [d0; elements rest]).
  { rewrite Sl. destruct rest as [|d1 [|d2 rest]].
    - cbn [length Nat.eqb]. apply reshape_ok_iff; [rewrite <- Sl; exact Pl|]. rewrite Sl in Pl. inversion Pl; subst.
      split; [unfold one_wildcard; cbn; destruct (Z.ltb_spec d0 0); [lia|]; cbn; lia|]. split.
      + unfold fits. constructor; [destruct (Z.ltb_spec d0 0); [lia|reflexivity]|]. constructor; [cbn; lia|constructor].
      + cbn [elements]. ring.
    - cbn [length Nat.eqb elements]. now rewrite Z.mul_1_r.
    - cbn [length Nat.eqb]. apply reshape_ok_iff; [rewrite <- Sl; exact Pl|]. rewrite Sl in Pl. inversion Pl as [|? ? P0 P1]; subst. pose proof (elements_pos _ P1).
      split; [unfold one_wildcard; cbn; destruct (Z.ltb_spec d0 0); [lia|]; cbn; lia|]. split.
      + unfold fits. constructor; [destruct (Z.ltb_spec d0 0); [lia|reflexivity]|]. constructor; [change (-1 <? 0) with true; cbv iota; lia|constructor].
      + cbn [elements]. ring. }
  rewrite Sl in E. unfold inner_prod, inner_prod_infer. rewrite Sl. cbv beta iota. rewrite E. reflexivity.
Qed.
End Proofs.
