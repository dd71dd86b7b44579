(** C87, C88: the matrix products every dense layer and convolution uses. *)
From Coq Require Import List ZArith Bool Lia Ring QArith.
From Verif Require Import ShapeModel KernelBase KernelProofs EltwiseModel GemmModel GemmSpec GemmProofs GemmPlainProofs.
Import ListNotations.
Local Open Scope Z_scope.

Section Props.
Context {R : Type} (rO rI : R) (radd rmul : R -> R -> R).
Hypothesis Rth : semi_ring_theory rO rI radd rmul eq.
Add Ring Rring : Rth.
Variable near : R -> R -> bool.

Notation "a +! b" := (radd a b) (at level 50, left associativity).
Notation "a *! b" := (rmul a b) (at level 40, left associativity).

Lemma sum_sums n f : sum_of rO radd n f = sums rO radd f (upto n).
Proof. reflexivity. Qed.

Lemma sum_ext n f g : (forall k, 0 <= k < n -> f k = g k) -> sum_of rO radd n f = sum_of rO radd n g.
Proof. intros H. rewrite !sum_sums. apply sums_ext. intros x Hx. apply H. now apply In_upto. Qed.

Lemma place_bound {X} cm (data : list X) rows cols ld f i j : holds cm data rows cols ld f -> ld_ok cm rows cols ld ->
  0 <= i < rows -> 0 <= j < cols -> load data (place cm ld i j) = SOk (f i j).
Proof.
  intros H L Hi Hj. specialize (H i j Hi Hj). apply load_inv; split; [|exact H]. unfold place, ld_ok in *. destruct cm; nia.
Qed.

Lemma in_length {X} cm (data : list X) rows cols ld f i j : holds cm data rows cols ld f -> ld_ok cm rows cols ld ->
  0 <= i < rows -> 0 <= j < cols -> 0 <= place cm ld i j < Z.of_nat (length data).
Proof.
  intros H L Hi Hj. assert (0 <= place cm ld i j) by (unfold place, ld_ok in *; destruct cm; nia).
  specialize (H i j Hi Hj). assert (Z.to_nat (place cm ld i j) < length data)%nat by (apply nth_error_Some; congruence). lia.
Qed.

(** C87: gemm computes alpha op(A) op(B) + beta C in place, for both
    storage orders, both transposes and any leading dimensions; memory
    outside the matrix keeps its contents; with beta = 0 the old contents of
    C are not read. *)
Theorem C87_gemm : rI <> rO -> (forall x, near x x = true) ->
  forall (vec col_major transA transB : bool) (M N K : Z) (alpha beta : R)
         (a b : list R) (c : list (option R)) (lda ldb ldc : Z) (A B : Z -> Z -> R) (C : Z -> Z -> option R),
  0 <= M -> 0 <= N -> 0 <= K ->
  (near alpha rO = true -> alpha = rO) -> (near beta rO = true -> beta = rO) -> (near beta rI = true -> beta = rI) ->
  let rowsA := if transA then K else M in let colsA := if transA then M else K in
  let rowsB := if transB then N else K in let colsB := if transB then K else N in
  ld_ok col_major rowsA colsA lda -> ld_ok col_major rowsB colsB ldb -> ld_ok col_major M N ldc ->
  holds col_major a rowsA colsA lda A -> holds col_major b rowsB colsB ldb B -> holds col_major c M N ldc C ->
  (beta = rO \/ forall i j, 0 <= i < M -> 0 <= j < N -> C i j <> None) ->
  exists c', gemm rO rI radd rmul near vec col_major transA transB M N K alpha (load a) lda (load b) ldb beta c ldc = SOk c' /\
    length c' = length c /\
    (forall i j, 0 <= i < M -> 0 <= j < N ->
       let old := match C i j with Some v => v | None => rO end in
       nth_error c' (Z.to_nat (place col_major ldc i j)) =
         Some (Some (alpha *! product rO radd rmul K (op transA A) (op transB B) i j +! beta *! old))) /\
    (forall p, (forall i j, 0 <= i < M -> 0 <= j < N -> p <> Z.to_nat (place col_major ldc i j)) -> nth_error c' p = nth_error c p).
Proof using Rth.
  intros nontrivial near_refl vec col_major transA transB M N K alpha beta a b c lda ldb ldc A B C HM HN HK Na Nb0 Nb1 rowsA colsA rowsB colsB LA LB LC HA HB HC HCd.
  set (old := fun i j => match C i j with Some v => v | None => rO end).
  assert (HCs : beta = rO \/ forall i j, 0 <= i < M -> 0 <= j < N -> nth_error c (Z.to_nat (place col_major ldc i j)) = Some (Some (old i j))).
  { destruct HCd as [E|Hd]; [now left|right]. intros i j Hi Hj. rewrite (HC i j Hi Hj). unfold old. specialize (Hd i j Hi Hj). now destruct (C i j). }
  unfold gemm. destruct col_major.
  - destruct (row_major_ok rO rI radd rmul Rth nontrivial near near_refl vec transB transA N M K alpha (load b) ldb (load a) lda beta c ldc
       (fun j k => op transB B k j) (fun k i => op transA A i k) (fun j i => old i j)) as (p & m' & E1 & E2 & G & S1 & S2); auto.
    + intros j k Hj Hk. subst rowsB colsB. destruct transB; cbn [op].
      * rewrite <- (place_bound true b N K ldb B j k HB LB Hj Hk). unfold place. reflexivity.
      * rewrite <- (place_bound true b K N ldb B k j HB LB Hk Hj). unfold place. reflexivity.
    + intros k i Hk Hi. subst rowsA colsA. destruct transA; cbn [op].
      * rewrite <- (place_bound true a K M lda A k i HA LA Hk Hi). unfold place. reflexivity.
      * rewrite <- (place_bound true a M K lda A i k HA LA Hi Hk). unfold place. reflexivity.
    + intros j i Hj Hi. apply (in_length true c M N ldc C i j HC LC Hi Hj).
    + destruct HCs as [E|Hs]; [now left|right]. intros j i Hj Hi. exact (Hs i j Hi Hj).
    + rewrite E1. exists m'. split; [exact E2|]. split; [exact S1|]. split.
      * intros i j Hi Hj. cbn zeta. fold (old i j). unfold place. rewrite (G j i Hj Hi). do 2 f_equal. f_equal. f_equal.
        unfold product. rewrite sum_sums. apply sums_ext. intros k _. ring.
      * intros p' Hp. apply S2. intros j i Hj Hi. exact (Hp i j Hi Hj).
  - destruct (row_major_ok rO rI radd rmul Rth nontrivial near near_refl vec transA transB M N K alpha (load a) lda (load b) ldb beta c ldc
       (op transA A) (op transB B) old) as (p & m' & E1 & E2 & G & S1 & S2); auto.
    + intros i k Hi Hk. subst rowsA colsA. destruct transA; cbn [op].
      * rewrite <- (place_bound false a K M lda A k i HA LA Hk Hi). unfold place. reflexivity.
      * rewrite <- (place_bound false a M K lda A i k HA LA Hi Hk). unfold place. reflexivity.
    + intros k j Hk Hj. subst rowsB colsB. destruct transB; cbn [op].
      * rewrite <- (place_bound false b N K ldb B j k HB LB Hj Hk). unfold place. reflexivity.
      * rewrite <- (place_bound false b K N ldb B k j HB LB Hk Hj). unfold place. reflexivity.
    + intros i j Hi Hj. apply (in_length false c M N ldc C i j HC LC Hi Hj).
    + rewrite E1. exists m'. split; [exact E2|]. split; [exact S1|]. split.
      * intros i j Hi Hj. cbn zeta. fold (old i j). unfold place. exact (G i j Hi Hj).
      * exact S2.
Qed.

(** C87: a leading dimension too small for the matrix is refused. *)
Theorem C87_leading_dimensions : forall (vec col_major transA transB : bool) (M N K : Z) (alpha beta : R)
         (a b : Z -> sres R) (c : list (option R)) (lda ldb ldc : Z),
  let rowsA := if transA then K else M in let colsA := if transA then M else K in
  let rowsB := if transB then N else K in let colsB := if transB then K else N in
  ~ (ld_ok col_major rowsA colsA lda /\ ld_ok col_major rowsB colsB ldb /\ ld_ok col_major M N ldc) ->
  gemm rO rI radd rmul near vec col_major transA transB M N K alpha a lda b ldb beta c ldc = SErr.
Proof.
  intros vec col_major transA transB M N K alpha beta a b c lda ldb ldc rowsA colsA rowsB colsB H.
  subst rowsA colsA rowsB colsB. unfold gemm, gemm_row_major, ld_ok in *.
  destruct col_major, transA, transB;
    repeat match goal with |- context [?x <=? ?y] => destruct (Z.leb_spec x y); cbn [andb negb] end; try reflexivity; exfalso; lia.
Qed.

(** C88: the packed product of float matrices, whether the left matrix is
    packed on the fly or has been packed before, and likewise the right one. *)
Theorem C88_packed_partial : (forall x, near x x = true) ->
  forall (M N K : Z) (a b a' b' : list R) (packA packB : bool) (A B : Z -> Z -> R),
  0 <= M -> 0 <= N -> 0 <= K -> matrix a M K A -> matrix b K N B ->
  (* what the packing functions make of the matrices *)
  exec (fresh (M * K)) (pack8_A M K (load a) K) = SOk (map Some a') ->
  exec (fresh (N * K)) (pack8_B K N (load b) N) = SOk (map Some b') ->
  exists stores c,
    packed_gemm rO rI radd rmul near true M N K rI (load (if packA then a else a')) (load (if packB then b else b')) rO packA packB = SOk stores /\
    exec (fresh (M * N)) stores = SOk (map Some c) /\
    matrix c M N (product rO radd rmul K A B).
Proof using Rth.
  intros near_refl M N K a b a' b' packA packB A B HM HN HK [La HA] [Lb HB] Ea Eb.
  destruct (pack_A_ok rO rI radd rmul Rth M K K (load a) A HM HK) as (da & Eda & Pa).
  { intros i k Hi Hk. apply load_inv; split; [nia|]. exact (HA i k Hi Hk). }
  destruct (pack_B_ok rO rI radd rmul Rth K N N (load b) B HK HN) as (db & Edb & Pb).
  { intros k j Hk Hj. apply load_inv; split; [nia|]. exact (HB k j Hk Hj). }
  assert (da = a') as ->. { rewrite Eda in Ea. injection Ea as Ea. clear - Ea. revert a' Ea. induction da; intros [|x l] E; try discriminate; [reflexivity|]. injection E as -> E. f_equal. now apply IHda. }
  assert (db = b') as ->. { rewrite Edb in Eb. injection Eb as Eb. clear - Eb. revert b' Eb. induction db; intros [|x l] E; try discriminate; [reflexivity|]. injection E as -> E. f_equal. now apply IHdb. }
  assert (Hrd : forall (l : list R) i v, read (map Some l) i = SOk v -> load l i = SOk v).
  { intros l i v. unfold read. destruct (load (map Some l) i) as [[x|]| |] eqn:E; try discriminate. intros Ex. injection Ex as ->.
    apply load_inv in E. destruct E as [E0 E]. apply load_inv. split; [exact E0|]. rewrite nth_error_map in E.
    destruct (nth_error l (Z.to_nat i)); cbn in E; congruence. }
  set (ra := if packA then read (map Some a') else load a'). set (rb := if packB then read (map Some b') else load b').
  assert (PA : packed_rows M K ra A).
  { subst ra. destruct packA; [exact Pa|]. destruct Pa as [P1 P2]. split; intros; apply Hrd; [now apply P1|now apply P2]. }
  assert (PB : packed_cols N K rb B).
  { subst rb. destruct packB; [exact Pb|]. destruct Pb as [P1 P2]. split; intros; apply Hrd; [now apply P1|now apply P2]. }
  exists (kernel_8x8 rO radd rmul true M K N ra rb N).
  pose proof (kernel_events rO rI radd rmul Rth M N K ra rb A B HM HN HK PA PB) as Hev.
  pose proof (kernel_covers rO rI radd rmul Rth M N K ra rb A B HM HN HK PA PB) as Hcov.
  set (cell := fun p => sums rO radd (fun k => A (p / N) k *! B k (p mod N)) (upto K)).
  pose proof (exec_all cell (M * N) (kernel_8x8 rO radd rmul true M K N ra rb N)) as Ec.
  exists (map cell (upto (M * N))). split; [|split; [apply Ec|]].
  - unfold packed_gemm. rewrite !near_refl. cbn [negb orb]. subst ra rb. destruct packA, packB; rewrite ?Eda, ?Edb; reflexivity.
  - intros d v Hin. destruct (Hev d v Hin) as (i & j & Hi & Hj & -> & ->). split; [nia|]. unfold cell.
    rewrite Z.div_add_l, Z.div_small, Z.add_0_r by lia. rewrite Z.add_comm, Z.mod_add, Z.mod_small by lia. reflexivity.
  - intros d Hd. assert (0 < N) by nia. replace d with (d / N * N + d mod N) by (rewrite Z.mul_comm; symmetry; apply Z.div_mod; lia).
    apply Hcov; [split; [apply Z.div_pos; lia|apply Z.div_lt_upper_bound; nia]|apply Z.mod_pos_bound; lia].
  - split; [rewrite map_length, length_upto; nia|]. intros i j Hi Hj. unfold entry. assert (Hb : 0 <= i * N + j < M * N) by nia.
    rewrite nth_error_map, nth_error_upto by lia. cbn [option_map].
    f_equal. unfold cell, product. rewrite sum_sums.
    rewrite Z.div_add_l, Z.div_small, Z.add_0_r by lia. rewrite Z.add_comm, Z.mod_add, Z.mod_small by lia. reflexivity.
Qed.

(** C88: packing a matrix always succeeds. *)
Theorem C88_pack : forall (M N K : Z) (a b : list R) (A B : Z -> Z -> R),
  0 <= M -> 0 <= N -> 0 <= K -> matrix a M K A -> matrix b K N B ->
  (exists a', exec (fresh (M * K)) (pack8_A M K (load a) K) = SOk (map Some a')) /\
  (exists b', exec (fresh (N * K)) (pack8_B K N (load b) N) = SOk (map Some b')).
Proof.
  intros M N K a b A B HM HN HK [La HA] [Lb HB]. split.
  - destruct (pack_A_ok rO rI radd rmul Rth M K K (load a) A HM HK) as (da & Eda & _); [|now exists da].
    intros i k Hi Hk. apply load_inv; split; [nia|]. exact (HA i k Hi Hk).
  - destruct (pack_B_ok rO rI radd rmul Rth K N N (load b) B HK HN) as (db & Edb & _); [|now exists db].
    intros k j Hk Hj. apply load_inv; split; [nia|]. exact (HB k j Hk Hj).
Qed.

(** C88: other factors than alpha = 1 and beta = 0 are refused. *)
Theorem C88_factors : forall M N K alpha beta (a b : Z -> sres R) packA packB is_float,
  near alpha rI = false \/ near beta rO = false ->
  packed_gemm rO rI radd rmul near is_float M N K alpha a b beta packA packB = SErr.
Proof.
  intros M N K alpha beta a b packA packB is_float H. unfold packed_gemm. destruct H as [->| ->]; cbn [negb orb]; [reflexivity|].
  destruct (near alpha rI); reflexivity.
Qed.

(** C88 is not so for double matrices: nothing at all is stored. *)
Theorem C88_double_refuted : forall (M N K : Z) (a b : list R) (A B : Z -> Z -> R) packA packB,
  (forall x, near x x = true) -> 0 <= M -> 0 <= N -> 0 <= K -> matrix a M K A -> matrix b K N B ->
  packed_gemm rO rI radd rmul near false M N K rI (load a) (load b) rO packA packB = SOk [].
Proof.
  intros M N K a b A B packA packB near_refl HM HN HK HA HB. unfold packed_gemm. rewrite !near_refl. cbn [negb orb].
  destruct (C88_pack M N K a b A B HM HN HK HA HB) as ((a' & ->) & (b' & ->)). destruct packA, packB; reflexivity.
Qed.
End Props.

(** ** Concrete cases *)
Definition zgemm vec := gemm 0 1 Z.add Z.mul Z.eqb vec.

Theorem C87_example :
  (* 2x3 by 3x2 with wide rows, alpha 2, beta 3, the transpose of B, row major *)
  zgemm true false false true 2 2 3 2 (load [1;2;3;0; 4;5;6;0]) 4 (load [1;0;1; 0;2;0]) 3 3
    [Some 1; Some 2; None; Some 3; Some 4; None] 3
  = SOk [Some 11; Some 14; None; Some 29; Some 32; None] /\
  (* the same product, column major *)
  zgemm false true false false 2 2 3 1 (load [1;4; 2;5; 3;6]) 2 (load [1;0;1; 0;2;0]) 3 0 [None; None; None; None] 2
  = SOk [Some 4; Some 10; Some 4; Some 10].
Proof. split; vm_compute; reflexivity. Qed.

Theorem C88_example :
  exists a' b', exec (fresh (9 * 2)) (pack8_A 9 2 (load (upto 18)) 2) = SOk (map Some a') /\
  exec (fresh (9 * 2)) (pack8_B 2 9 (load (upto 18)) 9) = SOk (map Some b') /\
  a' <> upto 18 /\ b' <> upto 18 /\
  forall pa pb, match packed_gemm 0 1 Z.add Z.mul Z.eqb true 9 9 2 1 (load (if pa : bool then upto 18 else a')) (load (if pb : bool then upto 18 else b')) 0 pa pb with
  | SOk stores => exec (fresh 81) stores
  | _ => SUndef
  end = SOk (map (fun p => Some (sum_of 0 Z.add 2 (fun k => (p / 9 * 2 + k) * (k * 9 + p mod 9)))) (upto 81)).
Proof.
  exists [0;2;4;6;8;10;12;14;1;3;5;7;9;11;13;15;16;17], [0;1;2;3;4;5;6;7;9;10;11;12;13;14;15;16;8;17].
  split; [vm_compute; reflexivity|]. split; [vm_compute; reflexivity|]. split; [vm_compute; discriminate|]. split; [vm_compute; discriminate|].
  intros [] []; vm_compute; reflexivity.
Qed.

(** C87 does not hold of the float type for all alpha: alpha = 2^-24 is taken
    for zero, so a product that is 1 comes out 0. *)
Definition near_float (a b : Q) : bool :=
  let d := (a - b)%Q in Qle_bool (-(1 # 8388608)) d && Qle_bool d (1 # 8388608) && negb (Qeq_bool d (1 # 8388608)) && negb (Qeq_bool d (-(1 # 8388608))).
Theorem C87_small_alpha_refuted :
  let alpha := (1 # 16777216)%Q in let big := (16777216 # 1)%Q in
  gemm 0%Q 1%Q Qplus Qmult near_float true false false false 1 1 1 alpha (load [1%Q]) 1 (load [big]) 1 0%Q [None] 1 = SOk [Some 0%Q] /\
  (alpha * (1 * big) == 1)%Q.
Proof. split; vm_compute; reflexivity. Qed.

Print Assumptions C87_gemm.
Print Assumptions C87_leading_dimensions.
Print Assumptions C87_small_alpha_refuted.
Print Assumptions C88_packed_partial.
Print Assumptions C88_pack.
Print Assumptions C88_factors.
Print Assumptions C88_double_refuted.
Print Assumptions C87_example.
Print Assumptions C88_example.
