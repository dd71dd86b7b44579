(** The packed matrix product computes the matrix product. *)
From Coq Require Import List ZArith Bool Lia Ring_theory Ring.
From Verif Require Import ShapeModel KernelBase KernelProofs EltwiseModel GemmModel GemmSpec.
Import ListNotations.
Local Open Scope Z_scope.

(** ** Loops *)
Lemma upto_S n : 0 <= n -> upto (n + 1) = upto n ++ [n].
Proof.
  intros H. unfold upto. replace (Z.to_nat (n + 1)) with (S (Z.to_nat n)) by lia. rewrite seq_S, map_app. cbn [map]. rewrite Nat.add_0_l, Z2Nat.id by exact H. reflexivity.
Qed.

Lemma map_seq_add m n : forall s, map (fun x => Z.of_nat m + Z.of_nat x) (seq s n) = map Z.of_nat (seq (m + s) n).
Proof. induction n as [|n IH]; intros s; [reflexivity|]. cbn [seq map]. f_equal; [lia|]. rewrite IH. now rewrite Nat.add_succ_r. Qed.

Lemma upto_between lo hi : 0 <= lo <= hi -> upto lo ++ between lo hi = upto hi.
Proof.
  intros H. unfold between, upto. replace (Z.to_nat hi) with (Z.to_nat lo + Z.to_nat (hi - lo))%nat by lia.
  rewrite seq_app, map_app. f_equal. rewrite map_map. pose proof (map_seq_add (Z.to_nat lo) (Z.to_nat (hi - lo)) 0) as G.
  rewrite Z2Nat.id, Nat.add_0_r in G by lia. exact G.
Qed.

Lemma In_between lo hi i : In i (between lo hi) <-> lo <= i < hi.
Proof.
  unfold between. rewrite in_map_iff. split.
  - intros (x & <- & H). apply In_upto in H. lia.
  - intros H. exists (i - lo). rewrite In_upto. lia.
Qed.

Definition quads (kk : Z) : list Z := [4 * kk; 4 * kk + 1; 4 * kk + 2; 4 * kk + 3].

Lemma quads_upto n : 0 <= n -> flat_map quads (upto n) = upto (4 * n).
Proof.
  intros H. pattern n. apply natlike_ind; [reflexivity| |exact H]. intros k Hk IH.
  unfold Z.succ. rewrite upto_S, flat_map_app, IH by lia. cbn [flat_map quads app].
  replace (4 * (k + 1)) with (4 * k + 1 + 1 + 1 + 1) by lia. rewrite !upto_S by lia. rewrite <- !app_assoc. cbn [app].
  replace (4 * k + 1 + 1 + 1) with (4 * k + 3) by lia. replace (4 * k + 1 + 1) with (4 * k + 2) by lia. reflexivity.
Qed.

Lemma by_four_upto K : 0 <= K -> by_four K = upto K.
Proof.
  intros H. unfold by_four. change (fun kk : Z => [4 * kk; 4 * kk + 1; 4 * kk + 2; 4 * kk + 3]) with quads.
  rewrite quads_upto by (apply Z.div_pos; lia). replace (K / 4 * 4) with (4 * (K / 4)) by lia. apply upto_between.
  Z.to_euclidean_division_equations; lia.
Qed.

Lemma foldM_inv {S X} (P : list X -> S -> Prop) (f : S -> X -> sres S) : forall l done s,
  P done s ->
  (forall done x s, In x l -> P done s -> exists s', f s x = SOk s' /\ P (done ++ [x]) s') ->
  exists s', foldM f s l = SOk s' /\ P (done ++ l) s'.
Proof.
  induction l as [|x l IH]; intros done s H0 Hs.
  - exists s. rewrite app_nil_r. split; [reflexivity|exact H0].
  - destruct (Hs done x s (or_introl eq_refl) H0) as (s1 & E & P1). cbn [foldM]. rewrite E.
    destruct (IH (done ++ [x]) s1 P1) as (s' & E' & P').
    { intros d y t Hy. apply Hs. now right. }
    exists s'. rewrite <- app_assoc in P'. split; [exact E'|exact P'].
Qed.

Lemma each_ok {A X} (F : X -> sres A) (g : X -> A) l : (forall x, In x l -> F x = SOk (g x)) -> each (map F l) = SOk (map g l).
Proof.
  induction l as [|x l IH]; intros H; [reflexivity|]. cbn [map each]. rewrite (H x) by now left. rewrite IH by (intros; apply H; now right). reflexivity.
Qed.

Lemma combine_map {X A B} (f : X -> A) (g : X -> B) l : combine (map f l) (map g l) = map (fun x => (f x, g x)) l.
Proof. induction l as [|x l IH]; [reflexivity|]. cbn [map combine]. now rewrite IH. Qed.

Lemma combine_map_r {X B} (g : X -> B) l : combine l (map g l) = map (fun x => (x, g x)) l.
Proof. rewrite <- (map_id l) at 1. apply combine_map. Qed.

Lemma repeat_map {A} (a : A) n : repeat a (Z.to_nat n) = map (fun _ => a) (upto n).
Proof.
  unfold upto. rewrite map_map. generalize (Z.to_nat n). intros k. generalize 0%nat. induction k as [|k IH]; intros s; [reflexivity|].
  cbn [repeat seq map]. f_equal. apply IH.
Qed.

Lemma load_map {A} (f : Z -> A) n i : 0 <= i < n -> load (map f (upto n)) i = SOk (f i).
Proof. intros H. apply load_inv. split; [lia|]. apply map_nth_error. now apply nth_error_upto. Qed.

Lemma between_div_lo row : 0 <= row -> 0 <= row / 8 * 8 <= row.
Proof. Z.to_euclidean_division_equations; lia. Qed.

Lemma pack_bound8 row col nn k r : 0 <= nn -> nn * 8 + 8 <= row -> 0 <= k < col -> 0 <= r < 8 ->
  0 <= nn * 8 * col + (8 * k + r) < row * col.
Proof.
  intros H1 H2 H3 H4. assert ((nn * 8 + 8) * col <= row * col) by (apply Z.mul_le_mono_nonneg_r; lia).
  assert (0 <= nn * 8 * col) by (apply Z.mul_nonneg_nonneg; lia). lia.
Qed.
Lemma pack_bound1 row col m k : 0 <= m < row -> 0 <= k < col -> 0 <= m * col + k < row * col.
Proof.
  intros H1 H2. assert ((m + 1) * col <= row * col) by (apply Z.mul_le_mono_nonneg_r; lia).
  assert (0 <= m * col) by (apply Z.mul_nonneg_nonneg; lia). lia.
Qed.

Section Proofs.
Context {R : Type} (rO rI : R) (radd rmul : R -> R -> R).
Hypothesis Rth : semi_ring_theory rO rI radd rmul eq.
Add Ring Rring : Rth.
Notation "a +! b" := (radd a b) (at level 50, left associativity).
Notation "a *! b" := (rmul a b) (at level 40, left associativity).

Definition sums (f : Z -> R) (l : list Z) : R := fold_right (fun k s => f k +! s) rO l.

Lemma sums_cons f x l : sums f (x :: l) = f x +! sums f l.
Proof. reflexivity. Qed.

Lemma sums_app f l l' : sums f (l ++ l') = sums f l +! sums f l'.
Proof.
  induction l as [|x l IH]; cbn [app]; [change (sums f []) with rO; ring|]. rewrite !sums_cons, IH. ring.
Qed.

Lemma sums_snoc f l x : sums f (l ++ [x]) = sums f l +! f x.
Proof. rewrite sums_app, sums_cons. change (sums f []) with rO. ring. Qed.

Lemma sums_ext f g l : (forall x, In x l -> f x = g x) -> sums f l = sums g l.
Proof. intros H. unfold sums. induction l as [|x l IH]; [reflexivity|]. cbn [fold_right]. rewrite (H x), IH; auto. - intros; apply H; now right. - now left. Qed.

Lemma sums_quads f l :
  sums f (flat_map quads l) =
  sums (fun kk => f (4 * kk + 0)) l +! sums (fun kk => f (4 * kk + 1)) l +! (sums (fun kk => f (4 * kk + 2)) l +! sums (fun kk => f (4 * kk + 3)) l).
Proof.
  induction l as [|x l IH]; [cbn; ring|]. cbn [flat_map]. rewrite sums_app, IH. unfold quads. rewrite !sums_cons.
  change (sums f []) with rO. rewrite Z.add_0_r. ring.
Qed.

Lemma sums_split K f : 0 <= K ->
  sums f (upto K) = sums f (flat_map quads (upto (K / 4))) +! sums f (between (K / 4 * 4) K).
Proof.
  intros H. rewrite <- sums_app. f_equal. pose proof (by_four_upto K H) as E. unfold by_four in E. symmetry. exact E.
Qed.

(** ** Vectors *)
Notation vec n f := (map f (upto n)).

Lemma vec_ext {A} n (f g : Z -> A) : (forall i, 0 <= i < n -> f i = g i) -> vec n f = vec n g.
Proof. intros H. apply map_ext_in. intros i Hi. apply H. now apply In_upto. Qed.

Lemma fmadd_vec n f g h : fmadd radd rmul (vec n f) (vec n g) (vec n h) = vec n (fun l => f l *! g l +! h l).
Proof. unfold fmadd. rewrite combine_map, combine_map, map_map. reflexivity. Qed.

Lemma vadd_vec n f g : vadd radd (vec n f) (vec n g) = vec n (fun l => f l +! g l).
Proof. unfold vadd. rewrite combine_map, map_map. reflexivity. Qed.

Lemma vload_vec (rd : Z -> sres R) n i (f : Z -> R) : (forall l, 0 <= l < n -> rd (i + l) = SOk (f l)) -> vload rd n i = SOk (vec n f).
Proof. intros H. unfold vload. apply each_ok. intros x Hx. apply H. now apply In_upto. Qed.

Lemma vbroadcast_vec (rd : Z -> sres R) n i a : rd i = SOk a -> vbroadcast rd n i = SOk (vec n (fun _ => a)).
Proof. intros H. unfold vbroadcast. rewrite H. cbn [lift1]. now rewrite repeat_map. Qed.

Lemma vzero_vec n : vzero rO n = vec n (fun _ => rO).
Proof. apply repeat_map. Qed.

Lemma fmaddM_vec n f g h a b : a = SOk (vec n f) -> b = SOk (vec n g) ->
  fmaddM radd rmul a b (vec n h) = SOk (vec n (fun l => f l *! g l +! h l)).
Proof. intros -> ->. unfold fmaddM. cbn [lift2]. now rewrite fmadd_vec. Qed.

Lemma lane_vec {A} n (f : Z -> A) l : 0 <= l < n -> lane (SOk (vec n f)) l = SOk (f l).
Proof. intros H. unfold lane. now apply load_map. Qed.

(** ** The four parts *)
Section Parts.
Variables (a b : Z -> sres R) (A_at B_at K : Z).
Hypothesis HK : 0 <= K.

Lemma block8_ok f g :
  (forall k r, 0 <= k < K -> 0 <= r < 8 -> a (A_at + 8 * k + r) = SOk (f r k)) ->
  (forall k l, 0 <= k < K -> 0 <= l < 8 -> b (B_at + 8 * k + l) = SOk (g k l)) ->
  block8 rO radd rmul a b A_at B_at K =
  SOk (vec 8 (fun r => vec 8 (fun l => sums (fun k => f r k *! g k l) (upto K)))).
Proof using All.
  intros Ha Hb. unfold block8. rewrite by_four_upto by exact HK.
  destruct (foldM_inv (fun done s => s = vec 8 (fun r => vec 8 (fun l => sums (fun k => f r k *! g k l) done)))
              (step8 radd rmul a b A_at B_at) (upto K) [] (repeat (vzero rO 8) 8)) as (s' & E & Es).
  - rewrite vzero_vec. rewrite (repeat_map _ 8 : repeat _ 8 = _). reflexivity.
  - intros done k s Hk ->. apply In_upto in Hk. unfold step8. rewrite combine_map_r, map_map.
    eexists. split.
    + apply each_ok. intros r Hr. apply In_upto in Hr. cbn [fst snd].
      apply (fmaddM_vec 8 (fun l => g k l) (fun _ => f r k)).
      * apply vload_vec. intros l Hl. now apply Hb.
      * apply vbroadcast_vec. now apply Ha.
    + apply vec_ext. intros r Hr. apply vec_ext. intros l Hl. rewrite sums_snoc. ring.
  - cbn [app] in Es. subst s'. exact E.
Qed.

Lemma row8_ok f g :
  (forall k, 0 <= k < K -> a (A_at + k) = SOk (f k)) ->
  (forall k l, 0 <= k < K -> 0 <= l < 8 -> b (B_at + 8 * k + l) = SOk (g k l)) ->
  row8 rO radd rmul a b A_at B_at K = SOk (vec 8 (fun l => sums (fun k => f k *! g k l) (upto K))).
Proof using All.
  intros Ha Hb. unfold row8. rewrite by_four_upto by exact HK.
  destruct (foldM_inv (fun done s => s = vec 8 (fun l => sums (fun k => f k *! g k l) done))
              (fun c k => fmaddM radd rmul (vbroadcast a 8 (A_at + k)) (vload b 8 (B_at + 8 * k)) c) (upto K) [] (vzero rO 8)) as (s' & E & Es).
  - apply vzero_vec.
  - intros done k s Hk ->. apply In_upto in Hk. eexists. split.
    + apply (fmaddM_vec 8 (fun _ => f k) (fun l => g k l)).
      * apply vbroadcast_vec. now apply Ha.
      * apply vload_vec. intros l Hl. now apply Hb.
    + apply vec_ext. intros l Hl. rewrite sums_snoc. ring.
  - cbn [app] in Es. subst s'. exact E.
Qed.

Lemma col8_ok f g :
  (forall k r, 0 <= k < K -> 0 <= r < 8 -> a (A_at + 8 * k + r) = SOk (f r k)) ->
  (forall k, 0 <= k < K -> b (B_at + k) = SOk (g k)) ->
  col8 rO radd rmul a b A_at B_at K = SOk (vec 8 (fun r => sums (fun k => f r k *! g k) (upto K))).
Proof using All.
  intros Ha Hb. unfold col8.
  assert (HK4 : 0 <= K / 4 /\ 4 * (K / 4) <= K) by (Z.to_euclidean_division_equations; lia).
  destruct (foldM_inv (fun done s => s = vec 4 (fun j => vec 8 (fun r => sums (fun kk => f r (4 * kk + j) *! g (4 * kk + j)) done)))
              (col_step radd rmul a b A_at B_at) (upto (K / 4)) [] (repeat (vzero rO 8) 4)) as (s & E & Es).
  - rewrite vzero_vec. rewrite (repeat_map _ 4 : repeat _ 4 = _). reflexivity.
  - intros done kk s Hk ->. apply In_upto in Hk. unfold col_step. rewrite combine_map_r, map_map.
    eexists. split.
    + apply each_ok. intros j Hj. apply In_upto in Hj. cbn [fst snd].
      apply (fmaddM_vec 8 (fun r => f r (4 * kk + j)) (fun _ => g (4 * kk + j))).
      * apply vload_vec. intros l Hl. rewrite <- Ha by lia. f_equal. lia.
      * apply vbroadcast_vec. rewrite <- Hb by lia. f_equal. lia.
    + apply vec_ext. intros j Hj. apply vec_ext. intros l Hl. rewrite sums_snoc. ring.
  - cbn [app] in Es. rewrite E, Es. change (upto 4) with [0; 1; 2; 3]. cbn [map].
    rewrite vzero_vec, !vadd_vec.
    destruct (foldM_inv (fun done s => s = vec 8 (fun r => sums (fun k => f r k *! g k) (flat_map quads (upto (K / 4)) ++ done)))
                (fun c k => fmaddM radd rmul (vload a 8 (A_at + 8 * k)) (vbroadcast b 8 (B_at + k)) c) (between (K / 4 * 4) K) []
                (vec 8 (fun l => rO +! (sums (fun kk => f l (4 * kk + 0) *! g (4 * kk + 0)) (upto (K / 4)) +! sums (fun kk => f l (4 * kk + 1) *! g (4 * kk + 1)) (upto (K / 4))) +!
                          (sums (fun kk => f l (4 * kk + 2) *! g (4 * kk + 2)) (upto (K / 4)) +! sums (fun kk => f l (4 * kk + 3) *! g (4 * kk + 3)) (upto (K / 4)))))) as (s' & E' & Es').
    + apply vec_ext. intros l Hl. rewrite app_nil_r, sums_quads. ring.
    + intros done k c Hk ->. apply In_between in Hk. eexists. split.
      * apply (fmaddM_vec 8 (fun r => f r k) (fun _ => g k)).
        -- apply vload_vec. intros l Hl. apply Ha; lia.
        -- apply vbroadcast_vec. apply Hb; lia.
      * apply vec_ext. intros r Hr. rewrite app_assoc, sums_snoc. ring.
    + cbn [app] in Es'. rewrite E', Es'. f_equal. apply vec_ext. intros r Hr. rewrite sums_app. symmetry. now apply sums_split.
Qed.

Lemma row1_ok f g :
  (forall k, 0 <= k < K -> a (A_at + k) = SOk (f k)) ->
  (forall k, 0 <= k < K -> b (B_at + k) = SOk (g k)) ->
  row1 rO radd rmul a b A_at B_at K = SOk (sums (fun k => f k *! g k) (upto K)).
Proof using All.
  intros Ha Hb. unfold row1.
  assert (HK4 : 0 <= K / 4 /\ 4 * (K / 4) <= K) by (Z.to_euclidean_division_equations; lia).
  destruct (foldM_inv (fun done s => s = vec 4 (fun j => sums (fun kk => f (4 * kk + j) *! g (4 * kk + j)) done))
              (fun c kk => fmaddM radd rmul (vload a 4 (A_at + 4 * kk)) (vload b 4 (B_at + 4 * kk)) c) (upto (K / 4)) [] (vzero rO 4)) as (s & E & Es).
  - apply vzero_vec.
  - intros done kk s Hk ->. apply In_upto in Hk. eexists. split.
    + apply (fmaddM_vec 4 (fun j => f (4 * kk + j)) (fun j => g (4 * kk + j))); apply vload_vec; intros l Hl.
      * rewrite <- Ha by lia. f_equal. lia.
      * rewrite <- Hb by lia. f_equal. lia.
    + apply vec_ext. intros j Hj. rewrite sums_snoc. ring.
  - cbn [app] in Es. rewrite E, Es. change (upto 4) with [0; 1; 2; 3]. unfold vsum. cbn [map fold_left].
    destruct (foldM_inv (fun done s => s = sums (fun k => f k *! g k) (flat_map quads (upto (K / 4)) ++ done))
                (fun sum k => lift2 (fun x y => sum +! x *! y) (a (A_at + k)) (b (B_at + k))) (between (K / 4 * 4) K) []
                (rO +! sums (fun kk => f (4 * kk + 0) *! g (4 * kk + 0)) (upto (K / 4)) +! sums (fun kk => f (4 * kk + 1) *! g (4 * kk + 1)) (upto (K / 4)) +!
                 sums (fun kk => f (4 * kk + 2) *! g (4 * kk + 2)) (upto (K / 4)) +! sums (fun kk => f (4 * kk + 3) *! g (4 * kk + 3)) (upto (K / 4)))) as (s' & E' & Es').
    + rewrite app_nil_r, sums_quads. ring.
    + intros done k c Hk ->. apply In_between in Hk. rewrite (Ha k), (Hb k) by lia. eexists. split; [reflexivity|].
      rewrite app_assoc, sums_snoc. reflexivity.
    + cbn [app] in Es'. rewrite E', Es'. f_equal. rewrite sums_app. symmetry. now apply sums_split.
Qed.
End Parts.

(** ** The kernel, on packed operands *)
Definition packed_rows (M K : Z) (a : Z -> sres R) (f : Z -> Z -> R) : Prop :=
  (forall nn k r, 0 <= nn < M / 8 -> 0 <= k < K -> 0 <= r < 8 -> a (nn * 8 * K + (8 * k + r)) = SOk (f (nn * 8 + r) k)) /\
  (forall m k, M / 8 * 8 <= m < M -> 0 <= k < K -> a (m * K + k) = SOk (f m k)).
Definition packed_cols (N K : Z) (b : Z -> sres R) (g : Z -> Z -> R) : Prop :=
  (forall nn k l, 0 <= nn < N / 8 -> 0 <= k < K -> 0 <= l < 8 -> b (nn * 8 * K + (8 * k + l)) = SOk (g k (nn * 8 + l))) /\
  (forall n k, N / 8 * 8 <= n < N -> 0 <= k < K -> b (n * K + k) = SOk (g k n)).

Section Kernel.
Variables (M N K : Z) (a b : Z -> sres R) (f g : Z -> Z -> R).
Hypothesis (HM : 0 <= M) (HN : 0 <= N) (HK : 0 <= K).
Hypothesis Ha : packed_rows M K a f.
Hypothesis Hb : packed_cols N K b g.
Notation cell i j := (sums (fun k => f i k *! g k j) (upto K)).

Lemma kernel_events d v : In (d, v) (kernel_8x8 rO radd rmul true M K N a b N) ->
  exists i j, 0 <= i < M /\ 0 <= j < N /\ d = i * N + j /\ v = SOk (cell i j).
Proof using All.
  destruct Ha as [Ha8 Ha1], Hb as [Hb8 Hb1]. pose proof (between_div_lo M HM) as HM8. pose proof (between_div_lo N HN) as HN8.
  unfold kernel_8x8. cbn [negb]. rewrite in_app_iff, !in_flat_map.
  intros [(mm & Hmm & Hin)|(m & Hm & Hin)].
  - apply In_upto in Hmm. rewrite in_app_iff, !in_flat_map in Hin. destruct Hin as [(nn & Hnn & Hin)|(n & Hn & Hin)].
    + apply In_upto in Hnn. apply in_flat_map in Hin. destruct Hin as (r & Hr & Hin). apply in_map_iff in Hin.
      destruct Hin as (l & E & Hl). apply In_upto in Hr. apply In_upto in Hl. injection E as <- <-.
      exists (mm * 8 + r), (nn * 8 + l). repeat split; try lia.
      rewrite (block8_ok a b (mm * 8 * K) (nn * 8 * K) K HK (fun r k => f (mm * 8 + r) k) (fun k l => g k (nn * 8 + l))).
      * rewrite lane_vec by exact Hr. now rewrite lane_vec by exact Hl.
      * intros k r' Hk Hr'. rewrite <- Ha8 by lia. f_equal. lia.
      * intros k l' Hk Hl'. rewrite <- Hb8 by lia. f_equal. lia.
    + apply In_between in Hn. apply in_map_iff in Hin. destruct Hin as (r & E & Hr). apply In_upto in Hr. injection E as <- <-.
      exists (mm * 8 + r), n. repeat split; try lia.
      rewrite (col8_ok a b (mm * 8 * K) (n * K) K HK (fun r k => f (mm * 8 + r) k) (fun k => g k n)).
      * now rewrite lane_vec by exact Hr.
      * intros k r' Hk Hr'. rewrite <- Ha8 by lia. f_equal. lia.
      * intros k Hk. apply Hb1; lia.
  - apply In_between in Hm. rewrite in_app_iff, in_flat_map, in_map_iff in Hin. destruct Hin as [(nn & Hnn & Hin)|(n & E & Hn)].
    + apply In_upto in Hnn. apply in_map_iff in Hin. destruct Hin as (l & E & Hl). apply In_upto in Hl. injection E as <- <-.
      exists m, (nn * 8 + l). repeat split; try lia.
      rewrite (row8_ok a b (m * K) (nn * 8 * K) K HK (fun k => f m k) (fun k l => g k (nn * 8 + l))).
      * now rewrite lane_vec by exact Hl.
      * intros k Hk. apply Ha1; lia.
      * intros k l' Hk Hl'. rewrite <- Hb8 by lia. f_equal. lia.
    + apply In_between in Hn. injection E as <- <-. exists m, n. repeat split; try lia.
      apply (row1_ok a b (m * K) (n * K) K HK (fun k => f m k) (fun k => g k n)).
      * intros k Hk. apply Ha1; lia.
      * intros k Hk. apply Hb1; lia.
Qed.

Lemma kernel_covers i j : 0 <= i < M -> 0 <= j < N ->
  In (i * N + j) (map fst (kernel_8x8 rO radd rmul true M K N a b N)).
Proof using All.
  intros Hi Hj.
  enough (exists v, In (i * N + j, v) (kernel_8x8 rO radd rmul true M K N a b N)) as (v & H).
  { apply in_map_iff. exists (i * N + j, v). split; [reflexivity|exact H]. }
  assert (Di : 0 <= i mod 8 < 8 /\ i = i / 8 * 8 + i mod 8) by (Z.to_euclidean_division_equations; lia).
  assert (Dj : 0 <= j mod 8 < 8 /\ j = j / 8 * 8 + j mod 8) by (Z.to_euclidean_division_equations; lia).
  unfold kernel_8x8. cbn [negb].
  destruct (Z_lt_dec i (M / 8 * 8)) as [Li|Li]; destruct (Z_lt_dec j (N / 8 * 8)) as [Lj|Lj].
  - eexists. apply in_or_app. left. apply in_flat_map. exists (i / 8). split; [apply In_upto; Z.to_euclidean_division_equations; lia|].
    apply in_or_app. left. apply in_flat_map. exists (j / 8). split; [apply In_upto; Z.to_euclidean_division_equations; lia|].
    apply in_flat_map. exists (i mod 8). split; [apply In_upto; lia|]. apply in_map_iff. exists (j mod 8). split; [|apply In_upto; lia].
    f_equal. rewrite (proj2 Di) at 3. rewrite (proj2 Dj) at 3. lia.
  - eexists. apply in_or_app. left. apply in_flat_map. exists (i / 8). split; [apply In_upto; Z.to_euclidean_division_equations; lia|].
    apply in_or_app. right. apply in_flat_map. exists j. split; [apply In_between; lia|].
    apply in_map_iff. exists (i mod 8). split; [|apply In_upto; lia]. f_equal. rewrite (proj2 Di) at 3. lia.
  - eexists. apply in_or_app. right. apply in_flat_map. exists i. split; [apply In_between; lia|].
    apply in_or_app. left. apply in_flat_map. exists (j / 8). split; [apply In_upto; Z.to_euclidean_division_equations; lia|].
    apply in_map_iff. exists (j mod 8). split; [|apply In_upto; lia]. f_equal. rewrite (proj2 Dj) at 3. lia.
  - eexists. apply in_or_app. right. apply in_flat_map. exists i. split; [apply In_between; lia|].
    apply in_or_app. right. apply in_map_iff. exists j. split; [reflexivity|apply In_between; lia].
Qed.
End Kernel.

(** ** Packing *)
Section PackA.
Variables (row col lda : Z) (from : Z -> sres R) (f : Z -> Z -> R).
Hypothesis (Hrow : 0 <= row) (Hcol : 0 <= col).
Hypothesis Hfrom : forall i k, 0 <= i < row -> 0 <= k < col -> from (i * lda + k) = SOk (f i k).

Lemma pack_A_8 nn k r : 0 <= nn < row / 8 -> 0 <= k < col -> 0 <= r < 8 ->
  In (nn * 8 * col + (8 * k + r), from ((nn * 8 + r) * lda + k)) (pack8_A row col from lda).
Proof.
  intros H1 H2 H3. apply in_or_app. left. apply in_flat_map. exists nn. split; [now apply In_upto|].
  apply in_flat_map. exists k. split; [now apply In_upto|]. apply in_map_iff. exists r. split; [reflexivity|now apply In_upto].
Qed.
Lemma pack_A_1 m k : row / 8 * 8 <= m < row -> 0 <= k < col ->
  In (m * col + k, from (m * lda + k)) (pack8_A row col from lda).
Proof.
  intros H1 H2. apply in_or_app. right. apply in_flat_map. exists m. split; [now apply In_between|].
  apply in_map_iff. exists k. split; [reflexivity|now apply In_upto].
Qed.

Lemma pack_A_ok : exists data, exec (fresh (row * col)) (pack8_A row col from lda) = SOk (map Some data) /\
  packed_rows row col (read (map Some data)) f.
Proof using All.
  pose proof (between_div_lo row Hrow) as H8.
  destruct (exec_once (row * col) (pack8_A row col from lda)) as (_ & data & E & Hl & Hd).
  - unfold pack8_A. rewrite app_length. rewrite (length_flat_map_const _ _ (Z.to_nat col * 8)%nat).
    2:{ intros x _. rewrite (length_flat_map_const _ _ 8%nat) by (intros; now rewrite map_length). now rewrite length_upto. }
    rewrite (length_flat_map_const _ _ (Z.to_nat col)) by (intros; now rewrite map_length, length_upto).
    unfold between. rewrite map_length, !length_upto. assert (0 <= row / 8) by lia.
    apply Nat2Z.inj. rewrite Nat2Z.inj_add, !Nat2Z.inj_mul, !Z2Nat.id by nia. nia.
  - intros d v Hin. apply in_app_or in Hin. destruct Hin as [Hin|Hin].
    + apply in_flat_map in Hin. destruct Hin as (nn & Hnn & Hin). apply in_flat_map in Hin. destruct Hin as (k & Hk & Hin).
      apply in_map_iff in Hin. destruct Hin as (r & Er & Hr). apply In_upto in Hnn, Hk, Hr. injection Er as <- <-.
      split; [|rewrite Hfrom by lia; eauto]. apply pack_bound8; lia.
    + apply in_flat_map in Hin. destruct Hin as (m & Hm & Hin). apply in_map_iff in Hin. destruct Hin as (k & Ek & Hk).
      apply In_between in Hm. apply In_upto in Hk. injection Ek as <- <-.
      split; [|rewrite Hfrom by lia; eauto]. apply pack_bound1; lia.
  - intros d Hd. assert (Hc : 0 < col) by nia. apply in_map_iff. destruct (Z_lt_dec d (row / 8 * 8 * col)) as [L|L].
    + pose (nn := d / (8 * col)). pose (e := d mod (8 * col)).
      assert (E1 : d = 8 * col * nn + e /\ 0 <= e < 8 * col) by (split; [apply Z.div_mod; lia|apply Z.mod_pos_bound; lia]).
      assert (E2 : e = 8 * (e / 8) + e mod 8 /\ 0 <= e mod 8 < 8) by (split; [apply Z.div_mod; lia|apply Z.mod_pos_bound; lia]).
      eexists. split; [|apply (pack_A_8 nn (e / 8) (e mod 8))]; cbn [fst]; try lia.
      * split; [nia|]. assert (8 * col * nn < row / 8 * 8 * col) by lia. nia.
    + eexists. split; [|apply (pack_A_1 (d / col) (d mod col))]; cbn [fst].
      * pose proof (Z.div_mod d col). lia.
      * split; [apply Z.div_le_lower_bound; lia|]. apply Z.div_lt_upper_bound; lia.
      * apply Z.mod_pos_bound. lia.
  - exists data. split; [exact E|].
    assert (G : forall d v, In (d, SOk v) (pack8_A row col from lda) -> 0 <= d -> read (map Some data) d = SOk v).
    { intros d v Hin H0. unfold read. replace (load (map Some data) d) with (SOk (Some v)); [reflexivity|].
      symmetry. apply load_inv. split; [exact H0|]. apply map_nth_error. now apply Hd. }
    split.
    + intros nn k r H1 H2 H3. apply G; [|nia]. rewrite <- Hfrom by lia. now apply pack_A_8.
    + intros m k H1 H2. apply G; [|nia]. rewrite <- Hfrom by lia. now apply pack_A_1.
Qed.
End PackA.


Section PackB.
Variables (row col ldb : Z) (from : Z -> sres R) (g : Z -> Z -> R).
Hypothesis (Hrow : 0 <= row) (Hcol : 0 <= col).
Hypothesis Hfrom : forall k j, 0 <= k < row -> 0 <= j < col -> from (k * ldb + j) = SOk (g k j).

Lemma pack_B_8 nn k l : 0 <= nn < col / 8 -> 0 <= k < row -> 0 <= l < 8 ->
  In (nn * 8 * row + (8 * k + l), from (nn * 8 + k * ldb + l)) (pack8_B row col from ldb).
Proof.
  intros H1 H2 H3. apply in_or_app. left. apply in_flat_map. exists nn. split; [now apply In_upto|].
  apply in_flat_map. exists k. split; [now apply In_upto|]. apply in_map_iff. exists l. split; [reflexivity|now apply In_upto].
Qed.
Lemma pack_B_1 n k : col / 8 * 8 <= n < col -> 0 <= k < row ->
  In (n * row + k, from (n + k * ldb)) (pack8_B row col from ldb).
Proof.
  intros H1 H2. apply in_or_app. right. apply in_flat_map. exists n. split; [now apply In_between|].
  apply in_map_iff. exists k. split; [reflexivity|now apply In_upto].
Qed.

Lemma pack_B_ok : exists data, exec (fresh (col * row)) (pack8_B row col from ldb) = SOk (map Some data) /\
  packed_cols col row (read (map Some data)) g.
Proof using All.
  pose proof (between_div_lo col Hcol) as H8.
  assert (F8 : forall nn k l, 0 <= nn < col / 8 -> 0 <= k < row -> 0 <= l < 8 -> from (nn * 8 + k * ldb + l) = SOk (g k (nn * 8 + l))).
  { intros nn k l H1 H2 H3. rewrite <- Hfrom by lia. f_equal. lia. }
  assert (F1 : forall n k, col / 8 * 8 <= n < col -> 0 <= k < row -> from (n + k * ldb) = SOk (g k n)).
  { intros n k H1 H2. rewrite <- Hfrom by lia. f_equal. lia. }
  destruct (exec_once (col * row) (pack8_B row col from ldb)) as (_ & data & E & Hl & Hd).
  - unfold pack8_B. rewrite app_length. rewrite (length_flat_map_const _ _ (Z.to_nat row * 8)%nat).
    2:{ intros x _. rewrite (length_flat_map_const _ _ 8%nat) by (intros; now rewrite map_length). now rewrite length_upto. }
    rewrite (length_flat_map_const _ _ (Z.to_nat row)) by (intros; now rewrite map_length, length_upto).
    unfold between. rewrite map_length, !length_upto. assert (0 <= col / 8) by lia.
    apply Nat2Z.inj. rewrite Nat2Z.inj_add, !Nat2Z.inj_mul, !Z2Nat.id by nia. nia.
  - intros d v Hin. apply in_app_or in Hin. destruct Hin as [Hin|Hin].
    + apply in_flat_map in Hin. destruct Hin as (nn & Hnn & Hin). apply in_flat_map in Hin. destruct Hin as (k & Hk & Hin).
      apply in_map_iff in Hin. destruct Hin as (r & Er & Hr). apply In_upto in Hnn, Hk, Hr. injection Er as <- <-.
      split; [|rewrite F8 by lia; eauto]. apply pack_bound8; lia.
    + apply in_flat_map in Hin. destruct Hin as (m & Hm & Hin). apply in_map_iff in Hin. destruct Hin as (k & Ek & Hk).
      apply In_between in Hm. apply In_upto in Hk. injection Ek as <- <-.
      split; [|rewrite F1 by lia; eauto]. apply pack_bound1; lia.
  - intros d Hd. assert (Hc : 0 < row) by nia. apply in_map_iff. destruct (Z_lt_dec d (col / 8 * 8 * row)) as [L|L].
    + pose (nn := d / (8 * row)). pose (e := d mod (8 * row)).
      assert (E1 : d = 8 * row * nn + e /\ 0 <= e < 8 * row) by (split; [apply Z.div_mod; lia|apply Z.mod_pos_bound; lia]).
      assert (E2 : e = 8 * (e / 8) + e mod 8 /\ 0 <= e mod 8 < 8) by (split; [apply Z.div_mod; lia|apply Z.mod_pos_bound; lia]).
      eexists. split; [|apply (pack_B_8 nn (e / 8) (e mod 8))]; cbn [fst]; try lia.
      * split; [nia|]. assert (8 * row * nn < col / 8 * 8 * row) by lia. nia.
    + eexists. split; [|apply (pack_B_1 (d / row) (d mod row))]; cbn [fst].
      * pose proof (Z.div_mod d row). lia.
      * split; [apply Z.div_le_lower_bound; lia|]. apply Z.div_lt_upper_bound; lia.
      * apply Z.mod_pos_bound. lia.
  - exists data. split; [exact E|].
    assert (G : forall d v, In (d, SOk v) (pack8_B row col from ldb) -> 0 <= d -> read (map Some data) d = SOk v).
    { intros d v Hin H0. unfold read. replace (load (map Some data) d) with (SOk (Some v)); [reflexivity|].
      symmetry. apply load_inv. split; [exact H0|]. apply map_nth_error. now apply Hd. }
    split.
    + intros nn k r H1 H2 H3. apply G; [|nia]. rewrite <- F8 by lia. now apply pack_B_8.
    + intros m k H1 H2. apply G; [|nia]. rewrite <- F1 by lia. now apply pack_B_1.
Qed.
End PackB.

End Proofs.
