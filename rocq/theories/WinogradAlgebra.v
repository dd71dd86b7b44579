(** The identities behind Winograd's method. *)
From Coq Require Import List ZArith Bool Lia Ring Field.
From Verif Require Import KernelBase GemmSpec WinogradModel.
Import ListNotations.
Local Open Scope Z_scope.

Section Algebra.
Context {R : Type} (rO rI : R) (radd rmul rsub rdiv : R -> R -> R) (ropp rinv : R -> R).
Hypothesis Fth : field_theory rO rI radd rmul rsub ropp rdiv rinv eq.
Local Notation "a +! b" := (radd a b) (at level 50, left associativity).
Local Notation "a -! b" := (rsub a b) (at level 50, left associativity).
Local Notation "a *! b" := (rmul a b) (at level 40, left associativity).
Local Notation num := (num rI radd rmul).
Hypothesis nz2 : num 2 <> rO.
Hypothesis nz3 : num 3 <> rO.
Hypothesis nz5 : num 5 <> rO.
Add Field RF : Fth.

Lemma nz_mul a b : a <> rO -> b <> rO -> a *! b <> rO.
Proof using Fth.
  intros Ha Hb H. apply Ha. transitivity (a *! b *! rinv b); [field; exact Hb|]. rewrite H. ring.
Qed.
Lemma nz4 : num 4 <> rO.
Proof using All. replace (num 4) with (num 2 *! num 2) by (cbn; ring). now apply nz_mul. Qed.
Lemma nz9 : num 9 <> rO.
Proof using All. replace (num 9) with (num 3 *! num 3) by (cbn; ring). now apply nz_mul. Qed.
Lemma nz45 : num 45 <> rO.
Proof using All. replace (num 45) with (num 5 *! num 9) by (cbn; ring). apply nz_mul; [exact nz5|exact nz9]. Qed.
Lemma nz90 : num 90 <> rO.
Proof using All. replace (num 90) with (num 2 *! num 45) by (cbn; ring). apply nz_mul; [exact nz2|exact nz45]. Qed.
Lemma nz180 : num 180 <> rO.
Proof using All. replace (num 180) with (num 2 *! num 90) by (cbn; ring). apply nz_mul; [exact nz2|exact nz90]. Qed.

Ltac nz := match goal with
  | |- ?x <> rO => intros HH;
     first [ apply nz2; rewrite <- HH; cbn; ring | apply nz4; rewrite <- HH; cbn; ring | apply nz9; rewrite <- HH; cbn; ring
           | apply nz45; rewrite <- HH; cbn; ring | apply nz90; rewrite <- HH; cbn; ring | apply nz180; rewrite <- HH; cbn; ring
           | apply nz3; rewrite <- HH; cbn; ring| apply nz5; rewrite <- HH; cbn; ring]
  end.
Ltac nzs := repeat match goal with |- _ /\ _ => split end; try nz.

Lemma cases2 (P : Z -> Prop) : P 0 -> P 1 -> forall i, 0 <= i < 2 -> P i.
Proof. intros. assert (i = 0 \/ i = 1) as [->| ->] by lia; assumption. Qed.
Lemma cases4 (P : Z -> Prop) : P 0 -> P 1 -> P 2 -> P 3 -> forall i, 0 <= i < 4 -> P i.
Proof. intros. assert (i = 0 \/ i = 1 \/ i = 2 \/ i = 3) as [->|[->|[->| ->]]] by lia; assumption. Qed.
Lemma cases6 (P : Z -> Prop) : P 0 -> P 1 -> P 2 -> P 3 -> P 4 -> P 5 -> forall i, 0 <= i < 6 -> P i.
Proof. intros. assert (i = 0 \/ i = 1 \/ i = 2 \/ i = 3 \/ i = 4 \/ i = 5) as [->|[->|[->|[->|[->| ->]]]]] by lia; assumption. Qed.
Lemma cases8 (P : Z -> Prop) : P 0 -> P 1 -> P 2 -> P 3 -> P 4 -> P 5 -> P 6 -> P 7 -> forall i, 0 <= i < 8 -> P i.
Proof. intros. assert (i = 0 \/ i = 1 \/ i = 2 \/ i = 3 \/ i = 4 \/ i = 5 \/ i = 6 \/ i = 7) as [->|[->|[->|[->|[->|[->|[->| ->]]]]]]] by lia; assumption. Qed.

Local Notation g23 := (g23 rO rI radd rmul rdiv ropp).
Local Notation b23 := (b23 rO radd rsub).
Local Notation a23 := (a23 rO radd rsub).
Local Notation g63 := (g63 rO rI radd rmul rdiv ropp).
Local Notation b63_row := (b63_row rO rI radd rmul rsub rdiv).
Local Notation b63_col := (b63_col rO rI radd rmul rsub rdiv).
Local Notation a63 := (a63 rO rI radd rmul rsub).

Ltac unf := unfold WinogradModel.g23, WinogradModel.b23, WinogradModel.a23, WinogradModel.g63, WinogradModel.b63_row,
  WinogradModel.b63_col, WinogradModel.a63, g_row, quot, table;
  change (Z.to_nat 0) with 0%nat; change (Z.to_nat 1) with 1%nat; change (Z.to_nat 2) with 2%nat; change (Z.to_nat 3) with 3%nat;
  change (Z.to_nat 4) with 4%nat; change (Z.to_nat 5) with 5%nat; change (Z.to_nat 6) with 6%nat; change (Z.to_nat 7) with 7%nat;
  cbn [nth map].

Lemma identity23 u v m : 0 <= m < 2 ->
  a23 (fun j => g23 u j *! b23 v j) m = u 0 *! v m +! u 1 *! v (m + 1) +! u 2 *! v (m + 2).
Proof using All.
  revert m. apply cases2; unf; cbn [Z.add Pos.add Pos.succ]; cbn [WinogradModel.num]; field; nzs.
Qed.

Lemma identity63 u v m : 0 <= m < 6 ->
  a63 (fun j => g63 u j *! b63_row v j) m = u 0 *! v m +! u 1 *! v (m + 1) +! u 2 *! v (m + 2).
Proof using All.
  revert m. apply cases6; unf; cbn [Z.add Pos.add Pos.succ]; cbn [WinogradModel.num]; field; nzs.
Qed.

(** the transforms depend on the numbers of their tile only *)
Lemma g23_ext u u' i : (forall q, 0 <= q < 3 -> u q = u' q) -> g23 u i = g23 u' i.
Proof. intros H. unf. now rewrite !H by lia. Qed.
Lemma g63_ext u u' i : (forall q, 0 <= q < 3 -> u q = u' q) -> g63 u i = g63 u' i.
Proof. intros H. unf. now rewrite !H by lia. Qed.
Lemma b23_ext u u' i : (forall q, 0 <= q < 4 -> u q = u' q) -> b23 u i = b23 u' i.
Proof. intros H. unf. now rewrite !H by lia. Qed.
Lemma b63r_ext u u' i : (forall q, 0 <= q < 8 -> u q = u' q) -> b63_row u i = b63_row u' i.
Proof. intros H. unf. now rewrite !H by lia. Qed.
Lemma b63c_ext u u' i : (forall q, 0 <= q < 8 -> u q = u' q) -> b63_col u i = b63_col u' i.
Proof. intros H. unf. now rewrite !H by lia. Qed.
Lemma a23_ext u u' i : (forall q, 0 <= q < 4 -> u q = u' q) -> a23 u i = a23 u' i.
Proof. intros H. unf. now rewrite !H by lia. Qed.
Lemma a63_ext u u' i : (forall q, 0 <= q < 8 -> u q = u' q) -> a63 u i = a63 u' i.
Proof. intros H. unf. now rewrite !H by lia. Qed.

(** rows first or columns first *)
Lemma g23_swap (k : Z -> Z -> R) : forall i, 0 <= i < 4 -> forall j, 0 <= j < 4 ->
  g23 (fun r => g23 (k r) j) i = g23 (fun q => g23 (fun r => k r q) i) j.
Proof using Fth.
  apply (cases4 (fun i => forall j, 0 <= j < 4 -> g23 (fun r => g23 (k r) j) i = g23 (fun q => g23 (fun r => k r q) i) j)); apply cases4; unf; ring.
Qed.
Lemma g63_swap (k : Z -> Z -> R) : forall i, 0 <= i < 8 -> forall j, 0 <= j < 8 ->
  g63 (fun r => g63 (k r) j) i = g63 (fun q => g63 (fun r => k r q) i) j.
Proof using Fth.
  apply (cases8 (fun i => forall j, 0 <= j < 8 -> g63 (fun r => g63 (k r) j) i = g63 (fun q => g63 (fun r => k r q) i) j)); apply cases8; unf; ring.
Qed.

Lemma b63_same v : forall i, 0 <= i < 8 -> b63_col v i = b63_row v i.
Proof using Fth. apply cases8; unf; ring. Qed.

(** the matrix of the input transform *)
Definition b63_entry (i r : Z) : R := b63_row (fun s => if s =? r then rI else rO) i.
Lemma b63_entries v : forall i, 0 <= i < 8 -> b63_row v i =
  b63_entry i 0 *! v 0 +! b63_entry i 1 *! v 1 +! b63_entry i 2 *! v 2 +! b63_entry i 3 *! v 3 +!
  b63_entry i 4 *! v 4 +! b63_entry i 5 *! v 5 +! b63_entry i 6 *! v 6 +! b63_entry i 7 *! v 7.
Proof using Fth. apply cases8; unfold b63_entry; unf; cbn [Z.eqb Pos.eqb]; ring. Qed.
Lemma b63_linear c0 c1 c2 c3 c4 c5 c6 c7 (d : Z -> Z -> R) : forall j, 0 <= j < 8 ->
  b63_row (fun s => c0 *! d 0 s +! c1 *! d 1 s +! c2 *! d 2 s +! c3 *! d 3 s +! c4 *! d 4 s +! c5 *! d 5 s +! c6 *! d 6 s +! c7 *! d 7 s) j =
  c0 *! b63_row (d 0) j +! c1 *! b63_row (d 1) j +! c2 *! b63_row (d 2) j +! c3 *! b63_row (d 3) j +!
  c4 *! b63_row (d 4) j +! c5 *! b63_row (d 5) j +! c6 *! b63_row (d 6) j +! c7 *! b63_row (d 7) j.
Proof using Fth. apply cases8; unf; ring. Qed.
Lemma b63_swap (d : Z -> Z -> R) i j : 0 <= i < 8 -> 0 <= j < 8 ->
  b63_col (fun r => b63_row (d r) j) i = b63_row (fun s => b63_row (fun r => d r s) i) j.
Proof using Fth.
  intros Hi Hj. rewrite b63_same by exact Hi. rewrite (b63_entries (fun r => b63_row (d r) j) i Hi).
  rewrite <- b63_linear by exact Hj. apply b63r_ext. intros s Hs. symmetry. now apply (b63_entries (fun r => d r s)).
Qed.

(** sums through the output transforms *)
Lemma a23_add f g m : a23 (fun j => f j +! g j) m = a23 f m +! a23 g m.
Proof using Fth. unf. destruct (Z.to_nat m) as [|[|k]]; cbn [nth]; [ring|ring|]. destruct k; ring. Qed.
Lemma a63_add f g m : a63 (fun j => f j +! g j) m = a63 f m +! a63 g m.
Proof using Fth. unf. destruct (Z.to_nat m) as [|[|[|[|[|[|k]]]]]]; cbn [nth]; [ring..|]. destruct k; ring. Qed.
Lemma a23_zero m : a23 (fun _ => rO) m = rO.
Proof using Fth. unf. destruct (Z.to_nat m) as [|[|k]]; cbn [nth]; [ring|ring|]. destruct k; ring. Qed.
Lemma a63_zero m : a63 (fun _ => rO) m = rO.
Proof using Fth. unf. destruct (Z.to_nat m) as [|[|[|[|[|[|k]]]]]]; cbn [nth]; [ring..|]. destruct k; ring. Qed.

Local Notation sum_of := (sum_of rO radd).

(** both methods in one statement: the three transforms of a tile undo each
    other to a sum over the kernel *)
Definition tile_identity (t : Z) (g b a : (Z -> R) -> Z -> R) : Prop :=
  (forall u v m, 0 <= m < t -> a (fun j => g u j *! b v j) m = u 0 *! v m +! u 1 *! v (m + 1) +! u 2 *! v (m + 2)) /\
  (forall f g m, (forall q, 0 <= q < t + 2 -> f q = g q) -> a f m = a g m) /\
  (forall f g m, a (fun j => f j +! g j) m = a f m +! a g m) /\
  (forall m, a (fun _ => rO) m = rO).

Lemma a_sum t g b a : tile_identity t g b a -> forall n (f : Z -> Z -> R) m,
  a (fun j => sum_of n (fun c => f c j)) m = sum_of n (fun c => a (f c) m).
Proof.
  intros (_ & E & A & Z0) n f m. unfold GemmSpec.sum_of. induction (upto n) as [|c l IH]; cbn [fold_right]; [apply Z0|].
  rewrite <- IH. rewrite <- A. apply E. reflexivity.
Qed.

(** the two-dimensional identity, for kernels and tiles in any order *)
Lemma two_dim t g b a : tile_identity t g b a -> forall (k d : Z -> Z -> R) y x, 0 <= y < t -> 0 <= x < t ->
  a (fun i => a (fun j => g (fun q => g (fun r => k r q) i) j *! b (fun s => b (fun r => d r s) i) j) x) y =
  sum_of 3 (fun p => sum_of 3 (fun q => k p q *! d (y + p) (x + q))).
Proof using Fth.
  intros (I & E & A & _) k d y x Hy Hx.
  rewrite (E _ (fun i => g (fun r => k r 0) i *! b (fun r => d r x) i +! g (fun r => k r 1) i *! b (fun r => d r (x + 1)) i
                         +! g (fun r => k r 2) i *! b (fun r => d r (x + 2)) i)).
  2:{ intros i Hi. now rewrite I. }
  rewrite A, A. rewrite !I by exact Hy. unfold GemmSpec.sum_of. change (upto 3) with [0; 1; 2]. cbn [fold_right]. rewrite !Z.add_0_r. ring.
Qed.

Theorem tiles m n (k d : Z -> Z -> Z -> R) y x : 0 <= y < tile m -> 0 <= x < tile m ->
  output_tile rO rI radd rmul rsub m (fun i j => sum_of n (fun c =>
     kernel_tile rO rI radd rmul rdiv ropp m (k c) i j *! input_tile rO rI radd rmul rsub rdiv m (d c) i j)) y x =
  sum_of n (fun c => sum_of 3 (fun p => sum_of 3 (fun q => k c p q *! d c (y + p) (x + q)))).
Proof using All.
  intros Hy Hx. destruct m; cbn [tile] in Hy, Hx; cbn [output_tile kernel_tile input_tile].
  - assert (T : tile_identity 2 g23 b23 a23).
    { split; [exact identity23|]. split; [exact a23_ext|]. split; [exact a23_add|exact a23_zero]. }
    rewrite (a23_ext _ (fun i => sum_of n (fun c => a23 (fun j => g23 (fun q => g23 (fun r => k c r q) i) j *! b23 (fun s => b23 (fun r => d c r s) i) j) x))).
    2:{ intros i Hi. rewrite <- (a_sum _ _ _ _ T). apply a23_ext. intros j Hj. unfold GemmSpec.sum_of.
        induction (upto n) as [|c l IH]; cbn [fold_right]; [reflexivity|]. rewrite IH. do 2 f_equal. now apply g23_swap. }
    rewrite (a_sum _ _ _ _ T). unfold GemmSpec.sum_of at 1 2. induction (upto n) as [|c l IH]; cbn [fold_right]; [reflexivity|].
    rewrite IH. f_equal. now apply (two_dim 2 g23 b23 a23 T (k c) (d c)).
  - assert (T : tile_identity 6 g63 b63_row a63).
    { split; [exact identity63|]. split; [exact a63_ext|]. split; [exact a63_add|exact a63_zero]. }
    rewrite (a63_ext _ (fun i => sum_of n (fun c => a63 (fun j => g63 (fun q => g63 (fun r => k c r q) i) j *! b63_row (fun s => b63_row (fun r => d c r s) i) j) x))).
    2:{ intros i Hi. rewrite <- (a_sum _ _ _ _ T). apply a63_ext. intros j Hj. unfold GemmSpec.sum_of.
        induction (upto n) as [|c l IH]; cbn [fold_right]; [reflexivity|]. rewrite IH. f_equal.
        rewrite g63_swap by assumption. now rewrite b63_swap by assumption. }
    rewrite (a_sum _ _ _ _ T). unfold GemmSpec.sum_of at 1 2. induction (upto n) as [|c l IH]; cbn [fold_right]; [reflexivity|].
    rewrite IH. f_equal. now apply (two_dim 6 g63 b63_row a63 T (k c) (d c)).
Qed.
End Algebra.
