(** Sums and matrices. *)
From Coq Require Import List ZArith.
From Verif Require Import KernelBase.
Import ListNotations.
Local Open Scope Z_scope.

Section Sums.
Context {R : Type} (rO : R) (radd rmul : R -> R -> R).

(** f 0 + f 1 + ... + f (n - 1) *)
Definition sum_of (n : Z) (f : Z -> R) : R := fold_right (fun k s => radd (f k) s) rO (upto n).

(** the entry in row [i] and column [j] of the product of an [_ x K] and a
    [K x _] matrix *)
Definition product (K : Z) (a b : Z -> Z -> R) (i j : Z) : R := sum_of K (fun k => rmul (a i k) (b k j)).
End Sums.

(** the entry at row [i] and column [j] of a matrix stored row after row,
    with [cols] columns *)
Definition entry {R} (data : list R) (cols i j : Z) (v : R) : Prop :=
  nth_error data (Z.to_nat (i * cols + j)) = Some v.

(** [data] holds a [rows x cols] matrix, row after row *)
Definition matrix {R} (data : list R) (rows cols : Z) (f : Z -> Z -> R) : Prop :=
  Z.of_nat (length data) = rows * cols /\
  forall i j, 0 <= i < rows -> 0 <= j < cols -> entry data cols i j (f i j).

(** ** Matrices with a leading dimension, as in BLAS *)

(** where entry (i, j) is *)
Definition place (col_major : bool) (ld i j : Z) : Z := if col_major then j * ld + i else i * ld + j.

(** the leading dimension is at least the length of a line *)
Definition ld_ok (col_major : bool) (rows cols ld : Z) : Prop := if col_major then rows <= ld else cols <= ld.

(** [data] holds [f], a [rows x cols] matrix *)
Definition holds {X} (col_major : bool) (data : list X) (rows cols ld : Z) (f : Z -> Z -> X) : Prop :=
  forall i j, 0 <= i < rows -> 0 <= j < cols ->
    nth_error data (Z.to_nat (place col_major ld i j)) = Some (f i j).

(** the matrix, or its transpose *)
Definition op {X} (trans : bool) (f : Z -> Z -> X) (i j : Z) : X := if trans then f j i else f i j.
