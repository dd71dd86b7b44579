(** Model of the matrix products of src/kernels/cpu/math_cpu.cpp: the plain
    gemm (31-247) and the packed one (249-776).

    Simplifications: the numbers are abstract, with exact operations (the
    theorems take any commutative semiring; rounding is not modelled), and the
    input and output types hold the same numbers; the vector instructions are
    their portable definitions (simd_base_def.h); moving pointers are written
    as a start plus a multiple of the loop variable; loops shared among
    threads run in order (their iterations write to different places);
    [n >> 3] is [n / 8]. *)
From Coq Require Import List ZArith Bool.
From Verif Require Import ShapeModel KernelBase EltwiseModel.
Import ListNotations.
Local Open Scope Z_scope.

(** for (int i = lo; i < hi; ++i) *)
Definition between (lo hi : Z) : list Z := map (fun i => lo + i) (upto (hi - lo)).

(** a loop that can fail *)
Fixpoint foldM {S X} (f : S -> X -> sres S) (s : S) (l : list X) : sres S :=
  match l with
  | [] => SOk s
  | x :: rest => match f s x with SOk s' => foldM f s' rest | SErr => SErr | SUndef => SUndef end
  end.

Fixpoint each {A} (l : list (sres A)) : sres (list A) :=
  match l with
  | [] => SOk []
  | SOk a :: rest => lift1 (cons a) (each rest)
  | SErr :: _ => SErr
  | SUndef :: _ => SUndef
  end.

(** a loop over [k] unrolled four times, and the loop over what is left:
    34-42, 423-520, 640-670 *)
Definition by_four (K : Z) : list Z :=
  flat_map (fun kk => [4 * kk; 4 * kk + 1; 4 * kk + 2; 4 * kk + 3]) (upto (K / 4)) ++ between (K / 4 * 4) K.

(** reading a buffer that a kernel has filled: an element that was never
    written is not a number *)
Definition read {A} (m : list (option A)) (i : Z) : sres A :=
  match load m i with SOk (Some a) => SOk a | _ => SUndef end.

Section Gemm.
Context {R : Type} (rO rI : R) (radd rmul : R -> R -> R).
(** ts::near, include/kernels/common/math.h 14-29 *)
Variable near : R -> R -> bool.

(** ** Vectors *)
Definition fmadd (a b c : list R) : list R :=
  map (fun p => radd (rmul (fst p) (fst (snd p))) (snd (snd p))) (combine a (combine b c)).
Definition vadd (a b : list R) : list R := map (fun p => radd (fst p) (snd p)) (combine a b).
Definition vload (rd : Z -> sres R) (n i : Z) : sres (list R) := each (map (fun l => rd (i + l)) (upto n)).
Definition vbroadcast (rd : Z -> sres R) (n i : Z) : sres (list R) := lift1 (fun a => repeat a (Z.to_nat n)) (rd i).
Definition vzero (n : Z) : list R := repeat rO (Z.to_nat n).
Definition vsum (a : list R) : R := fold_left radd a rO.
Definition lane {A} (v : sres (list A)) (l : Z) : sres A :=
  match v with SOk v => load v l | SErr => SErr | SUndef => SUndef end.
Definition fmaddM (a b : sres (list R)) (c : list R) : sres (list R) := lift2 (fun a b => fmadd a b c) a b.

(** ** Packing *)

(** 249-296: the rows in groups of eight, each group column by column; the
    other rows as they are *)
Definition pack8_A (row col : Z) (from : Z -> sres R) (lda : Z) : list (event R) :=
  flat_map (fun nn => flat_map (fun i => map (fun r =>
    (nn * 8 * col + (8 * i + r), from ((nn * 8 + r) * lda + i))) (upto 8)) (upto col)) (upto (row / 8)) ++
  flat_map (fun n => map (fun i => (n * col + i, from (n * lda + i))) (upto col)) (between (row / 8 * 8) row).

(** 298-374: the columns in groups of eight, each group row by row; the
    other columns one after the other *)
Definition pack8_B (row col : Z) (from : Z -> sres R) (ldb : Z) : list (event R) :=
  flat_map (fun nn => flat_map (fun i => map (fun l =>
    (nn * 8 * row + (8 * i + l), from (nn * 8 + i * ldb + l))) (upto 8)) (upto row)) (upto (col / 8)) ++
  flat_map (fun n => map (fun i => (n * row + i, from (n + i * ldb))) (upto row)) (between (col / 8 * 8) col).

(** ** The packed product, 385-731 *)

(** one [k] of the 8x8 block: 428-444 and the same for the other [k]:
    c_r = fmadd(a0, k_r, c_r) *)
Definition step8 (a b : Z -> sres R) (A_at B_at : Z) (c : list (list R)) (k : Z) : sres (list (list R)) :=
  each (map (fun rc => fmaddM (vload b 8 (B_at + 8 * k)) (vbroadcast a 8 (A_at + 8 * k + fst rc)) (snd rc))
            (combine (upto 8) c)).
(** 412-546: eight rows of eight sums *)
Definition block8 (a b : Z -> sres R) (A_at B_at K : Z) : sres (list (list R)) :=
  foldM (step8 a b A_at B_at) (repeat (vzero 8) 8) (by_four K).

(** 564-583: four vectors of partial sums *)
Definition col_step (a b : Z -> sres R) (A_at B_at : Z) (s : list (list R)) (kk : Z) : sres (list (list R)) :=
  each (map (fun js => fmaddM (vload a 8 (A_at + 32 * kk + 8 * fst js)) (vbroadcast b 8 (B_at + 4 * kk + fst js)) (snd js))
            (combine (upto 4) s)).
(** 558-599: eight rows of one column *)
Definition col8 (a b : Z -> sres R) (A_at B_at K : Z) : sres (list R) :=
  match foldM (col_step a b A_at B_at) (repeat (vzero 8) 4) (upto (K / 4)) with
  | SOk [s0; s1; s2; s3] =>
      let sum_col := vadd (vadd (vzero 8) (vadd s0 s1)) (vadd s2 s3) in
      foldM (fun c k => fmaddM (vload a 8 (A_at + 8 * k)) (vbroadcast b 8 (B_at + k)) c) sum_col (between (K / 4 * 4) K)
  | SOk _ => SUndef
  | SErr => SErr
  | SUndef => SUndef
  end.

(** 630-672: one row of eight columns *)
Definition row8 (a b : Z -> sres R) (A_at B_at K : Z) : sres (list R) :=
  foldM (fun c k => fmaddM (vbroadcast a 8 (A_at + k)) (vload b 8 (B_at + 8 * k)) c) (vzero 8) (by_four K).

(** 680-711: one element *)
Definition row1 (a b : Z -> sres R) (A_at B_at K : Z) : sres R :=
  match foldM (fun c kk => fmaddM (vload a 4 (A_at + 4 * kk)) (vload b 4 (B_at + 4 * kk)) c) (vzero 4) (upto (K / 4)) with
  | SOk c0 =>
      foldM (fun sum k => lift2 (fun x y => radd sum (rmul x y)) (a (A_at + k)) (b (B_at + k))) (vsum c0) (between (K / 4 * 4) K)
  | SErr => SErr
  | SUndef => SUndef
  end.

(** 385-731 for float; the other types have an empty body (380-383) *)
Definition kernel_8x8 (is_float : bool) (M K N : Z) (a b : Z -> sres R) (ldc : Z) : list (event R) :=
  if negb is_float then [] else
  flat_map (fun mm =>
    let m := mm * 8 in
    flat_map (fun nn =>
      let n := nn * 8 in
      let c := block8 a b (m * K) (n * K) K in
      flat_map (fun r => map (fun l => ((m + r) * ldc + n + l, lane (lane c r) l)) (upto 8)) (upto 8)) (upto (N / 8)) ++
    flat_map (fun n =>
      let c := col8 a b (m * K) (n * K) K in
      map (fun r => ((m + r) * ldc + n, lane c r)) (upto 8)) (between (N / 8 * 8) N)) (upto (M / 8)) ++
  flat_map (fun m =>
    flat_map (fun nn =>
      let n := nn * 8 in
      let c := row8 a b (m * K) (n * K) K in
      map (fun l => (m * ldc + n + l, lane c l)) (upto 8)) (upto (N / 8)) ++
    map (fun n => (m * ldc + n, row1 a b (m * K) (n * K) K)) (between (N / 8 * 8) N)) (between (M / 8 * 8) M).

(** 747-776: the stores to C, which has [N] columns; [a] and [b] read the
    operands; the packed copies are new memory (733-745) *)
Definition packed_gemm (is_float : bool) (M N K : Z) (alpha : R) (a b : Z -> sres R) (beta : R)
    (A_need_pack B_need_pack : bool) : sres (list (event R)) :=
  if negb (near alpha rI) || negb (near beta rO) then SErr else
  let pa := if A_need_pack then lift1 read (exec (fresh (M * K)) (pack8_A M K a K)) else SOk a in
  let pb := if B_need_pack then lift1 read (exec (fresh (N * K)) (pack8_B K N b N)) else SOk b in
  match pa, pb with
  | SOk a', SOk b' => SOk (kernel_8x8 is_float M K N a' b' N)
  | _, _ => SUndef
  end.

(** ** The plain product *)

(** 29-77: the sum in one variable, or (float with vectors) in four lanes *)
Definition inline_dot (vec : bool) (N : Z) (x : Z -> sres R) (x0 incx : Z) (y : Z -> sres R) (y0 incy : Z) : sres R :=
  let add := fun sum k => lift2 (fun a b => radd sum (rmul a b)) (x (x0 + k * incx)) (y (y0 + k * incy)) in
  if vec then
    match foldM (fun c i => fmaddM (each (map (fun l => x (x0 + (4 * i + l) * incx)) (upto 4)))
                                   (each (map (fun l => y (y0 + (4 * i + l) * incy)) (upto 4))) c)
                (vzero 4) (upto (N / 4)) with
    | SOk c => foldM add (vsum c) (between (N / 4 * 4) N)
    | SErr => SErr
    | SUndef => SUndef
    end
  else foldM add rO (by_four N).

(** 79-122, with incx = 1: [n] elements from [at] *)
Definition inline_scal (n : Z) (alpha : R) (at_ : Z) : list (instr R) :=
  if near alpha rI then []
  else if near alpha rO then map (fun i => Put (at_ + i) (SOk rO)) (upto n)
  else map (fun i => Upd (at_ + i) (SOk (fun x => rmul x alpha))) (upto n).

(** 138-210; [None] is a failed check *)
Definition gemm_row_major (vec transA transB : bool) (M N K : Z) (alpha : R) (a : Z -> sres R) (lda : Z)
    (b : Z -> sres R) (ldb : Z) (beta : R) (ldc : Z) : option (list (instr R)) :=
  if negb (((if transA then M else K) <=? lda) && ((if transB then K else N) <=? ldb) && (N <=? ldc)) then None else
  let scal := if ldc =? N then inline_scal (M * N) beta 0
              else flat_map (fun m => inline_scal N beta (m * ldc)) (upto M) in
  if near alpha rO then Some scal else
  Some (scal ++
    flat_map (fun i => map (fun j =>
      let dot := match transA, transB with
                 | false, false => inline_dot vec K a (i * lda) 1 b j ldb
                 | true, false => inline_dot vec K a i lda b j ldb
                 | false, true => inline_dot vec K a (i * lda) 1 b (j * ldb) 1
                 | true, true => inline_dot vec K a i lda b (j * ldb) 1
                 end in
      Upd (i * ldc + j) (lift1 (fun d c => radd c (rmul alpha d)) dot)) (upto N)) (upto M)).

(** 212-247 *)
Definition gemm (vec col_major transA transB : bool) (M N K : Z) (alpha : R) (a : Z -> sres R) (lda : Z)
    (b : Z -> sres R) (ldb : Z) (beta : R) (c : list (option R)) (ldc : Z) : sres (list (option R)) :=
  match (if col_major then gemm_row_major vec transB transA N M K alpha b ldb a lda beta ldc
         else gemm_row_major vec transA transB M N K alpha a lda b ldb beta ldc) with
  | Some p => exec_instrs c p
  | None => SErr
  end.
End Gemm.
