(** Model of the pack option's rewriting of gemm into inner_prod, mul and add:
    PackTranslatorOption::translate, src/compiler/option/pack_translator_option.cpp
    59-141, with matrix_transpose (src/kernels/cpu/math_cpu.cpp 784-791).  The other
    rewritings of this option are in TransRulesModel (C31); the operators are those
    of GemmOpModel and EltwiseModel.

    Simplifications: the numbers are abstract and exact; alpha and beta are scalars
    of one element, of the type [scale_type]; the stores of the transposition, which
    go to consecutive places, are written as the list of what they store; that
    alpha is near to 1 and beta near to 0 are tests of their own. *)
From Coq Require Import List ZArith Bool.
From Verif Require Import ShapeModel KernelBase EltwiseModel GemmModel ConvModel GemmOpModel.
Import ListNotations.
Local Open Scope Z_scope.

(** what the rule reads of a gemm node *)
Record gemm_node (R : Type) := GemmNode {
  alpha : R; beta : R; scale_type : Z; transA : bool; transB : bool;
  constA : option (tensor R); (* the value, if the first input is a constant *)
  constB : option (tensor R);
  same : bool                 (* the first two inputs are one node *)
}.
Arguments GemmNode {R}. Arguments alpha {R}. Arguments beta {R}. Arguments scale_type {R}. Arguments transA {R}. Arguments transB {R}.
Arguments constA {R}. Arguments constB {R}. Arguments same {R}.

(** inner_prod(A, B), multiplied by alpha or not, with beta * C added or not; the
    values the constants have now *)
Record rewritten (R : Type) := Rewritten { with_alpha : bool; with_beta : bool; newA : option (tensor R); newB : option (tensor R) }.
Arguments Rewritten {R}. Arguments with_alpha {R}. Arguments with_beta {R}. Arguments newA {R}. Arguments newB {R}.

Section GemmPack.
Context {R : Type} (rO rI : R) (radd rmul : R -> R -> R).
Variable near : R -> R -> bool.
(** near(beta, 0) and near(alpha, 1) *)
Variables near_zero near_one : R -> bool.
Variable cast : Z -> Z -> R -> R.

(** 80-93 and math_cpu.cpp 784-791: [m] rows of [n] become [n] rows of [m] *)
Definition transposed (t : tensor R) : sres (tensor R) :=
  match t_shape t with
  | m :: n :: _ =>
      if negb (t_dtype t =? 10) then SErr else
      bind (each (flat_map (fun i => map (fun j => load (t_data t) (j * n + i)) (upto m)) (upto n))) (fun data =>
      SOk (Tn (t_dtype t) [n; m] data))
  | _ => SUndef
  end.

(** 59-141; [SOk None]: the node stays a gemm.  The constants are changed in place *)
Definition pack_gemm (g : gemm_node R) : sres (option (rewritten R)) :=
  match constA g with
  | None => if transA g then SOk None else
      bind (match constB g with Some b => if transB g then bind (transposed b) (fun b' => SOk (Some b')) else SOk (Some b) | None => SOk None end) (fun b' =>
      SOk (Some (Rewritten (negb (near_one (alpha g))) (negb (near_zero (beta g))) None b')))
  | Some a =>
      bind (if transA g then transposed a else SOk a) (fun a' =>
      bind (match (if same g then Some a' else constB g) with
            | Some b => if transB g then bind (transposed b) (fun b' => SOk (Some b')) else SOk (Some b)
            | None => SOk None
            end) (fun b' =>
      SOk (Some (Rewritten (negb (near_one (alpha g))) (negb (near_zero (beta g))) (if same g then b' else Some a') b'))))
  end.

(** a tensor all of whose elements have been written *)
Definition settled (t : raw_tensor R) : sres (tensor R) :=
  bind (each (map (fun v => match v with Some x => SOk x | None => SUndef end) (t_data t))) (fun data => SOk (Tn (t_dtype t) (t_shape t) data)).
Definition mul_ (l r : tensor R) : sres (tensor R) := bind (eltwise_run (mul_kernel rmul) cast l r) settled.
Definition add_ (l r : tensor R) : sres (tensor R) := bind (eltwise_run (add_kernel radd) cast l r) settled.

(** the nodes that replace the gemm (110-139), run *)
Definition run_rewritten (g : gemm_node R) (p : rewritten R) (A B C : tensor R) : sres (tensor R) :=
  let or_else (c : option (tensor R)) t := match c with Some v => v | None => t end in
  bind (bind (inner_prod rO rI radd rmul near false false (or_else (newA p) A) (or_else (newB p) B)) settled) (fun y =>
  bind (if with_alpha p then mul_ (Tn (scale_type g) [] [alpha g]) y else SOk y) (fun y =>
  if with_beta p then bind (mul_ (Tn (scale_type g) [] [beta g]) C) (fun c => add_ y c) else SOk y)).
(** the gemm itself *)
Definition run_gemm (is_zero : R -> bool) (g : gemm_node R) (A B C : tensor R) : sres (tensor R) :=
  bind (gemm_op rO rI radd rmul near near_zero is_zero (alpha g) (beta g) (transA g) (transB g) A B C) settled.
End GemmPack.
