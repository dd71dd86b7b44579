(** Model of the operators gemm (src/backend/base/base_gemm.cpp 19-124,
    src/kernels/cpu/cpu_gemm.cpp 17-84), inner_prod
    (base_inner_prod.cpp 30-89, inner_prod.cpp 20-70) and matmul
    (base_matmul.cpp 34-108, src/kernels/cpu/matmul.cpp 10-31).

    Simplifications: the numbers are abstract and exact, and the attributes
    alpha and beta belong to them; the coordinates a ShapeIterator visits are
    written as nested loops (the same order, see ShapeProofs); copies of
    tensors to the stack and back are not written.  The float type uses the
    vectorised inner product.  A size read at an axis the tensor does not have
    is [SUndef]. *)
From Coq Require Import List ZArith Bool.
From Verif Require Import ShapeModel KernelBase LoopModel EltwiseModel TransposeModel GemmModel ConvModel.
Import ListNotations.
Local Open Scope Z_scope.

Section Ops.
Context {R : Type} (rO rI : R) (radd rmul : R -> R -> R).
(** ts::near for the element type, near_zero for the float attribute
    (include/utils/assert.h) and the exact comparison with zero *)
Variable near : R -> R -> bool.
Variables near_zero is_zero : R -> bool.

(** ** gemm *)

(** cpu_gemm.cpp 25-40 *)
Definition gemm_broadcast (C : list R) (c_shape : list Z) (m n : Z) : list (event R) :=
  map (fun kc => (fst kc, mod_load C c_shape (snd kc))) (counted (loops [m; n])).

(** base_gemm.cpp 19-71 and 103-124; cpu_gemm.cpp 42-84 *)
Definition gemm_op (alpha beta : R) (transA transB : bool) (A B C : tensor R) : sres (raw_tensor R) :=
  match t_shape A, t_shape B with
  | [a0; a1], [b0; b1] =>
      if Nat.ltb 2 (length (t_shape C)) then SErr else
      if negb (t_dtype A =? t_dtype B) then SErr else
      if negb (is_zero beta || (t_dtype C =? t_dtype A)) then SErr else
      let (m, a_k) := if transA then (a1, a0) else (a0, a1) in
      let (b_k, n) := if transB then (b1, b0) else (b0, b1) in
      if negb (a_k =? b_k) then SErr else
      let c_shape := front_append_ones (t_shape C) (2 - length (t_shape C)) in
      let c0 := nth 0 c_shape 0 in let c1 := nth 1 c_shape 0 in
      if (negb (c0 =? 1) && negb (c0 =? m)) || (negb (c1 =? 1) && negb (c1 =? n)) then SErr else
      if negb ((t_dtype A =? 10) || (t_dtype A =? 11)) then SErr else
      bind (if negb (near_zero beta) then exec (fresh (m * n)) (gemm_broadcast (t_data C) c_shape m n)
            else SOk (fresh (m * n))) (fun out =>
      let beta := if near_zero beta then rO else beta in
      let lda := if transA then m else a_k in
      let ldb := if transB then a_k else n in
      bind (gemm rO rI radd rmul near (t_dtype A =? 10) false transA transB m n a_k alpha (load (t_data A)) lda (load (t_data B)) ldb beta out n) (fun out =>
      SOk (Tn (t_dtype A) [m; n] out)))
  | _, _ => SErr
  end.

(** ** inner_prod *)

(** base_inner_prod.cpp 30-70: the shape of the left operand, and [n] *)
Definition inner_prod_infer (transpose : bool) (l r : tensor R) : sres (Z * Z * Z) :=
  match t_shape l with
  | [] => SErr
  | d0 :: _ =>
      bind (if Nat.eqb (length (t_shape l)) 2 then SOk (t_shape l) else reshape (t_shape l) [d0; -1]) (fun ls =>
      match ls, t_shape r with
      | [l0; l1], [r0; r1] =>
          if negb (l1 =? (if transpose then r1 else r0)) then SErr else
          if negb (t_dtype l =? t_dtype r) then SErr else
          SOk (l0, l1, if transpose then r0 else r1)
      | _, _ => SErr
      end)
  end.

(** inner_prod.cpp 20-70 *)
Definition inner_prod (transpose kernel_packed : bool) (l r : tensor R) : sres (raw_tensor R) :=
  bind (inner_prod_infer transpose l r) (fun s =>
  let '(m, k, n) := s in
  if negb ((t_dtype l =? 10) || (t_dtype l =? 11)) then SErr else
  if transpose && kernel_packed then SErr else
  bind (if transpose
        then bind (transpose_run (t_dtype l =? 10) (Some [1; 0]) r) (fun t => SOk (read (t_data t)))
        else SOk (load (t_data r))) (fun b =>
  bind (packed_gemm rO rI radd rmul near (t_dtype l =? 10) m n k rI (load (t_data l)) b rO true (negb kernel_packed)) (fun stores =>
  bind (exec (fresh (m * n)) stores) (fun out =>
  SOk (Tn (t_dtype l) [m; n] out))))).

(** ** matmul *)

(** base_matmul.cpp 34-74: only what can go wrong matters, run recomputes
    the result *)
Definition matmul_infer (a b : tensor R) : sres unit :=
  let sa := t_shape a in let sb := t_shape b in
  if Nat.eqb (length sb) 4 then
    if Nat.ltb (length sa) 4 then SUndef else
    let at_ (s : list Z) i := nth i s 0 in
    if at_ sa 0%nat * at_ sa 1%nat * at_ sb 0%nat * at_ sb 1%nat =? 0 then SErr else
    bind (reshape sa [at_ sa 2%nat; at_ sa 3%nat]) (fun _ =>
    bind (reshape sb [at_ sb 2%nat; at_ sb 3%nat]) (fun _ => SOk tt))
  else if Nat.ltb 2 (length sb) then SErr
  else if Nat.ltb (length sb) 2 then SUndef
  else match sa with [] => SUndef | _ => SOk tt end.

(** base_matmul.cpp 76-108, matmul.cpp 10-31 *)
Definition matmul (a b : tensor R) : sres (raw_tensor R) :=
  bind (matmul_infer a b) (fun _ =>
  let at_ (s : list Z) i := nth i s 0 in
  let dim4 := Nat.eqb (length (t_shape a)) 4 && Nat.eqb (length (t_shape b)) 4 in
  let view (t : tensor R) := Tn (t_dtype t) [at_ (t_shape t) 2%nat; at_ (t_shape t) 3%nat] (t_data t) in
  let a := if dim4 then view a else a in
  let b := if dim4 then view b else b in
  bind (if Nat.eqb (length (t_shape a)) (length (t_shape b)) then inner_prod false false a b
        else
          let last := Z.of_nat (length (t_shape a)) - 1 in
          match t_shape b with
          | [_; n] =>
              let output_shape := set_nth (Z.to_nat last) n (t_shape a) in
              let lines := prod (firstn (Z.to_nat last) (t_shape a)) in
              bind (reshape (t_shape a) [lines; at_ (t_shape a) (Z.to_nat last)]) (fun s2 =>
              bind (inner_prod false false (Tn (t_dtype a) s2 (t_data a)) b) (fun out =>
              bind (reshape (t_shape out) output_shape) (fun s => SOk (Tn (t_dtype out) s (t_data out)))))
          | _ => SUndef
          end) (fun out =>
  if dim4 then
    match t_shape out with
    | [m; n] => SOk (Tn (t_dtype out) [1; 1; m; n] (t_data out))
    | _ => SUndef
    end
  else SOk out)).
End Ops.
