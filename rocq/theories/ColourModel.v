(** Model of the force_gray and force_color operators:
    src/backend/base/base_force_gray.cpp 42-79, src/kernels/cpu/force_gray.cpp 42-97,
    src/backend/base/base_force_color.cpp 34-60, src/kernels/cpu/force_color.cpp 27-75.

    The arithmetic of a pixel is a parameter: [mul] is scale[j] * pixel[j], [add]
    and [zero] the sum of type float (double for double), [conv] the conversion
    T(pixel), which is undefined when the sum does not fit the type.  At the end
    the arithmetic of the code for 8 and 16 bit elements: IEEE single precision,
    from the standard library's SpecFloat, without fused operations.

    Simplification: the memory device views are identities. *)
From Coq Require Import List ZArith Bool SpecFloat.
From Verif Require Import ShapeModel KernelBase TileModel.
Import ListNotations.
Local Open Scope Z_scope.

Section Gray.
Context {A S F : Type}.
Variable mul : F -> A -> S.
Variable add : S -> S -> S.
Variable zero : S.
Variable conv : S -> sres A.
(** base_force_gray.cpp 67: bgr_scale *)
Variable bgr : list F.

(** force_gray.cpp 56-65: one pixel *)
Fixpoint gray_sum (w : list F) (data : list A) (at_ : Z) (acc : S) : sres S :=
  match w with
  | [] => SOk acc
  | s :: w' =>
      match load data at_ with
      | SOk a => gray_sum w' data (at_ + 1) (add acc (mul s a))
      | SErr => SErr
      | SUndef => SUndef
      end
  end.
Definition gray_pixel (w : list F) (data : list A) (C i : Z) : sres A :=
  match gray_sum w data (i * C) zero with
  | SOk s => conv s
  | SErr => SErr
  | SUndef => SUndef
  end.

(** force_gray.cpp 42-69: as many products as channels; [w] has that length
    (checked by the caller, base_force_gray.cpp 63-76) *)
Definition gray_kernel (w : list F) (x : tensor A) (lead : list Z) (C : Z) : sres (raw_tensor A) :=
  if negb (tile_supports (t_dtype x)) then SErr else
  let N := prod lead in
  match exec (fresh (prod (lead ++ [1]))) (map (fun i => (i * 1, gray_pixel w (t_data x) C i)) (upto N)) with
  | SOk m => SOk (Tn (t_dtype x) (lead ++ [1]) m)
  | SErr => SErr
  | SUndef => SUndef
  end.

(** base_force_gray.cpp 42-79; [scale] is empty when the parameter is absent (15-22) *)
Definition force_gray (scale : list F) (x : tensor A) : sres (raw_tensor A) :=
  match rev (t_shape x) with
  | [] => SErr
  | C :: rlead =>
      let lead := rev rlead in
      if C =? 1 then SOk (Tn (t_dtype x) (t_shape x) (map Some (t_data x)))
      else match scale with
           | [] => if negb (C =? 3) then SErr else gray_kernel bgr x lead C
           | _ => if negb (C =? Z.of_nat (length scale)) then SErr
                  else gray_kernel scale x lead C
           end
  end.

(** base_force_color.cpp 34-60; force_color.cpp 27-75 *)
Definition force_color (x : tensor A) : sres (raw_tensor A) :=
  match rev (t_shape x) with
  | [] => SErr
  | C :: rlead =>
      let lead := rev rlead in
      if C =? 3 then SOk (Tn (t_dtype x) (t_shape x) (map Some (t_data x)))
      else if negb (C =? 1) then SErr
      else if negb (tile_supports (t_dtype x)) then SErr
      else
      let N := prod lead in
      match exec (fresh (prod (lead ++ [3])))
                 (flat_map (fun i => map (fun j => (i * 3 + j, load (t_data x) (i * C))) (upto 3)) (upto N)) with
      | SOk m => SOk (Tn (t_dtype x) (lead ++ [3]) m)
      | SErr => SErr
      | SUndef => SUndef
      end
  end.
End Gray.

(** IEEE single precision *)
Definition f32_of_Z (z : Z) : spec_float := binary_normalize 24 128 z 0 false.
Definition f32_mul (s : spec_float) (a : Z) : spec_float := SFmul 24 128 s (f32_of_Z a).
Definition f32_add : spec_float -> spec_float -> spec_float := SFadd 24 128.
(** T(pixel) for an integer type with values from [lo] to [hi]: the fraction is dropped *)
Definition to_integer (lo hi : Z) (s : spec_float) : sres Z :=
  match s with
  | S754_zero _ => SOk 0
  | S754_finite sg m e =>
      let a := Z.shiftl (Zpos m) e in
      let v := if sg then - a else a in
      if (lo <=? v) && (v <=? hi) then SOk v else SUndef
  | _ => SUndef
  end.
(** 0.114f, 0.587f, 0.299f (base_force_gray.cpp 67) *)
Definition f32_bgr : list spec_float :=
  [S754_finite false 15300821 (-27); S754_finite false 9848226 (-24); S754_finite false 10032775 (-25)].
