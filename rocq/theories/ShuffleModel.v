(** Model of the operators dimshuffle, stack and crop_to on the CPU:
    src/backend/base/base_dimshuffle.cpp 13-76,
    src/kernels/cpu/dimshuffle.cpp 11-50,
    src/kernels/cpu/stack_tensor.cpp 19-51 with
    src/backend/base/base_stack_tensor.cpp 13-23, and
    src/kernels/cpu/crop_to.cpp 38-143.

    Simplifications: the attributes are the integers read from them; the
    stack holds the arguments only; ranks are not limited. *)
From Coq Require Import List ZArith Bool.
From Verif Require Import ShapeModel KernelBase ConcatModel PadModel.
Import ListNotations.
Local Open Scope Z_scope.

(** dimshuffle.cpp 24-48 *)
Definition shuffle_stores {A} (data : list A) (shape : list Z) (dim : nat) (shuffle : list Z) : list (event A) :=
  let preoffset := prod (firstn dim shape) in
  let stride := prod (skipn dim shape) in
  let backstride := Z.quot stride (nth dim shape 0) in
  let newstride := backstride * Z.of_nat (length shuffle) in
  flat_map (fun k =>
    flat_map (fun i =>
      memcpy (k * newstride + i * backstride) data (k * stride + nth (Z.to_nat i) shuffle 0 * backstride) backstride)
    (upto (Z.of_nat (length shuffle)))) (upto preoffset).

(** base_dimshuffle.cpp 20-36 (init), 39-61 (infer: the size is read before
    the rank is checked), 63-76 (run) *)
Definition dimshuffle_run {A} (dim : Z) (shuffle : list Z) (x : tensor A) : sres (raw_tensor A) :=
  if dim <? 0 then SErr else
  if (length shuffle =? 0)%nat then SErr else
  if existsb (fun i => i <? 0) shuffle then SErr else
  if Z.of_nat (length (t_shape x)) <=? dim then SUndef else
  let d := Z.to_nat dim in
  let dim_size := nth d (t_shape x) 0 in
  if existsb (fun i => dim_size <=? i) shuffle then SErr else
  let o := set_nth d (Z.of_nat (length shuffle)) (t_shape x) in
  match exec (fresh (prod o)) (shuffle_stores (t_data x) (t_shape x) d shuffle) with
  | SOk m => SOk (Tn (t_dtype x) o m)
  | SErr => SErr
  | SUndef => SUndef
  end.

(** stack_tensor.cpp 32-38: shape.insert(shape.begin() + axis, 1), undefined
    past the end; the reshape cannot fail since the count is the same *)
Fixpoint unsqueezed {A} (axis : nat) (xs : list (tensor A)) : sres (list (tensor A)) :=
  match xs with
  | [] => SOk []
  | x :: rest =>
      if (length (t_shape x) <? axis)%nat then SUndef else
      match unsqueezed axis rest with
      | SOk l => SOk (Tn (t_dtype x) (firstn axis (t_shape x) ++ 1 :: skipn axis (t_shape x)) (t_data x) :: l)
      | SErr => SErr
      | SUndef => SUndef
      end
  end.

(** stack_tensor.cpp 19-51; the inner concat has the attribute dim = m_axis *)
Definition stack_run {A} (m_axis : Z) (xs : list (tensor A)) : sres (raw_tensor A) :=
  match xs with
  | [] => SErr
  | x :: _ =>
      let output_dims := Z.of_nat (length (t_shape x)) + 1 in
      let fixed_axis := if 0 <=? m_axis then m_axis else output_dims + m_axis in
      if (fixed_axis <? 0) || (output_dims <=? fixed_axis) then SErr else
      match unsqueezed (Z.to_nat fixed_axis) xs with
      | SOk l => concat_run m_axis l
      | SErr => SErr
      | SUndef => SUndef
      end
  end.

(** crop_to.cpp 122-133: pad_left = -offset, pad_right = y - x - pad_left *)
Definition crop_paddings (axis : nat) (offset x y : list Z) : list (Z * Z) :=
  repeat (0, 0) axis ++
  map (fun oxy => let '(o, (a, b)) := oxy in (- o, b - a - - o)) (combine offset (combine (skipn axis x) (skipn axis y))).

(** crop_to.cpp 92-142; the first component of the result is m_axis
    afterwards: a negative axis is overwritten (102) *)
Definition crop_to_run {A} (m_axis : Z) (m_offset : list Z) (zero : A) (x : tensor A) (y_shape : list Z) : Z * sres (raw_tensor A) :=
  let dims := Z.of_nat (length (t_shape x)) in
  if negb (Nat.eqb (length (t_shape x)) (length y_shape)) then (m_axis, SErr) else
  let axis := if 0 <=? m_axis then m_axis else m_axis + dims in
  (axis,
   if (axis <? 0) || (dims <=? axis) then SErr else
   if negb (Nat.eqb (length m_offset) 0) && negb (Z.of_nat (length m_offset) =? dims - axis) then SErr else
   let offset := if Nat.eqb (length m_offset) 0 then repeat 0 (Z.to_nat (dims - axis)) else m_offset in
   pad_run (crop_paddings (Z.to_nat axis) offset (t_shape x) y_shape) zero x).

(** the same operator run on one pair of arguments after the other *)
Fixpoint crop_to_runs {A} (m_axis : Z) (m_offset : list Z) (zero : A) (args : list (tensor A * list Z)) : list (sres (raw_tensor A)) :=
  match args with
  | [] => []
  | (x, y) :: rest =>
      let '(m_axis', r) := crop_to_run m_axis m_offset zero x y in
      r :: crop_to_runs m_axis' m_offset zero rest
  end.
