(** Model of the gather operator: src/backend/base/base_gather.cpp 21-76 and
    src/kernels/cpu/gather.cpp 13-48.

    Simplifications: the indices are taken as 32-bit integers already (the
    cast is not modelled); ranks are not limited to seven. *)
From Coq Require Import List ZArith Bool.
From Verif Require Import ShapeModel KernelBase.
Import ListNotations.
Local Open Scope Z_scope.

(** base_gather.cpp 21-38; the axis is made non-negative *)
Definition gather_axis (x : list Z) (axis : Z) : sres nat :=
  let dims := Z.of_nat (length x) in
  if dims <? 1 then SErr else
  if negb ((- dims <=? axis) && (axis <? dims)) then SErr
  else SOk (Z.to_nat (if axis <? 0 then dims + axis else axis)).

(** base_gather.cpp 61-66: [x.size(m_axis)], with the axis as it was given *)
Fixpoint fix_indices (x : list Z) (m_axis : Z) (indices : list Z) : sres (list Z) :=
  match indices with
  | [] => SOk []
  | i :: rest =>
      let j := if i <? 0 then
                 if m_axis <? 0 then SUndef
                 else SOk (i + nth (Z.to_nat m_axis) x 0)
               else SOk i in
      match j, fix_indices x m_axis rest with
      | SOk j, SOk r => SOk (j :: r)
      | SUndef, _ => SUndef
      | _, r => match r with SOk _ => SErr | e => e end
      end
  end.

(** gather.cpp 18-46 *)
Definition gather_stores {A} (data : list A) (x_shape : list Z) (axis : nat) (indices : list Z) : list (event A) :=
  let number := prod (firstn axis x_shape) in
  let width := prod (skipn (S axis) x_shape) in
  let count := Z.of_nat (length indices) in
  flat_map (fun i =>
    flat_map (fun n =>
      match to_index [number; nth axis x_shape 0] [n; nth (Z.to_nat i) indices 0], to_index [number; count] [n; i] with
      | SOk src, SOk dst => memcpy (dst * width) data (src * width) width
      | _, _ => [(0, SUndef)]
      end) (upto number)) (upto count).

(** base_gather.cpp 52-76 *)
Definition gather_run {A} (m_axis : Z) (x : tensor A) (indices : tensor Z) : sres (raw_tensor A) :=
  match gather_axis (t_shape x) m_axis with
  | SErr => SErr
  | SUndef => SUndef
  | SOk axis =>
      match fix_indices (t_shape x) m_axis (t_data indices) with
      | SErr => SErr
      | SUndef => SUndef
      | SOk idx =>
          let o := firstn axis (t_shape x) ++ t_shape indices ++ skipn (S axis) (t_shape x) in
          match exec (fresh (prod o)) (gather_stores (t_data x) (t_shape x) axis idx) with
          | SOk m => SOk (Tn (t_dtype x) o m)
          | SErr => SErr
          | SUndef => SUndef
          end
      end
  end.
