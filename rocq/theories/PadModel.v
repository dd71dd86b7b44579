(** Model of the pad operator on the CPU: src/backend/base/base_pad.cpp 24-86,
    src/kernels/cpu/pad_cpu.cpp 26-107 (the registered kernel; pad.cpp is not
    registered) and src/kernels/cpu/pad2d_algorithm.cpp 11-84.

    Simplifications: the paddings are pairs of 32-bit integers already (the
    cast and the check for the shape [-1, 2] are not modelled); the padding
    value is the float attribute converted to the element type, an arbitrary
    element here; ranks are not limited to seven. *)
From Coq Require Import List ZArith Bool.
From Verif Require Import ShapeModel KernelBase TileModel.
Import ListNotations.
Local Open Scope Z_scope.

(** base_pad.cpp 34-39 *)
Definition pad_shape (x : list Z) (pads : list (Z * Z)) : list Z :=
  map (fun xp => let y := fst xp + (fst (snd xp) + snd (snd xp)) in if y <? 1 then 1 else y) (combine x pads).

(** pad_cpu.cpp 26-38; [None] is the return of false *)
Fixpoint transpose_pad (out_coord : list Z) (pads : list (Z * Z)) (x_shape : list Z) : option (list Z) :=
  match out_coord, pads, x_shape with
  | c :: out_coord', (p, _) :: pads', d :: x_shape' =>
      let offset := c - p in
      if (offset <? 0) || (d <=? offset) then None
      else match transpose_pad out_coord' pads' x_shape' with
           | Some r => Some (offset :: r)
           | None => None
           end
  | _, _, _ => Some []
  end.

(** pad_cpu.cpp 61-82 *)
Fixpoint pad_stores {A} (data : list A) (x_shape : list Z) (pads : list (Z * Z)) (value : A) (o : list Z)
    (n : nat) (i : Z) (coord : list Z) : list (event A) :=
  match n with
  | O => []
  | S k =>
      (i, match transpose_pad coord pads x_shape with
          | Some x_coord => match to_index x_shape x_coord with SOk j => load data j | _ => SUndef end
          | None => SOk value
          end)
      :: pad_stores data x_shape pads value o k (i + 1) (increase o coord)
  end.

(** pad2d_algorithm.cpp 37-42: what is left of an axis *)
Definition kept (size : Z) (p : Z * Z) : Z :=
  let d := if fst p <? 0 then size + fst p else size in
  if snd p <? 0 then d + snd p else d.
(** 44-53 *)
Definition skip_in (p : Z * Z) : Z := if 0 <=? fst p then 0 else - fst p.
Definition skip_out (p : Z * Z) : Z := if fst p <? 0 then 0 else fst p.

(** pad2d_algorithm.cpp 11-84, on four axes *)
Definition pad4_stores {A} (data : list A) (s0 s1 s2 s3 : Z) (p0 p1 p2 p3 : Z * Z) (value : A) (o0 o1 o2 o3 : Z) : list (event A) :=
  let input_dim1_offset := s2 * s3 in
  let in_num_offset := s1 * input_dim1_offset in
  let out_dim1_offset := o2 * o3 in
  let out_num_offset := o1 * out_dim1_offset in
  let dim1 := kept s1 p1 in
  let dim2 := kept s2 p2 in
  let tile := kept s3 p3 in
  map (fun k => (k, SOk value)) (upto (prod [o0; o1; o2; o3])) ++
  flat_map (fun n =>
    flat_map (fun i =>
      flat_map (fun j =>
        let input_offset := (n + skip_in p0) * in_num_offset + (i + skip_in p1) * input_dim1_offset
                            + (j + skip_in p2) * s3 + skip_in p3 in
        let output_offset := (n + skip_out p0) * out_num_offset + (i + skip_out p1) * out_dim1_offset
                             + (j + skip_out p2) * o3 + skip_out p3 in
        if tile <? 12 then map (fun l => (output_offset + l, load data (input_offset + l))) (upto tile)
        else memcpy output_offset data input_offset tile)
      (upto dim2)) (upto dim1)) (upto s0).

(** base_pad.cpp 48-86, pad_cpu.cpp 40-82 *)
Definition pad_run {A} (pads : list (Z * Z)) (value : A) (x : tensor A) : sres (raw_tensor A) :=
  if negb (Nat.eqb (length pads) (length (t_shape x))) then SErr else
  let o := pad_shape (t_shape x) pads in
  if forallb (fun p => (fst p =? 0) && (snd p =? 0)) pads then SOk (Tn (t_dtype x) (t_shape x) (map Some (t_data x))) else
  if negb (tile_supports (t_dtype x)) then SErr else
  let tr :=
    match t_shape x, pads, o with
    | [s0; s1; s2; s3], [p0; p1; p2; p3], [o0; o1; o2; o3] => pad4_stores (t_data x) s0 s1 s2 s3 p0 p1 p2 p3 value o0 o1 o2 o3
    | _, _, _ => pad_stores (t_data x) (t_shape x) pads value o (Z.to_nat (prod o)) 0 (start o)
    end in
  match exec (fresh (prod o)) tr with
  | SOk m => SOk (Tn (t_dtype x) o m)
  | SErr => SErr
  | SUndef => SUndef
  end.
