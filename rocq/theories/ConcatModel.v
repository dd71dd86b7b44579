(** Model of the operators concat, chunk and split on the CPU.

    concat: src/backend/base/base_concat.cpp 37-129 and
            src/kernels/cpu/concat.cpp 12-81
    chunk:  src/backend/base/base_chunk.cpp 21-82 and
            src/kernels/cpu/chunk.cpp 25-101
    split:  src/backend/base/base_split.cpp 19-81 and
            src/kernels/cpu/split.cpp 11-66

    Simplifications: the switches over the element size (concat, chunk) and
    over the data type (split) only choose the unit of the memcpy; the data
    types they reject are not modelled. *)
From Coq Require Import List ZArith Bool.
From Verif Require Import ShapeModel BinsModel KernelBase.
Import ListNotations.
Local Open Scope Z_scope.

(** m_dim >= 0 ? m_dim : dims + m_dim *)
Definition fix_dim (dim : Z) (dims : Z) : Z := if 0 <=? dim then dim else dims + dim.

Definition dims_of (s : list Z) : Z := Z.of_nat (length s).

(** base_concat.cpp 80-86: all sizes but the one at [fixed]; [j] is the loop
    variable *)
Fixpoint same_sizes (j fixed : Z) (shape output_shape : list Z) : bool :=
  match shape, output_shape with
  | x :: shape', y :: output_shape' =>
      (if j =? fixed then true else x =? y) && same_sizes (j + 1) fixed shape' output_shape'
  | _, _ => true
  end.

(** base_concat.cpp 73-88 *)
Fixpoint concat_sizes {A} (fixed : Z) (output_shape : list Z) (acc : Z) (xs : list (tensor A)) : sres Z :=
  match xs with
  | [] => SOk acc
  | x :: rest =>
      if negb (Nat.eqb (length (t_shape x)) (length output_shape)) then SErr
      else if negb (same_sizes 0 fixed (t_shape x) output_shape) then SErr
      else concat_sizes fixed output_shape (acc + nth (Z.to_nat fixed) (t_shape x) 0) rest
  end.

(** base_concat.cpp 37-96 *)
Definition concat_infer {A} (dim : Z) (xs : list (tensor A)) : sres (Z * list Z) :=
  match xs with
  | [] => SErr
  | [x] => SOk (t_dtype x, t_shape x)
  | x :: rest =>
      if negb (forallb (fun y => t_dtype y =? t_dtype x) rest) then SErr else
      let output_shape := t_shape x in
      let fixed := fix_dim dim (dims_of output_shape) in
      if (fixed <? 0) || (dims_of output_shape <=? fixed) then SErr else
      match concat_sizes fixed output_shape (nth (Z.to_nat fixed) output_shape 0) rest with
      | SOk n => SOk (t_dtype x, set_nth (Z.to_nat fixed) n output_shape)
      | SErr => SErr
      | SUndef => SUndef
      end
  end.

(** concat.cpp 41-53 *)
Fixpoint concat_stores {A} (dim : nat) (num_concats input_concat_size output_concat_axis offset : Z)
    (xs : list (tensor A)) : list (event A) :=
  match xs with
  | [] => []
  | x :: rest =>
      let input_concat_axis := nth dim (t_shape x) 0 in
      flat_map (fun j =>
        memcpy ((j * output_concat_axis + offset) * input_concat_size)
               (t_data x) (j * input_concat_axis * input_concat_size)
               (input_concat_axis * input_concat_size)) (upto num_concats)
      ++ concat_stores dim num_concats input_concat_size output_concat_axis (offset + input_concat_axis) rest
  end.

(** concat.cpp 12-53; [first_shape] is the shape of x[0] *)
Definition concat_kernel {A} (dim : nat) (first_shape out_shape : list Z) (xs : list (tensor A)) : list (event A) :=
  concat_stores dim (prod (firstn dim first_shape)) (prod (skipn (S dim) first_shape)) (nth dim out_shape 0) 0 xs.

(** base_concat.cpp 98-129 *)
Definition concat_run {A} (dim : Z) (xs : list (tensor A)) : sres (raw_tensor A) :=
  match concat_infer dim xs with
  | SErr => SErr
  | SUndef => SUndef
  | SOk (dtype, shape) =>
      match xs with
      | [] => SErr
      | x :: _ =>
          let dims := dims_of (t_shape x) in
          let fixed := fix_dim dim dims in
          if (fixed <? 0) || (dims <=? fixed) then SErr else
          match exec (fresh (prod shape)) (concat_kernel (Z.to_nat fixed) (t_shape x) shape xs) with
          | SOk m => SOk (Tn dtype shape m)
          | SErr => SErr
          | SUndef => SUndef
          end
      end
  end.

(** base_chunk.cpp 47-52; reading bins[i] past the end is undefined *)
Fixpoint chunk_shapes (shape : list Z) (fixed : nat) (chunks : nat) (bins : list (Z * Z)) : sres (list (list Z)) :=
  match chunks with
  | O => SOk []
  | S k =>
      match bins with
      | [] => SUndef
      | (b, e) :: bins' =>
          match chunk_shapes shape fixed k bins' with
          | SOk l => SOk (set_nth fixed (e - b) shape :: l)
          | r => r
          end
      end
  end.

(** base_chunk.cpp 28-56; the result is the axis and the output shapes *)
Definition chunk_infer {A} (chunks dim : Z) (x : tensor A) : sres (Z * list (list Z)) :=
  if chunks <=? 0 then SErr else        (* 25 *)
  let dims := dims_of (t_shape x) in
  let fixed := fix_dim dim dims in
  if (fixed <? 0) || (dims <=? fixed) then SErr else
  let dim_size := nth (Z.to_nat fixed) (t_shape x) 0 in
  if dim_size <? chunks then SErr else
  match split_bins 0 dim_size chunks with
  | BOk bins =>
      match chunk_shapes (t_shape x) (Z.to_nat fixed) (Z.to_nat chunks) bins with
      | SOk l => SOk (fixed, l)
      | SErr => SErr
      | SUndef => SUndef
      end
  | BUndef => SUndef
  | BFuel => SUndef
  end.

(** chunk.cpp 55-67: one output buffer after the other *)
Fixpoint chunk_outputs {A} (dtype : Z) (x : list A) (dim : nat)
    (num_chunks each_chunk_size output_concat_axis offset : Z) (shapes : list (list Z)) :
    sres (list (raw_tensor A)) :=
  match shapes with
  | [] => SOk []
  | s :: rest =>
      let input_concat_axis := nth dim s 0 in
      match exec (fresh (prod s))
              (flat_map (fun j =>
                 memcpy (j * input_concat_axis * each_chunk_size)
                        x ((j * output_concat_axis + offset) * each_chunk_size)
                        (input_concat_axis * each_chunk_size)) (upto num_chunks)) with
      | SOk m =>
          match chunk_outputs dtype x dim num_chunks each_chunk_size output_concat_axis
                  (offset + input_concat_axis) rest with
          | SOk l => SOk (Tn dtype s m :: l)
          | r => r
          end
      | SErr => SErr
      | SUndef => SUndef
      end
  end.

(** base_chunk.cpp 63-84, chunk.cpp 25-67; the packed fields *)
Definition chunk_run {A} (chunks dim : Z) (x : tensor A) : sres (list (raw_tensor A)) :=
  match chunk_infer chunks dim x with
  | SErr => SErr
  | SUndef => SUndef
  | SOk (fixed, shapes) =>
      match shapes with
      | [] => SUndef                     (* out[0] *)
      | s0 :: _ =>
          chunk_outputs (t_dtype x) (t_data x) (Z.to_nat fixed)
            (prod (firstn (Z.to_nat fixed) s0)) (prod (skipn (S (Z.to_nat fixed)) s0))
            (nth (Z.to_nat fixed) (t_shape x) 0) 0 shapes
      end
  end.

(** split.cpp 32-45: the inner loop; [from] and [tos] are the pointers *)
Fixpoint split_row {A} (x : list A) (W : Z) (i : nat) (split tos : list Z) (from : Z) :
    list (nat * event A) * list Z * Z :=
  match split, tos with
  | s :: split', to :: tos' =>
      let count := s * W in
      let '(tr, tos'', from') := split_row x W (S i) split' tos' (from + count) in
      (map (fun ev => (i, ev)) (memcpy to x from count) ++ tr, (to + count) :: tos'', from')
  | _, _ => ([], tos, from)
  end.

(** split.cpp 31-46 *)
Fixpoint split_rows {A} (x : list A) (W : Z) (n : nat) (split tos : list Z) (from : Z) : list (nat * event A) :=
  match n with
  | O => []
  | S k =>
      let '(tr, tos', from') := split_row x W 0 split tos from in
      tr ++ split_rows x W k split tos' from'
  end.

(** base_split.cpp 52-81, split.cpp 11-46 *)
Definition split_run {A} (dim : Z) (x : tensor A) (split : list Z) : sres (list (raw_tensor A)) :=
  let dims := dims_of (t_shape x) in
  let fixed := if dim <? 0 then dim + dims else dim in
  if (fixed <? 0) || (dims <=? fixed) then SErr else
  let axis := Z.to_nat fixed in
  let shapes := map (fun size => set_nth axis size (t_shape x)) split in
  let N := prod (firstn axis (t_shape x)) in
  let W := prod (skipn (S axis) (t_shape x)) in
  match exec_many (map (fun s => fresh (prod s)) shapes)
          (split_rows (t_data x) W (Z.to_nat N) split (map (fun _ => 0) split) 0) with
  | SOk ms => SOk (map (fun sm => Tn (t_dtype x) (fst sm) (snd sm)) (combine shapes ms))
  | SErr => SErr
  | SUndef => SUndef
  end.
