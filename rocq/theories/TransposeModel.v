(** Model of the transpose operator:
    src/backend/base/base_transpose.cpp 15-117 and
    src/kernels/cpu/transpose.cpp 16-178 (with the portable vector operations
    of include/kernels/common/simd_def/simd_base_def.h 245-259).

    Simplification: the data types the switch at the end rejects are not
    modelled; [is_float] says whether the element type is [float], which
    selects the specialised loops.  An OpenMP loop is modelled in sequential
    order (its iterations store to different places, see the theorems). *)
From Coq Require Import List ZArith Bool.
From Verif Require Import ShapeModel KernelBase.
Import ListNotations.
Local Open Scope Z_scope.

(** base_transpose.cpp 37-41: the loop with its break *)
Fixpoint mark (perm : list Z) (n : nat) (flag : list bool) : list bool :=
  match perm with
  | [] => flag
  | d :: rest =>
      if (d <? 0) || (Z.of_nat n <=? d) then flag
      else mark rest n (set_nth (Z.to_nat d) true flag)
  end.

(** 19-46; [None] is the absent attribute *)
Definition transpose_init (permute : option (list Z)) : sres (list Z) :=
  match permute with
  | None => SOk []
  | Some perm =>
      if existsb negb (mark perm (length perm) (repeat false (length perm))) then SErr else SOk perm
  end.

(** 48-68 *)
Definition get_permute (m_permute : list Z) (dims : nat) : sres (list Z) :=
  match m_permute with
  | _ :: _ => if Nat.ltb (length m_permute) dims then SErr else SOk m_permute
  | [] =>
      let permute := upto (Z.of_nat dims) in
      if Nat.leb 2 dims then
        let p1 := set_nth (dims - 2) (nth (dims - 1) permute 0) permute in
        SOk (set_nth (dims - 1) (nth (dims - 2) p1 0) p1)
      else SOk permute
  end.

(** 72-74 and 100-103 *)
Definition lead_ones (shape : list Z) (n : nat) : list Z := repeat 1 (n - length shape) ++ shape.

(** 70-81 *)
Definition permuted_shape (shape permute : list Z) : sres (list Z) :=
  let fixed := lead_ones shape (length permute) in
  let new := map (fun p => nth (Z.to_nat p) fixed 0) permute in
  if forallb (fun d => 0 <? d) new then SOk new else SErr.

(** transpose.cpp 29-43; [i] counts the iterations *)
Fixpoint generic_stores {A} (src : list A) (permute input_shape output_shape : list Z)
    (n : nat) (i : Z) (coordinate : list Z) : list (event A) :=
  match n with
  | O => []
  | S k =>
      let tmpshape := map (fun p => nth (Z.to_nat p) coordinate 0) permute in
      match to_index output_shape tmpshape with
      | SOk index => (index, load src i)
      | _ => (0, SUndef)
      end :: generic_stores src permute input_shape output_shape k (i + 1) (increase input_shape coordinate)
  end.

(** the order in which a row's (w, c) pairs are visited: 60-64 and 118-122 *)
Definition plain_row (width channel : Z) : list (Z * Z) :=
  flat_map (fun w => map (fun c => (w, c)) (upto channel)) (upto width).

(** the four columns from [w]: 83-90 stores interleaved, column by column *)
Definition block_by_column (w : Z) : list (Z * Z) :=
  flat_map (fun k => map (fun c => (w + k, c)) [0; 1; 2]) [0; 1; 2; 3].

(** 141-149 stores channel by channel *)
Definition block_by_channel (w : Z) : list (Z * Z) :=
  flat_map (fun c => map (fun k => (w + k, c)) [0; 1; 2; 3]) [0; 1; 2].

(** 82-96 and 140-154: blocks of four, then the remaining columns *)
Fixpoint simd_row (fuel : nat) (block : Z -> list (Z * Z)) (w width channel : Z) : list (Z * Z) :=
  match fuel with
  | O => []
  | S k =>
      if w + 3 <? width then block w ++ simd_row k block (w + 4) width channel
      else flat_map (fun j => map (fun c => (w + j, c)) (upto channel)) (upto (width - w))
  end.

(** 46-98: NCHW with three channels to NHWC *)
Definition nc3hw_to_nhwc3 {A} (is_float : bool) (src : list A) (N C H W : Z) : list (event A) :=
  let channel_offset := H * W in
  let num_offset := C * channel_offset in
  let row := if is_float then simd_row (S (Z.to_nat W)) block_by_column 0 W C else plain_row W C in
  flat_map (fun n => flat_map (fun h =>
    map (fun wc => (n * num_offset + h * C * W + fst wc * C + snd wc,
                    load src (n * num_offset + h * W + snd wc * channel_offset + fst wc))) row)
    (upto H)) (upto N).

(** 100-158: NHWC with three channels to NCHW *)
Definition nhwc3_to_nc3hw {A} (is_float : bool) (src : list A) (N H W C : Z) : list (event A) :=
  let h_offset := W * C in
  let channel_offset := H * W in
  let num_offset := H * h_offset in
  let row := if is_float then simd_row (S (Z.to_nat W)) block_by_channel 0 W C else plain_row W C in
  flat_map (fun n => flat_map (fun h =>
    map (fun wc => (n * num_offset + h * W + snd wc * channel_offset + fst wc,
                    load src (n * num_offset + h * h_offset + fst wc * C + snd wc))) row)
    (upto H)) (upto N).

(** 160-176.  A permute of length four on a tensor of rank four, so the sizes
    [input_shape[3]] and [input_shape[1]] exist. *)
Definition transpose_kernel {A} (is_float : bool) (src : list A) (input_shape permute output_shape : list Z) :
    list (event A) :=
  let generic := generic_stores src permute input_shape output_shape
                   (Z.to_nat (prod input_shape)) 0 (start input_shape) in
  match permute, input_shape with
  | [0; 3; 1; 2], [n; h; w; 3] => nhwc3_to_nc3hw is_float src n h w 3
  | [0; 2; 3; 1], [n; 3; h; w] => nc3hw_to_nhwc3 is_float src n 3 h w
  | _, _ => generic
  end.

(** base_transpose.cpp 92-116 *)
Definition transpose_run {A} (is_float : bool) (permute : option (list Z)) (x : tensor A) : sres (raw_tensor A) :=
  match transpose_init permute with
  | SErr => SErr
  | SUndef => SUndef
  | SOk m_permute =>
      match get_permute m_permute (length (t_shape x)) with
      | SErr => SErr
      | SUndef => SUndef
      | SOk perm =>
          let shape := lead_ones (t_shape x) (length perm) in
          match permuted_shape shape perm with
          | SErr => SErr
          | SUndef => SUndef
          | SOk new =>
              match exec (fresh (prod new)) (transpose_kernel is_float (t_data x) shape perm new) with
              | SOk m => SOk (Tn (t_dtype x) new m)
              | SErr => SErr
              | SUndef => SUndef
              end
          end
      end
  end.
