(** Model of the slice, slice_v2 and slice_v3 operators:
    src/backend/base/base_slice.cpp 20-92 and src/kernels/cpu/slice.cpp 12-35;
    src/backend/base/base_slice_v2.cpp 20-91 (the same, with begin and size as
    inputs); src/backend/base/base_slice_v3.cpp 306-404, whose remaining part
    and kernel are line by line those of strided_slice (SliceModel).

    Simplifications: begin, size, starts, ends, axes and steps are given as the
    64-bit integers tensor::array::to_long yields; sums that do not fit a 32-bit
    integer are undefined only in base_slice.cpp 62, the one place where they
    arise from accepted input; at most 29 axes. *)
From Coq Require Import List ZArith Bool.
From Verif Require Import ShapeModel KernelBase TileModel SliceModel.
Import ListNotations.
Local Open Scope Z_scope.

Definition int_max : Z := 2147483647.
Definition int_min : Z := -2147483648.
(** base_slice.cpp 20-36 *)
Definition to_int32 (v : Z) : Z := if (0 <? v) && (int_max <? v) then int_max else if (v <? 0) && (v <? int_min) then int_min else v.

(** base_slice.cpp 53-65 *)
Fixpoint slice_dims (shape begins sizes : list Z) : sres (list Z) :=
  match shape, begins, sizes with
  | n :: shape', b :: begins', s :: sizes' =>
      if negb ((0 <=? b) && (b <? n)) then SErr else
      let dim := if s <? 0 then n - b else s in
      if int_max <? b + dim then SUndef else
      if negb (b + dim <=? n) then SErr else
      match slice_dims shape' begins' sizes' with SOk l => SOk (dim :: l) | SErr => SErr | SUndef => SUndef end
  | _, _, _ => SOk []
  end.
(** 45-68 *)
Definition slice_shape (shape begins sizes : list Z) : sres (list Z) :=
  if negb (Nat.eqb (length sizes) (length begins) && Nat.eqb (length sizes) (length shape)) then SErr else slice_dims shape begins sizes.

(** slice.cpp 24-34 *)
Definition slice_events {A} (src : list A) (shape out begins : list Z) : list (event A) :=
  map (fun i => (i, match to_coordinate out i with
                    | SOk c => match to_index shape (map (fun cb => fst cb + snd cb) (combine c begins)) with SOk j => load src j | _ => SUndef end
                    | _ => SUndef
                    end)) (upto (prod out)).
(** base_slice.cpp 39-43, 80-91; base_slice_v2.cpp 74-90 *)
Definition slice {A} (begin size : list Z) (x : tensor A) : sres (raw_tensor A) :=
  let begins := map to_int32 begin in
  match slice_shape (t_shape x) begins (map to_int32 size) with
  | SOk out =>
      if negb (tile_supports (t_dtype x)) then SErr else
      match exec (fresh (prod out)) (slice_events (t_data x) (t_shape x) out begins) with
      | SOk m => SOk (Tn (t_dtype x) out m)
      | SErr => SErr
      | SUndef => SUndef
      end
  | SErr => SErr
  | SUndef => SUndef
  end.

(** base_slice_v3.cpp 360-378: the axes, checked and made non-negative *)
Fixpoint check_axes (dims pre : Z) (axes : list Z) : sres (list Z) :=
  match axes with
  | [] => SOk []
  | a :: rest =>
      if (a <? - dims) || (dims <=? a) then SErr else
      let axis := if a <? 0 then a + dims else a in
      if axis <=? pre then SErr else
      match check_axes dims axis rest with SOk l => SOk (axis :: l) | SErr => SErr | SUndef => SUndef end
  end.
Definition max_of (l : list Z) : Z := fold_left Z.max l (-1).

Record v3_params := V3 { v3_begin : list Z; v3_end : list Z; v3_stride : list Z; v3_begin_mask : Z; v3_end_mask : Z }.
(** 389-402: the axes as given, not as checked *)
Fixpoint v3_fill (starts ends axes steps : list Z) (p : v3_params) : sres v3_params :=
  match starts, axes with
  | s :: starts', a :: axes' =>
      match ends, steps with
      | e :: ends', st :: steps' =>
          if (a <? 0) || (Z.of_nat (length (v3_begin p)) <=? a) then SUndef else
          v3_fill starts' ends' axes' steps'
            (V3 (set_nth (Z.to_nat a) s (v3_begin p)) (set_nth (Z.to_nat a) e (v3_end p)) (set_nth (Z.to_nat a) st (v3_stride p))
                (Z.clearbit (v3_begin_mask p) a) (Z.clearbit (v3_end_mask p) a))
      | _, _ => SUndef (* ends[i] or steps[i] past the end *)
      end
  | _, _ => SOk p
  end.
(** 327-403 *)
Definition load_params (dims : Z) (starts ends : list Z) (axes steps : option (list Z)) : sres v3_params :=
  if Nat.eqb (length starts) 0 then SErr else
  let axes := match axes with Some l => l | None => upto (Z.of_nat (length starts)) end in
  if negb (Nat.eqb (length axes) (length starts)) then SErr else
  let steps := match steps with Some l => l | None => repeat 1 (length starts) end in
  match check_axes dims int_min axes with
  | SOk checked =>
      let max_dims := max_of checked + 1 in
      let mask := 2 ^ (max_dims + 1) - 1 in
      v3_fill starts ends axes steps
        (V3 (repeat 0 (Z.to_nat max_dims)) (repeat 0 (Z.to_nat max_dims)) (repeat 1 (Z.to_nat max_dims)) mask mask)
  | SErr => SErr
  | SUndef => SUndef
  end.
(** 279-304 *)
Definition slice_v3 {A} (starts ends : list Z) (axes steps : option (list Z)) (x : tensor A) : sres (raw_tensor A) :=
  match load_params (Z.of_nat (length (t_shape x))) (map to_int32 starts) (map to_int32 ends) (option_map (map to_int32) axes) (option_map (map to_int32) steps) with
  | SOk p => slice_run (v3_begin p) (v3_end p) (v3_stride p) (v3_begin_mask p) (v3_end_mask p) 0 0 0 x
  | SErr => SErr
  | SUndef => SUndef
  end.
