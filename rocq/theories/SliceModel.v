(** Model of the strided_slice operator:
    src/backend/base/base_strided_slice.cpp 28-338 and
    src/kernels/cpu/strided_slice.cpp 25-58.

    Simplifications: [1 << i] is bit [i] (at most 31 slices; more is undefined
    in the code and not modelled); the shapes are [Shape] in the code, lists
    here; the final switch over the element size is left out. *)
From Coq Require Import List ZArith Bool.
From Verif Require Import ShapeModel KernelBase.
Import ListNotations.
Local Open Scope Z_scope.

(** 49-88: the number of elements, and begin and end as the function leaves
    them; the zero stride is only logged *)
Definition infer_axis (x begin end_ stride : Z) (begin_flag end_flag : bool) : Z * Z * Z :=
  let none := fun b e => (0, b, e) in
  let after_begin := fun b =>
    let after_end := fun e =>
      (if 0 <? stride then if b <? e then Z.quot (e - b - 1) stride + 1 else 0
       else if stride <? 0 then if e <? b then Z.quot (b - e - 1) (- stride) + 1 else 0
       else 0, b, e) in
    if end_flag then after_end (if 0 <? stride then x else -1)
    else if 0 <? stride then
      if end_ <=? - x then none b end_
      else if x <? end_ then after_end x
      else if end_ <? 0 then after_end (end_ + x) else after_end end_
    else
      if x <? end_ then none b end_
      else if end_ <=? - x then after_end (-1)
      else if end_ <? 0 then after_end (end_ + x) else after_end end_ in
  if begin_flag then after_begin (if 0 <? stride then 0 else x - 1)
  else if 0 <? stride then
    if x <=? begin then none begin end_
    else if begin <? - x then after_begin 0
    else if begin <? 0 then after_begin (begin + x) else after_begin begin
  else
    if begin <? - x then none begin end_
    else if x <=? begin then after_begin (x - 1)
    else if begin <? 0 then after_begin (begin + x) else after_begin begin.

Definition bit (mask : Z) (i : nat) : bool := Z.testbit mask (Z.of_nat i).

(** 90-102 *)
Definition bit_ones (mask : Z) : nat := length (filter (bit mask) (seq 0 32)).

(** 146-152: the axes left of the ellipsis *)
Fixpoint left_axes (fuel i : nat) (ellipsis new_axis : Z) (count : Z) : nat * Z :=
  match fuel with
  | O => (i, count)
  | S k => if bit ellipsis i then (i, count)
           else left_axes k (S i) ellipsis new_axis (if bit new_axis i then count else count + 1)
  end.

(** 154-157: those right of it *)
Definition right_axes (from slice_size : nat) (new_axis : Z) : Z :=
  Z.of_nat (length (filter (fun i => negb (bit new_axis i)) (seq from (slice_size - from)))).

(** 176-183 *)
Fixpoint insert_new_axes (todo : list nat) (new_axis : Z) (in_ : list Z) : sres (list Z) :=
  match todo with
  | [] => SOk in_
  | i :: rest =>
      if bit new_axis i then
        if Nat.ltb (length in_) i then SErr
        else insert_new_axes rest new_axis (firstn i in_ ++ 1 :: skipn i in_)
      else insert_new_axes rest new_axis in_
  end.

(** 205-211 *)
Fixpoint infer_axes (i : nat) (in_ begin end_ stride : list Z) (bm em : nat -> bool) : list (Z * Z) :=
  match in_, begin, end_, stride with
  | x :: in', b :: begin', e :: end', s :: stride' =>
      let '(n, b', _) := infer_axis x b e s (bm i) (em i) in
      (n, b') :: infer_axes (S i) in' begin' end' stride' bm em
  | _, _, _, _ => []
  end.

(** 224-239; [i] runs from [slice_size - 1] down to 0 *)
Fixpoint shrink_axes (n : nat) (ellipsis_index : nat) (ellipsis_shape : list Z) (shrink : Z) (out : list Z) :
    sres (list Z) :=
  match n with
  | O => SOk out
  | S i =>
      if negb (Nat.eqb (length ellipsis_shape) 0) && Nat.eqb i ellipsis_index then
        shrink_axes i ellipsis_index ellipsis_shape shrink (firstn i out ++ ellipsis_shape ++ skipn (S i) out)
      else if bit shrink i then
        if nth i out 0 =? 1 then
          shrink_axes i ellipsis_index ellipsis_shape shrink (firstn i out ++ skipn (S i) out)
        else SErr
      else shrink_axes i ellipsis_index ellipsis_shape shrink out
  end.

Record sliced_plan := Plan { p_in : list Z; p_y : list Z; p_begin : list Z; p_stride : list Z; p_out : list Z }.

(** the part after the ellipsis: 174-241 *)
Definition infer_rest (in0 begin end_ stride : list Z) (bm em : nat -> bool) (new_axis shrink : Z)
    (ellipsis_index : nat) (ellipsis_shape : list Z) : sres sliced_plan :=
  let slice_size := length begin in
  match insert_new_axes (seq 0 slice_size) new_axis in0 with
  | SErr => SErr
  | SUndef => SUndef
  | SOk in1 =>
      let more := Nat.ltb slice_size (length in1) in
      let final_shape := if more then skipn slice_size in1 else [] in
      let in2 := if more then firstn slice_size in1 ++ [prod final_shape] else in1 in
      let begin2 := if more then begin ++ [0] else begin in
      let end2 := if more then end_ ++ [0] else end_ in
      let stride2 := if more then stride ++ [1] else stride in
      let bm2 := fun i => bm i || (more && Nat.eqb i slice_size) in
      let em2 := fun i => em i || (more && Nat.eqb i slice_size) in
      let size2 := if more then S slice_size else slice_size in
      if negb (Nat.eqb (length in2) size2) then SErr else
      let axes := infer_axes 0 in2 begin2 end2 stride2 bm2 em2 in
      let y := map fst axes in
      let out1 := if more then removelast y ++ final_shape else y in
      match shrink_axes slice_size ellipsis_index ellipsis_shape shrink out1 with
      | SOk out => SOk (Plan in2 y (map snd axes) stride2 out)
      | SErr => SErr
      | SUndef => SUndef
      end
  end.

(** 119-244 *)
Definition infer_slice (x begin end_ stride : list Z) (begin_mask end_mask ellipsis new_axis shrink : Z) : sres sliced_plan :=
  if negb (Nat.eqb (length begin) (length end_) && Nat.eqb (length begin) (length stride)) then SErr else
  let slice_size := length begin in
  if Nat.eqb slice_size 0 then SErr else
  if Nat.ltb 1 (bit_ones ellipsis) then SErr else
  if Nat.eqb (bit_ones ellipsis) 0 then
    infer_rest x begin end_ stride (bit begin_mask) (bit end_mask) new_axis shrink 0 []
  else
    let '(index, left_count) := left_axes slice_size 0 ellipsis new_axis 0 in
    let right_count := right_axes (S index) slice_size new_axis in
    let count := Z.of_nat (length x) - left_count - right_count in
    (* iterators outside the shape, or stride[slice_size] *)
    if (count <? 0) || Nat.leb slice_size index then SUndef else
    let l := Z.to_nat left_count in
    let c := Z.to_nat count in
    let middle := firstn c (skipn l x) in
    let in0 := firstn l x ++ [prod middle] ++ skipn (l + c) x in
    infer_rest in0 begin end_ (set_nth index 1 stride)
      (fun i => bit begin_mask i || Nat.eqb i index) (fun i => bit end_mask i || Nat.eqb i index)
      new_axis shrink index middle.

(** strided_slice.cpp 43-57 *)
Fixpoint slice_stores {A} (src : list A) (in_ y begin stride : list Z) (n : nat) (i : Z) (coord_out : list Z) : list (event A) :=
  match n with
  | O => []
  | S k =>
      let coord_in := map (fun cbs => fst cbs * snd (snd cbs) + fst (snd cbs))
                        (combine coord_out (combine begin stride)) in
      (i, match to_index in_ coord_in with SOk j => load src j | _ => SUndef end)
      :: slice_stores src in_ y begin stride k (i + 1) (increase y coord_out)
  end.

(** base_strided_slice.cpp 299-330 *)
Definition slice_run {A} (begin end_ stride : list Z) (begin_mask end_mask ellipsis new_axis shrink : Z) (x : tensor A) :
    sres (raw_tensor A) :=
  match infer_slice (t_shape x) begin end_ stride begin_mask end_mask ellipsis new_axis shrink with
  | SErr => SErr
  | SUndef => SUndef
  | SOk p =>
      if negb (prod (p_in p) =? prod (t_shape x)) then SErr else
      match exec (fresh (prod (p_y p)))
              (slice_stores (t_data x) (p_in p) (p_y p) (p_begin p) (p_stride p)
                 (Z.to_nat (prod (p_y p))) 0 (start (p_y p))) with
      | SOk m => if prod (p_out p) =? prod (p_y p) then SOk (Tn (t_dtype x) (p_out p) m) else SErr
      | SErr => SErr
      | SUndef => SUndef
      end
  end.
