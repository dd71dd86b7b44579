(** Model of the operators that only give a tensor another shape:
    src/backend/base/base_new_shape.cpp, base_reshape.cpp, base_reshape_v2.cpp,
    base_flatten.cpp, base_unsqueeze.cpp, src/kernels/cpu/squeeze.cpp,
    flatten2d.cpp and expand.cpp.

    Simplifications: one tensor on the stack (two for reshape_v2 and expand,
    the second given as the list of its values); the attributes are the lists
    read from them. *)
From Coq Require Import List ZArith Bool.
From Verif Require Import ShapeModel KernelBase.
Import ListNotations.
Local Open Scope Z_scope.

(** base_new_shape.cpp 17-50: infer checks the count, run calls Tensor::reshape *)
Definition new_shape_run {A} (newshape : list Z -> sres (list Z)) (x : tensor A) : sres (tensor A) :=
  match newshape (t_shape x) with
  | SOk s =>
      if negb (prod (t_shape x) =? prod s) then SErr else
      match reshape (t_shape x) s with
      | SOk s' => SOk (Tn (t_dtype x) s' (t_data x))
      | SErr => SErr
      | SUndef => SUndef
      end
  | SErr => SErr
  | SUndef => SUndef
  end.

(** base_reshape.cpp 51-60: the sizes left out by a zero are those of [x] *)
Fixpoint copy_zeros (x shape : list Z) : option (list Z) :=
  match shape with
  | [] => Some []
  | d :: shape' =>
      match copy_zeros (tl x) shape' with
      | None => None
      | Some rest =>
          if d =? 0 then match x with [] => None | a :: _ => Some (a :: rest) end
          else Some (d :: rest)
      end
  end.

Definition wildcards (shape : list Z) : nat := length (filter (fun d => d <? 0) shape).

(** the product of the sizes that are given or copied: running_count times
    m_count_without_dim (36-40, 48, 58, 63), the factors in another order *)
Definition known_count (shape : list Z) : Z := prod (filter (fun d => 0 <=? d) shape).

(** base_reshape.cpp 62-68, base_reshape_v2.cpp 46-53 *)
Definition fill_wildcard (x_count : Z) (shape : list Z) : sres (list Z) :=
  if (wildcards shape =? 0)%nat then SOk shape else
  let running := known_count shape in
  if running =? 0 then SUndef else
  let v := Z.quot x_count running in
  if negb (v * running =? x_count) then SErr else SOk (put_wildcard shape v).

(** base_reshape.cpp 18-72 *)
Definition reshape_newshape (m_shape x : list Z) : sres (list Z) :=
  if (1 <? wildcards m_shape)%nat then SErr else
  match copy_zeros x m_shape with
  | None => SErr
  | Some s => fill_wildcard (prod x) s
  end.

Definition reshape_op {A} (m_shape : list Z) (x : tensor A) : sres (tensor A) := new_shape_run (reshape_newshape m_shape) x.

(** base_reshape_v2.cpp 25-31 *)
Fixpoint copy_zeros_v2 (x shape : list Z) : list Z :=
  match shape with
  | [] => []
  | d :: shape' =>
      (if d =? 0 then match x with [] => 0 | a :: _ => a end else d) :: copy_zeros_v2 (tl x) shape'
  end.

(** base_reshape_v2.cpp 14-56 *)
Definition reshape_v2_newshape (shape x : list Z) : sres (list Z) :=
  let s := copy_zeros_v2 x shape in
  if existsb (fun d => d =? 0) s || (1 <? wildcards s)%nat then SErr else fill_wildcard (prod x) s.

(** base_reshape_v2.cpp 59-92 *)
Definition reshape_v2_op {A} (shape : list Z) (x : tensor A) : sres (tensor A) := new_shape_run (reshape_v2_newshape shape) x.

(** base_flatten.cpp 24-41; with a dim below -rank - 1 the vector of ones has
    an impossible size, std::length_error is thrown; with -rank - 1 the last
    entry of an empty vector is written *)
Definition flatten_newshape (m_dim : Z) (x : list Z) : sres (list Z) :=
  let rank := Z.of_nat (length x) in
  let fixed := if m_dim <? 0 then m_dim + rank else m_dim in
  if fixed <? -1 then SErr else
  let need := Z.to_nat (fixed + 1) in
  if Nat.ltb need (length x) then
    if fixed <? 0 then SUndef
    else SOk (removelast (firstn need x) ++ [prod (skipn (Z.to_nat fixed) x)])
  else if Nat.ltb (length x) need then SOk (x ++ repeat 1 (need - length x))
  else SOk x.

Definition flatten_op {A} (m_dim : Z) (x : tensor A) : sres (tensor A) := new_shape_run (flatten_newshape m_dim) x.

(** flatten2d.cpp 22-35 *)
Definition flatten2d_newshape (m_dim : Z) (x : list Z) : sres (list Z) :=
  let rank := Z.of_nat (length x) in
  let fixed := if m_dim <? 0 then m_dim + rank else m_dim in
  if fixed <=? 0 then SOk [1; prod x]
  else if rank <=? fixed then SOk [prod x; 1]
  else SOk [prod (firstn (Z.to_nat fixed) x); prod (skipn (Z.to_nat fixed) x)].

Definition flatten2d_op {A} (m_dim : Z) (x : tensor A) : sres (tensor A) := new_shape_run (flatten2d_newshape m_dim) x.

(** shape.insert(shape.begin() + n, v) *)
Definition insert_at (n : nat) (v : Z) (shape : list Z) : list Z := firstn n shape ++ v :: skipn n shape.

(** base_unsqueeze.cpp 32-50 *)
Fixpoint unsqueeze_newshape (axes shape : list Z) : sres (list Z) :=
  match axes with
  | [] => SOk shape
  | axis :: axes' =>
      let max_axis := Z.of_nat (length shape) in
      if (max_axis <? axis) || (axis <? - max_axis) then SErr else
      unsqueeze_newshape axes' (insert_at (Z.to_nat (if 0 <=? axis then axis else max_axis + axis + 1)) 1 shape)
  end.

Definition unsqueeze_op {A} (axes : list Z) (x : tensor A) : sres (tensor A) := new_shape_run (unsqueeze_newshape axes) x.

(** shape.erase(shape.begin() + n) *)
Definition erase_at (n : nat) (shape : list Z) : list Z := firstn n shape ++ skipn (S n) shape.

(** squeeze.cpp 37-53; [axes] from the last to the first *)
Fixpoint squeeze_axes (axes shape : list Z) : sres (list Z) :=
  match axes with
  | [] => SOk shape
  | a :: axes' =>
      let max_axis := Z.of_nat (length shape) in
      let axis := if 0 <=? a then a else max_axis + a in
      if (axis <? 0) || (max_axis <=? axis) then SErr else
      if negb (nth (Z.to_nat axis) shape 0 =? 1) then SErr else
      squeeze_axes axes' (erase_at (Z.to_nat axis) shape)
  end.

(** squeeze.cpp 26-56 *)
Definition squeeze_newshape (axes shape : list Z) : sres (list Z) :=
  match axes with
  | [] => SOk (filter (fun d => negb (d =? 1)) shape)
  | _ => squeeze_axes (rev axes) shape
  end.

Definition squeeze_op {A} (axes : list Z) (x : tensor A) : sres (tensor A) := new_shape_run (squeeze_newshape axes) x.

(** expand.cpp 46-67: one side; the number of ones that are inserted *)
Definition expand_side (room limit : nat) (bounded : bool) : nat := if bounded then Nat.min room limit else room.

(** expand.cpp 70-81 and 83-98: the shape, with [front] and [back] the
    attributes front and end *)
Definition expand_shape (front back : Z) (inverse : bool) (shape : list Z) (dims : Z) : option (list Z) :=
  if dims <? 0 then None else
  let n := Z.to_nat dims in
  if Nat.ltb n (length shape) then None
  else if Nat.eqb (length shape) n then Some shape
  else if (0 <? front) && (0 <? back) && Nat.ltb (length shape + Z.to_nat front + Z.to_nat back) n then None
  else
    let room := (n - length shape)%nat in
    let f := expand_side room (Z.to_nat front) (0 <=? front) in
    let b := expand_side room (Z.to_nat back) (0 <=? back) in
    if inverse then
      let s1 := shape ++ repeat 1 b in
      if (back <? 0) || Nat.eqb (length s1) n then Some s1 else
      let f' := expand_side (n - length s1) (Z.to_nat front) (0 <=? front) in
      let s2 := repeat 1 f' ++ s1 in
      if (front <? 0) || Nat.eqb (length s2) n then Some s2 else None
    else
      let s1 := repeat 1 f ++ shape in
      if (front <? 0) || Nat.eqb (length s1) n then Some s1 else
      let b' := expand_side (n - length s1) (Z.to_nat back) (0 <=? back) in
      let s2 := s1 ++ repeat 1 b' in
      if (back <? 0) || Nat.eqb (length s2) n then Some s2 else None.

(** expand.cpp 101-108 *)
Definition expand_op {A} (front back : Z) (inverse : bool) (dims : Z) (x : tensor A) : sres (tensor A) :=
  match expand_shape front back inverse (t_shape x) dims with
  | None => SErr
  | Some s => match reshape (t_shape x) s with
              | SOk s' => SOk (Tn (t_dtype x) s' (t_data x))
              | SErr => SErr
              | SUndef => SUndef
              end
  end.
