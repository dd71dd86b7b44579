(** Model of shape arithmetic: Tensor::reshape and flatten
    (src/core/tensor.cpp 213-239, 474-498), Tensor::has_shape (459-466),
    HypeShape and ShapeIterator (include/core/tensor_iterator.h).

    Sizes are unbounded integers: products are assumed to fit in [int] (a
    signed overflow is undefined in the code). *)
From Coq Require Import List ZArith Bool.
Import ListNotations.
Local Open Scope Z_scope.

(** std::accumulate(..., 1, std::multiplies<int>()) *)
Definition prod (l : list Z) : Z := fold_left Z.mul l 1.

Inductive sres (A : Type) := SOk (a : A) | SErr | SUndef.
Arguments SOk {A} _.
Arguments SErr {A}.
Arguments SUndef {A}.

(** tensor.cpp 216-225: the scan for the wildcard; [found] is
    [fixed_index >= 0].  Result: the shape with the wildcard set to -1 and
    whether there is one; [None] when there are two. *)
Fixpoint scan_wildcard (shape : list Z) (found : bool) : option (list Z * bool) :=
  match shape with
  | [] => Some ([], found)
  | x :: rest =>
      if x <? 0 then
        if found then None
        else match scan_wildcard rest true with
             | Some (l, f) => Some (-1 :: l, f)
             | None => None
             end
      else match scan_wildcard rest found with
           | Some (l, f) => Some (x :: l, f)
           | None => None
           end
  end.

(** fixed_shape[fixed_index] = v *)
Fixpoint put_wildcard (shape : list Z) (v : Z) : list Z :=
  match shape with
  | [] => []
  | x :: rest => if x <? 0 then v :: rest else x :: put_wildcard rest v
  end.

(** tensor.cpp 213-239 *)
Definition reshape (sizes shape : list Z) : sres (list Z) :=
  match scan_wildcard shape false with
  | None => SErr
  | Some (fixed, found) =>
      let fixed' :=
        if found : bool then
          let up := prod sizes in
          let down := prod fixed in
          if down =? 0 then SUndef else SOk (put_wildcard fixed (Z.quot up (- down)))
        else SOk fixed in
      match fixed' with
      | SOk s => if prod s =? prod sizes then SOk s else SErr
      | r => r
      end
  end.

(** tensor.cpp 474-498 *)
Definition flatten_shape (sizes : list Z) (dim : nat) : list Z :=
  let need := S dim in
  if Nat.ltb need (length sizes) then
    removelast (firstn need sizes) ++ [prod (skipn dim sizes)]
  else if Nat.ltb (length sizes) need then
    sizes ++ repeat 1 (need - length sizes)
  else sizes.

Definition flatten (sizes : list Z) (dim : Z) : list Z :=
  flatten_shape sizes (Z.to_nat (if dim <? 0 then 0 else dim)).

(** tensor.cpp 459-466 *)
Fixpoint has_shape (sizes shape : list Z) : bool :=
  match sizes, shape with
  | [], [] => true
  | s :: sizes', x :: shape' => (if 0 <=? x then s =? x else true) && has_shape sizes' shape'
  | _, _ => false
  end.

(** tensor_iterator.h 117-130: the weights, from the last one backwards *)
Fixpoint weights (shape : list Z) : list Z :=
  match shape with
  | [] => []
  | [d] => [d]
  | d :: rest => match weights rest with
                 | w :: ws => (w * d) :: w :: ws
                 | [] => [d]
                 end
  end.

(** tensor_iterator.h 146-163 (the same loop in all overloads); reading past
    the weights is undefined *)
Fixpoint to_index_loop (ws coordinate : list Z) (index : Z) : sres Z :=
  match coordinate with
  | [] => SOk index
  | [x] => SOk (index + x)
  | x :: rest => match ws with
                 | w :: ws' => to_index_loop ws' rest (index + w * x)
                 | [] => SUndef
                 end
  end.

Definition to_index (shape coordinate : list Z) : sres Z :=
  match coordinate with
  | [] => SOk 0
  | _ => let ws := weights shape in
         if Nat.ltb (S (length ws)) (length coordinate) then SUndef
         else to_index_loop (skipn (S (length ws) - length coordinate) ws) coordinate 0
  end.

(** tensor_iterator.h 258-286; division by a zero weight is undefined *)
Fixpoint to_coordinate_loop (ws : list Z) (index : Z) : sres (list Z) :=
  match ws with
  | [] => SOk [index]
  | w :: ws' =>
      if w =? 0 then SUndef else
      match to_coordinate_loop ws' (Z.rem index w) with
      | SOk c => SOk (Z.quot index w :: c)
      | r => r
      end
  end.

Definition to_coordinate (shape : list Z) (index : Z) : sres (list Z) :=
  match shape with
  | [] => SOk []
  | _ => to_coordinate_loop (tl (weights shape)) index
  end.

(** tensor_iterator.h 288 *)
Definition hype_count (shape : list Z) : Z :=
  match weights shape with [] => 1 | w :: _ => w end.

(** tensor_iterator.h 66-80; [dim] runs downwards, so over the reversed
    lists *)
Fixpoint increase_rev (shape coordinate : list Z) : list Z :=
  match shape, coordinate with
  | d :: shape', c :: coordinate' =>
      if c + 1 =? d then 0 :: increase_rev shape' coordinate'
      else (c + 1) :: coordinate'
  | _, _ => coordinate
  end.

Definition increase (shape coordinate : list Z) : list Z :=
  rev (increase_rev (rev shape) (rev coordinate)).

(** tensor_iterator.h 82-94 *)
Fixpoint decrease_rev (shape coordinate : list Z) : list Z :=
  match shape, coordinate with
  | d :: shape', c :: coordinate' =>
      if c - 1 <? 0 then (d - 1) :: decrease_rev shape' coordinate'
      else (c - 1) :: coordinate'
  | _, _ => coordinate
  end.

Definition decrease (shape coordinate : list Z) : list Z :=
  rev (decrease_rev (rev shape) (rev coordinate)).

(** tensor_iterator.h 21-24, 49-53: the start *)
Definition start (shape : list Z) : list Z := repeat 0 (length shape).

(** tensor.cpp 626-645: Tensor::slice on the element list of a tensor (its
    first size is [n], one slice has [width] elements).  The code does no
    range check; reading outside the memory is undefined. *)
Definition slice {A} (sizes : list Z) (data : list A) (b e : Z) : sres (list Z * list A) :=
  if negb (b <? e) then SErr else
  match sizes with
  | [] => SUndef
  | _ :: rest =>
      let width := prod rest in
      let from := b * width in
      let len := (e - b) * width in
      if (from <? 0) || (len <? 0) || (Z.of_nat (length data) <? from + len) then SUndef
      else SOk ((e - b) :: rest, firstn (Z.to_nat len) (skipn (Z.to_nat from) data))
  end.

Definition slice1 {A} (sizes : list Z) (data : list A) (i : Z) : sres (list Z * list A) :=
  match sizes with
  | [] => SUndef
  | _ :: rest =>
      let width := prod rest in
      let from := i * width in
      if (from <? 0) || (width <? 0) || (Z.of_nat (length data) <? from + width) then SUndef
      else SOk (rest, firstn (Z.to_nat width) (skipn (Z.to_nat from) data))
  end.
