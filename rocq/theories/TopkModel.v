(** Model of the topkv2 operator: src/backend/base/base_topkv2.cpp 40-66 and
    src/kernels/cpu/topkv2.cpp 52-76, 84-103.

    std::partial_sort is a parameter: the C++ standard leaves open how equal
    elements are ordered, so nothing more than its contract (TopkSpec) is used.
    [gt] is the comparison [>] of the element type.

    Simplifications: the values are read at the indices of the temporary vector
    (67 reads them back from the output they have just been copied to by 65);
    a negative number of elements, for which the sizes of the outputs would be
    negative, is left undefined; "sorted" selects between two equal branches
    (76-83) and is left out. *)
From Coq Require Import List ZArith Bool.
From Verif Require Import ShapeModel KernelBase TileModel.
Import ListNotations.
Local Open Scope Z_scope.

(** the result of std::partial_sort(l, l + k, end, cmp) as a function of k, cmp, l *)
Definition sorter := nat -> (Z -> Z -> bool) -> list Z -> list Z.

Section Topk.
Context {A : Type}.
Variable psort : sorter.
Variable gt : A -> A -> bool.

(** topkv2.cpp 61-62: data[a] > data[b] *)
Definition row_gt (data : list A) (base : Z) (a b : Z) : bool :=
  match load data (base + a), load data (base + b) with
  | SOk u, SOk v => gt u v
  | _, _ => false
  end.
(** 58-62 *)
Definition row_order (data : list A) (W K n : Z) : list Z :=
  psort (Z.to_nat K) (row_gt data (n * W)) (upto W).
(** 57, 64-65 *)
Definition index_events (data : list A) (N W K : Z) : list (event Z) :=
  flat_map (fun n => memcpy (n * K) (row_order data W K n) 0 K) (upto N).
(** 57, 63, 66-69 *)
Definition value_events (data : list A) (N W K : Z) : list (event A) :=
  flat_map (fun n => map (fun k => (n * K + k,
    match load (row_order data W K n) k with
    | SOk i => load data (n * W + i)
    | _ => SUndef
    end)) (upto K)) (upto N).

(** base_topkv2.cpp 40-66; topkv2.cpp 54-56, 84-103 *)
Definition topkv2 (number : Z) (x : tensor A) : sres (raw_tensor A * raw_tensor Z) :=
  match rev (t_shape x) with
  | [] => SOk (Tn (t_dtype x) [] (map Some (t_data x)), Tn 5 [] [Some 0])
  | W :: lead =>
      let K := Z.min W number in
      if K <? 0 then SUndef else
      let shape := rev lead ++ [K] in
      if negb (tile_supports (t_dtype x)) then SErr else
      let N := prod (rev lead) in
      match exec (fresh (prod shape)) (value_events (t_data x) N W K), exec (fresh (prod shape)) (index_events (t_data x) N W K) with
      | SOk v, SOk i => SOk (Tn (t_dtype x) shape v, Tn 5 shape i)
      | SErr, _ | _, SErr => SErr
      | _, _ => SUndef
      end
  end.
End Topk.
