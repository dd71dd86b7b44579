(** Model of the operators where, broadcast and range on the CPU:
    src/backend/base/base_where.cpp 7-145, src/kernels/cpu/where.cpp 7-53,
    src/backend/base/base_broadcast_v2.cpp 33-219 (the registered "broadcast";
    base_broadcast.cpp is not registered), src/kernels/cpu/broadcast_v2.cpp
    34-143, and src/kernels/cpu/range.cpp 15-125.

    Simplifications: the condition is a tensor of integers, and its cast to
    BOOLEAN keeps the low byte (core/tensor_builder.cpp 42-57 with dtype.h
    145), other condition types are not modelled; range is modelled for
    INT32; a store through a pointer of twice the width is two stores, and
    aliasing and alignment are not modelled; OpenMP is off; ranks are not
    limited. *)
From Coq Require Import List ZArith Bool.
From Verif Require Import ShapeModel KernelBase TileModel EltwiseModel.
Import ListNotations.
Local Open Scope Z_scope.

(** ** where *)

(** base_where.cpp 51-66: the shapes have the same length here *)
Fixpoint where_axes (c l r : list Z) : option (list Z * bool) :=
  match c, l, r with
  | a :: c', b :: l', d :: r' =>
      let equal := (a =? b) && (a =? d) in
      if negb equal &&
         ((negb (a =? 1) && negb (b =? 1) && negb (a =? b)) ||
          (negb (a =? 1) && negb (d =? 1) && negb (a =? d)) ||
          (negb (b =? 1) && negb (d =? 1) && negb (b =? d))) then None else
      match where_axes c' l' r' with
      | Some (o, do_broadcast) =>
          if equal then Some (a :: o, do_broadcast) else Some (Z.max (Z.max a b) d :: o, true)
      | None => None
      end
  | _, _, _ => Some ([], false)
  end.

(** base_where.cpp 12-74, with broadcast = true: the aligned shapes, the
    output shape and do_broadcast *)
Definition where_reduce (c l r : list Z) : option (list Z * list Z * list Z * list Z * bool) :=
  if shape_eqb c l && shape_eqb c r then Some (c, l, r, c, false) else
  let max_dim := Nat.max (Nat.max (length c) (length l)) (length r) in
  let c' := front_append_ones c (max_dim - length c) in
  let l' := front_append_ones l (max_dim - length l) in
  let r' := front_append_ones r (max_dim - length r) in
  match where_axes c' l' r' with
  | Some (o, b) => Some (c', l', r', o, b)
  | None => None
  end.

(** the cast to BOOLEAN: a byte; it is left alone if it is one already *)
Definition as_boolean (dtype v : Z) : bool := negb ((if dtype =? 21 then v else v mod 256) =? 0).

(** where.cpp 8-11: [x = cond ? lhs : rhs], both already loaded *)
Definition select {A} (cond : sres bool) (lhs rhs : sres A) : sres A :=
  match cond, lhs, rhs with SOk b, SOk x, SOk y => SOk (if b then x else y) | _, _, _ => SUndef end.

(** where.cpp 21-41 *)
Fixpoint where_stores {A} (c : list bool) (l r : list A) (cs ls rs os : list Z) (n : nat) (i : Z) (coordinate : list Z) : list (event A) :=
  match n with
  | O => []
  | S n' => (i, select (mod_load c cs coordinate) (mod_load l ls coordinate) (mod_load r rs coordinate))
            :: where_stores c l r cs ls rs os n' (i + 1) (increase os coordinate)
  end.

(** where.cpp 43-54 *)
Definition where_same {A} (c : list bool) (l r : list A) (count : Z) : list (event A) :=
  map (fun i => (i, match load c i with SOk b => if b then load l i else load r i | _ => SUndef end)) (upto count).

(** base_where.cpp 76-145 and the switches of where.cpp *)
Definition where_run {A} (cond : tensor Z) (l r : tensor A) : sres (raw_tensor A) :=
  if negb (t_dtype l =? t_dtype r) then SErr else
  match where_reduce (t_shape cond) (t_shape l) (t_shape r) with
  | None => SErr
  | Some (cs, ls, rs, os, do_broadcast) =>
      if negb (tile_supports (t_dtype l)) then SErr else
      let c := map (as_boolean (t_dtype cond)) (t_data cond) in
      match exec (fresh (prod os))
              (if do_broadcast then where_stores c (t_data l) (t_data r) cs ls rs os (Z.to_nat (prod os)) 0 (start os)
               else where_same c (t_data l) (t_data r) (prod os)) with
      | SOk m => SOk (Tn (t_dtype l) os m)
      | SErr => SErr
      | SUndef => SUndef
      end
  end.

(** ** broadcast *)

(** base_broadcast_v2.cpp 203-218 *)
Fixpoint broadcast_axes (x y : list Z) : option (list Z) :=
  match x, y with
  | a :: x', b :: y' =>
      if negb (a =? b) && negb (a =? 1) && negb (b =? 1) then None else
      match broadcast_axes x' y' with Some o => Some (Z.max a b :: o) | None => None end
  | _, _ => Some []
  end.

(** broadcast_v2.cpp 56-97: the order in which memset<T> writes N elements;
    [levels] is how many times the width can be doubled *)
Fixpoint memset_order (levels : nat) (N : Z) : list Z :=
  match levels with
  | O => upto N
  | S k =>
      if 1 <? N then
        [0; 1] ++ flat_map (fun j => [2 + 2 * j; 2 + 2 * j + 1]) (memset_order k ((N - 2) / 2))
        ++ (if N mod 2 =? 0 then [] else [N - 1])
      else if 0 <? N then [0] else []
  end.

(** the switch over type_bytes (broadcast_v2.cpp 145-195) *)
Definition memset_levels (bytes : Z) : option nat :=
  if bytes =? 1 then Some 3%nat else if bytes =? 2 then Some 2%nat
  else if bytes =? 4 then Some 1%nat else if bytes =? 8 then Some 0%nat else None.

(** broadcast_v2.cpp 38-54 *)
Fixpoint spread_stores {A} (x : list A) (xs os : list Z) (n : nat) (i : Z) (coordinate : list Z) : list (event A) :=
  match n with
  | O => []
  | S n' => (i, mod_load x xs coordinate) :: spread_stores x xs os n' (i + 1) (increase os coordinate)
  end.

(** broadcast_v2.cpp 99-106 *)
Definition spread_scalar {A} (levels : nat) (x : list A) (count : Z) : list (event A) :=
  map (fun i => (i, load x 0)) (memset_order levels count).

(** broadcast_v2.cpp 108-143 *)
Definition spread_bias {A} (levels : nat) (x : list A) (os : list Z) (dim : nat) : list (event A) :=
  let number := prod (firstn dim os) in
  let count := prod (skipn (S dim) os) in
  let channels := nth dim os 0 in
  if count =? 1 then
    flat_map (fun n => map (fun c => (n * channels + c, load x c)) (upto channels)) (upto number)
  else
    flat_map (fun n =>
      flat_map (fun c =>
        map (fun i => ((n * channels + c) * count + i, load x c)) (memset_order levels count)) (upto channels)) (upto number).

(** base_broadcast_v2.cpp 129-177; [bytes] is type_bytes of the tensor *)
Definition broadcast_op_run {A} (bytes : Z) (x : tensor A) (shape : list Z) : sres (raw_tensor A) :=
  let x' := front_append_ones (t_shape x) (length shape - length (t_shape x)) in
  let y' := front_append_ones shape (length (t_shape x) - length shape) in
  if shape_eqb x' y' then SOk (Tn (t_dtype x) y' (map Some (t_data x))) else
  match broadcast_axes x' y' with
  | None => SErr
  | Some target =>
      let '(_, xs, os) := reduce_shape (length target) y' x' target in
      match memset_levels bytes with
      | None => SErr
      | Some levels =>
          match exec (fresh (prod target))
                  (if is_scalar xs then spread_scalar levels (t_data x) (prod os)
                   else match is_bias os xs with
                        | Some dim => spread_bias levels (t_data x) os dim
                        | None => spread_stores (t_data x) xs os (Z.to_nat (prod os)) 0 (start os)
                        end) with
          | SOk m => SOk (Tn (t_dtype x) target m)
          | SErr => SErr
          | SUndef => SUndef
          end
      end
  end.

(** ** range *)

(** a 32-bit result: anything else has overflowed *)
Definition int32 (v : Z) : sres Z := if (- 2147483648 <=? v) && (v <=? 2147483647) then SOk v else SUndef.

Definition then_ {X Y} (a : sres X) (f : X -> sres Y) : sres Y :=
  match a with SOk x => f x | SErr => SErr | SUndef => SUndef end.

(** range.cpp 15-29 *)
Definition range_steps (first limit delta : Z) : sres Z :=
  then_ (int32 (limit - first)) (fun span =>
  if delta =? 0 then SUndef else
  then_ (int32 (Z.quot span delta)) (fun steps =>
  then_ (int32 (steps * delta)) (fun t =>
  then_ (int32 (t + first)) (fun last =>
  if last <? limit then int32 (steps + 1) else SOk steps)))).

(** range.cpp 32-43 *)
Fixpoint range_values (first delta : Z) (is : list Z) : sres (list Z) :=
  match is with
  | [] => SOk []
  | i :: is' =>
      then_ (int32 (i * delta)) (fun t =>
      then_ (int32 (first + t)) (fun v =>
      then_ (range_values first delta is') (fun l => SOk (v :: l))))
  end.

(** range.cpp 45-125; a tensor of negative size cannot be allocated *)
Definition range_run (first limit delta : Z) : sres (tensor Z) :=
  then_ (range_steps first limit delta) (fun steps =>
  if steps <? 0 then SErr else
  then_ (range_values first delta (upto steps)) (fun l => SOk (Tn 5 [steps] l))).
