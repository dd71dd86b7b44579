(** Model of the binary element-wise operators on the CPU:
    src/backend/base/element_wise_reduce.cpp, base_equal.cpp, and the kernels
    src/kernels/cpu/add.cpp, sub.cpp, mul.cpp, div.cpp, maximum.cpp, mod.cpp,
    equal.cpp, which differ in the operator, in whether float has a
    vectorised version, and in how the "cross" cases (the smaller operand on
    the left) are handled.

    Simplifications: the element values and the operator are abstract ([op]
    is both reduce_operator overloads; a four-lane instruction is four times
    the scalar operation); [cast] is the conversion of one element from one
    type to another (the _cast operator); OpenMP is off; products fit in
    [int]; the shape of a tensor is not longer than seven. *)
From Coq Require Import List ZArith Bool.
From Verif Require Import ShapeModel KernelBase TileModel.
Import ListNotations.
Local Open Scope Z_scope.

(** ** Shapes *)

(** element_wise_reduce.cpp 16-19, 39-44 *)
Definition front_append_ones (shape : list Z) (count : nat) : list Z := repeat 1 count ++ shape.

(** element_wise_reduce.cpp 51-61: the shapes have the same length here *)
Fixpoint reduce_axes (l r : list Z) : option (list Z * bool) :=
  match l, r with
  | a :: l', b :: r' =>
      if negb (a =? b) && negb (a =? 1) && negb (b =? 1) then None else
      match reduce_axes l' r' with
      | Some (o, do_broadcast) =>
          if a =? b then Some (a :: o, do_broadcast) else Some (a * b :: o, true)
      | None => None
      end
  | _, _ => Some ([], false)
  end.

Fixpoint shape_eqb (l r : list Z) : bool :=
  match l, r with
  | [], [] => true
  | a :: l', b :: r' => (a =? b) && shape_eqb l' r'
  | _, _ => false
  end.

(** element_wise_reduce.cpp 21-68, with broadcast = true: the aligned shapes,
    the output shape and do_broadcast *)
Definition reduce (l r : list Z) : option (list Z * list Z * list Z * bool) :=
  if shape_eqb l r then Some (l, r, l, false) else
  let l' := front_append_ones l (length r - length l) in
  let r' := front_append_ones r (length l - length r) in
  match reduce_axes l' r' with
  | Some (o, b) => Some (l', r', o, b)
  | None => None
  end.

(** element_wise_reduce.cpp 250-292: how many further axes join a group *)
Fixpoint extend (lhs_ones rhs_ones equal : bool) (l r : list Z) : nat :=
  match l, r with
  | a :: l', b :: r' =>
      let lo := if lhs_ones then a =? 1 else false in
      let ro := if rhs_ones then b =? 1 else false in
      let eq := if equal then a =? b else false in
      if lo || ro || eq then S (extend lo ro eq l' r') else O
  | _, _ => O
  end.

(** the loop over [i], on what is right of [i]; [fuel] is at least the
    number of axes *)
Fixpoint reduce_shape (fuel : nat) (l r o : list Z) : list Z * list Z * list Z :=
  match fuel with
  | O => (l, r, o)
  | S fuel' =>
      match l, r, o with
      | a :: l', b :: r', c :: o' =>
          if negb ((a =? 1) || (b =? 1) || (a =? b)) then
            let '(l2, r2, o2) := reduce_shape fuel' l' r' o' in (a :: l2, b :: r2, c :: o2)
          else
            match extend (a =? 1) (b =? 1) (a =? b) l' r' with
            | O => (* i = j + 1: the axis at j is left alone too *)
                match l', r', o' with
                | a' :: l'', b' :: r'', c' :: o'' =>
                    let '(l2, r2, o2) := reduce_shape fuel' l'' r'' o'' in (a :: a' :: l2, b :: b' :: r2, c :: c' :: o2)
                | _, _, _ => (l, r, o)
                end
            | k =>
                let '(l2, r2, o2) := reduce_shape fuel' (skipn k l') (skipn k r') (skipn k o') in
                (prod (a :: firstn k l') :: l2, prod (b :: firstn k r') :: r2, prod (c :: firstn k o') :: o2)
            end
      | _, _, _ => (l, r, o)
      end
  end.

(** element_wise_reduce.cpp 140-142 *)
Definition is_scalar (shape : list Z) : bool := prod shape =? 1.

(** element_wise_reduce.cpp 228-237 *)
Fixpoint is_bias_from (count : Z) (l r : list Z) (i : nat) : option nat :=
  match l, r with
  | a :: l', b :: r' => if (b =? count) && (a =? count) then Some i else is_bias_from count l' r' (S i)
  | _, _ => None
  end.
Definition is_bias (l r : list Z) : option nat := is_bias_from (prod r) l r 0.

(** ** Types *)

(** element_wise_reduce.cpp 76-79 *)
Definition uncorr_cast_dtype (t : Z) : bool := (t =? 0) || (t =? 12) || ((15 <? t) && negb (t =? 21)).

(** element_wise_reduce.cpp 91-114 *)
Definition lookup_table : list (list Z) :=
  [[0; 0;  0;  0;  0;  0;  0;  0;  0;  0;  0;  0;  0; 0;  0;  0;  0; 0; 0; 0; 0; 0];
   [0; 1;  1;  3;  3;  5;  5;  7;  7;  9;  10; 11; 0; 1;  3;  5;  0; 0; 0; 0; 0; 1];
   [0; 1;  2;  3;  3;  5;  6;  7;  7;  9;  10; 11; 0; 1;  3;  5;  0; 0; 0; 0; 0; 2];
   [0; 3;  3;  3;  3;  5;  5;  7;  7;  9;  10; 11; 0; 3;  3;  5;  0; 0; 0; 0; 0; 3];
   [0; 3;  3;  3;  4;  5;  6;  7;  8;  9;  10; 11; 0; 3;  3;  5;  0; 0; 0; 0; 0; 4];
   [0; 5;  5;  5;  5;  5;  5;  7;  7;  10; 10; 11; 0; 5;  5;  5;  0; 0; 0; 0; 0; 5];
   [0; 5;  6;  5;  6;  5;  6;  7;  8;  10; 10; 11; 0; 5;  5;  5;  0; 0; 0; 0; 0; 6];
   [0; 7;  7;  7;  7;  7;  7;  7;  7;  11; 11; 11; 0; 7;  7;  7;  0; 0; 0; 0; 0; 7];
   [0; 7;  7;  7;  8;  7;  8;  7;  8;  11; 11; 11; 0; 7;  7;  7;  0; 0; 0; 0; 0; 8];
   [0; 9;  9;  9;  9;  10; 10; 11; 11; 9;  10; 11; 0; 9;  9;  10; 0; 0; 0; 0; 0; 9];
   [0; 10; 10; 10; 10; 10; 10; 11; 11; 10; 10; 11; 0; 10; 10; 11; 0; 0; 0; 0; 0; 10];
   [0; 11; 11; 11; 11; 11; 11; 11; 11; 11; 11; 11; 0; 11; 11; 11; 0; 0; 0; 0; 0; 11];
   [0; 0;  0;  0;  0;  0;  0;  0;  0;  0;  0;  0;  0; 0;  0;  0;  0; 0; 0; 0; 0; 0];
   [0; 1;  1;  3;  3;  5;  5;  7;  7;  9;  10; 11; 0; 13; 14; 15; 0; 0; 0; 0; 0; 13];
   [0; 3;  3;  3;  3;  5;  5;  7;  7;  9;  10; 11; 0; 14; 14; 15; 0; 0; 0; 0; 0; 14];
   [0; 5;  5;  5;  5;  5;  5;  7;  7;  10; 11; 11; 0; 15; 15; 15; 0; 0; 0; 0; 0; 15];
   [0; 1;  2;  3;  4;  5;  6;  7;  8;  9;  10; 11; 0; 13; 14; 15; 0; 0; 0; 0; 0; 21];
   [0; 0;  0;  0;  0;  0;  0;  0;  0;  0;  0;  0;  0; 0;  0;  0;  0; 0; 0; 0; 0; 0];
   [0; 0;  0;  0;  0;  0;  0;  0;  0;  0;  0;  0;  0; 0;  0;  0;  0; 0; 0; 0; 0; 0];
   [0; 0;  0;  0;  0;  0;  0;  0;  0;  0;  0;  0;  0; 0;  0;  0;  0; 0; 0; 0; 0; 0];
   [0; 0;  0;  0;  0;  0;  0;  0;  0;  0;  0;  0;  0; 0;  0;  0;  0; 0; 0; 0; 0; 0];
   [0; 1;  2;  3;  4;  5;  6;  7;  8;  9;  10; 11; 0; 13; 14; 15; 0; 0; 0; 0; 0; 21]].

(** element_wise_reduce.cpp 81-117 *)
Definition upcast_dtype (l r : Z) : sres Z :=
  if l =? r then SOk l
  else if uncorr_cast_dtype l || uncorr_cast_dtype r then SErr
  else match nth_error lookup_table (Z.to_nat l) with
       | Some row => match nth_error row (Z.to_nat r) with Some t => SOk t | None => SUndef end
       | None => SUndef
       end.

(** ** Kernels *)

(** One step of a kernel: store a value, or replace what is stored. *)
Inductive instr (A : Type) := Put (i : Z) (v : sres A) | Upd (i : Z) (f : sres (A -> A)).
Arguments Put {A} _ _.
Arguments Upd {A} _ _.

Fixpoint exec_instrs {A} (m : list (option A)) (p : list (instr A)) : sres (list (option A)) :=
  match p with
  | [] => SOk m
  | Put i (SOk a) :: p' => match store m i a with SOk m' => exec_instrs m' p' | SErr => SErr | SUndef => SUndef end
  | Upd i (SOk f) :: p' =>
      match load m i with
      | SOk (Some a) => match store m i (f a) with SOk m' => exec_instrs m' p' | SErr => SErr | SUndef => SUndef end
      | _ => SUndef (* outside, or not initialised *)
      end
  | _ :: _ => SUndef
  end.

Definition lift1 {A B} (f : A -> B) (a : sres A) : sres B :=
  match a with SOk a => SOk (f a) | SErr => SErr | SUndef => SUndef end.
Definition lift2 {A B C} (f : A -> B -> C) (a : sres A) (b : sres B) : sres C :=
  match a, b with SOk a, SOk b => SOk (f a b) | _, _ => SUndef end.

(** for (int i = lo; i < hi; i += by) *)
Definition steps (lo hi by_ : Z) : list Z := map (fun k => lo + by_ * k) (upto ((hi - lo + by_ - 1) / by_)).

(** add.cpp 71-78: four lanes at a time, then the rest *)
Definition simd_order (count : Z) : list Z :=
  flat_map (fun i => [i; i + 1; i + 2; i + 3]) (steps 0 (count - 3) 4) ++ steps (Z.quot count 4 * 4) count 1.

Inductive cross := Swap (* call the other one with the operands exchanged *) | Own | Generic (* the broadcasting kernel *).

Record kernel (A : Type) := Kernel {
  k_op : A -> A -> A;
  k_vec : bool;              (* is there a float specialisation? *)
  k_cross : cross;
  k_supports : Z -> bool     (* the element types in the switch *)
}.
Arguments Kernel {A} _ _ _ _.
Arguments k_op {A} _.
Arguments k_vec {A} _.
Arguments k_cross {A} _.
Arguments k_supports {A} _.

Section Kernels.
Context {A : Type}.
Variable k : kernel A.
Variable dtype : Z.

(** the float specialisation is chosen for FLOAT32 (10) *)
Definition vec : bool := k_vec k && (dtype =? 10).

(** add.cpp 27-33 *)
Fixpoint mod_coordinate (shape coordinate : list Z) : sres (list Z) :=
  match coordinate, shape with
  | [], _ => SOk []
  | c :: cs, d :: ds => if d =? 0 then SUndef else lift1 (cons (Z.rem c d)) (mod_coordinate ds cs)
  | _ :: _, [] => SUndef
  end.
Definition mod_load (data : list A) (shape coordinate : list Z) : sres A :=
  match mod_coordinate shape coordinate with
  | SOk c => match to_index shape c with SOk i => load data i | _ => SUndef end
  | _ => SUndef
  end.

(** add.cpp 35-52 *)
Fixpoint compute_run (l r : list A) (ls rs os : list Z) (n : nat) (i : Z) (coordinate : list Z) : list (instr A) :=
  match n with
  | O => []
  | S n' => Put i (lift2 (k_op k) (mod_load l ls coordinate) (mod_load r rs coordinate))
            :: compute_run l r ls rs os n' (i + 1) (increase os coordinate)
  end.
Definition broadcast_run (l r : list A) (ls rs os : list Z) : list (instr A) :=
  compute_run l r ls rs os (Z.to_nat (prod os)) 0 (start os).

(** memcpy(pout, x, count * sizeof(T)) *)
Definition copy (x : list A) (count : Z) : list (instr A) := map (fun i => Put i (load x i)) (upto count).

(** add.cpp 54-79, 107-117 *)
Definition scalar_run (l r : list A) (count : Z) : list (instr A) :=
  let scalar := load r 0 in
  if vec then map (fun i => Put i (lift2 (k_op k) (load l i) scalar)) (simd_order count)
  else copy l count ++ map (fun i => Upd i (lift1 (fun y x => k_op k x y) scalar)) (upto count).

(** sub.cpp 64-107, 145-155 *)
Definition scalar_cross_run (l r : list A) (count : Z) : list (instr A) :=
  let scalar := load l 0 in
  if vec then map (fun i => Put i (lift2 (k_op k) scalar (load r i))) (simd_order count)
  else copy r count ++ map (fun i => Upd i (lift1 (fun y x => k_op k y x) scalar)) (upto count).

(** add.cpp 81-105 *)
Definition same_run (l r : list A) (count : Z) : list (instr A) :=
  if vec then map (fun i => Put i (lift2 (k_op k) (load l i) (load r i))) (simd_order count)
  else copy l count ++ map (fun i => Upd i (lift1 (fun y x => k_op k x y) (load r i))) (upto count).

(** add.cpp 130-163; the inner scalar kernel works in place *)
Definition bias_updates (update : A -> A -> A) (bias : list A) (os : list Z) (dim : nat) : list (instr A) :=
  let number := prod (firstn dim os) in
  let count := prod (skipn (S dim) os) in
  let channels := nth dim os 0 in
  if count =? 1 then
    flat_map (fun n => map (fun c => Upd (n * channels + c) (lift1 update (load bias c))) (upto channels)) (upto number)
  else
    flat_map (fun n => flat_map (fun c =>
      let offset := (n * channels + c) * count in
      map (fun i => Upd (offset + i) (lift1 update (load bias c))) (if vec then simd_order count else upto count))
      (upto channels)) (upto number).
Definition bias_run (l r : list A) (os : list Z) (dim : nat) : list (instr A) :=
  copy l (prod os) ++ bias_updates (fun y x => k_op k x y) r os dim.
(** sub.cpp 204-239 *)
Definition bias_cross_run (l r : list A) (os : list Z) (dim : nat) : list (instr A) :=
  copy r (prod os) ++ bias_updates (fun y x => k_op k y x) l os dim.

(** element_wise_reduce.cpp 203-225, with the overrides of the kernels *)
Definition dispatch (l r : list A) (ls rs os : list Z) (do_broadcast : bool) : list (instr A) :=
  if negb do_broadcast then same_run l r (prod os)
  else if is_scalar rs then scalar_run l r (prod os)
  else if is_scalar ls then
    match k_cross k with
    | Swap => scalar_run r l (prod os)
    | Own => scalar_cross_run l r (prod os)
    | Generic => broadcast_run l r ls rs os
    end
  else match is_bias ls rs with
       | Some dim => bias_run l r os dim
       | None =>
           match is_bias rs ls with
           | Some dim => match k_cross k with
                         | Swap => bias_run r l os dim
                         | Own => bias_cross_run l r os dim
                         | Generic => broadcast_run l r ls rs os
                         end
           | None => broadcast_run l r ls rs os
           end
       end.
End Kernels.

(** element_wise_reduce.cpp 119-138, 163-226 *)
Definition eltwise_run {A} (k : kernel A) (cast : Z -> Z -> A -> A) (l r : tensor A) : sres (raw_tensor A) :=
  match upcast_dtype (t_dtype l) (t_dtype r) with
  | SOk dtype =>
      match reduce (t_shape l) (t_shape r) with
      | Some (ls, rs, os, do_broadcast) =>
          let ldata := if t_dtype l =? dtype then t_data l else map (cast (t_dtype l) dtype) (t_data l) in
          let rdata := if t_dtype r =? dtype then t_data r else map (cast (t_dtype r) dtype) (t_data r) in
          let '(ls', rs', os') := reduce_shape (length os) ls rs os in
          if negb (k_supports k dtype) then SErr else
          match exec_instrs (fresh (prod os)) (dispatch k dtype ldata rdata ls' rs' os' do_broadcast) with
          | SOk m => SOk (Tn dtype os m)
          | SErr => SErr
          | SUndef => SUndef
          end
      | None => SErr
      end
  | SErr => SErr
  | SUndef => SUndef
  end.

(** The kernels.  mod.cpp has integer types only. *)
Definition add_kernel {A} (op : A -> A -> A) : kernel A := Kernel op true Swap tile_supports.       (* add.cpp *)
Definition mul_kernel {A} (op : A -> A -> A) : kernel A := Kernel op true Swap tile_supports.       (* mul.cpp *)
Definition sub_kernel {A} (op : A -> A -> A) : kernel A := Kernel op true Own tile_supports.        (* sub.cpp *)
Definition div_kernel {A} (op : A -> A -> A) : kernel A := Kernel op false Own tile_supports.       (* div.cpp *)
Definition maximum_kernel {A} (op : A -> A -> A) : kernel A := Kernel op true Generic tile_supports. (* maximum.cpp *)
Definition mod_kernel {A} (op : A -> A -> A) : kernel A :=
  Kernel op false Swap (fun t => (1 <=? t) && (t <=? 8)).                                            (* mod.cpp *)

(** base_equal.cpp 7-62, equal.cpp: the operands keep their own shapes; the
    type BOOLEAN is 21; same and scalar cases have no in-place step. *)
Definition equal_run {A} (op : A -> A -> A) (cast : Z -> Z -> A -> A) (l r : tensor A) : sres (raw_tensor A) :=
  match reduce (t_shape l) (t_shape r) with
  | Some (ls, rs, os, do_broadcast) =>
      match upcast_dtype (t_dtype l) (t_dtype r) with
      | SOk dtype =>
          let ldata := if t_dtype l =? dtype then t_data l else map (cast (t_dtype l) dtype) (t_data l) in
          let rdata := if t_dtype r =? dtype then t_data r else map (cast (t_dtype r) dtype) (t_data r) in
          if negb (tile_supports dtype) then SErr else
          let k := Kernel op false Swap tile_supports in
          let p :=
            if negb do_broadcast then map (fun i => Put i (lift2 op (load ldata i) (load rdata i))) (upto (prod os))
            else if is_scalar rs then map (fun i => Put i (lift2 op (load ldata i) (load rdata 0))) (upto (prod os))
            else if is_scalar ls then map (fun i => Put i (lift2 op (load rdata i) (load ldata 0))) (upto (prod os))
            else broadcast_run k ldata rdata (t_shape l) (t_shape r) os in
          match exec_instrs (fresh (prod os)) p with
          | SOk m => SOk (Tn 21 os m)
          | SErr => SErr
          | SUndef => SUndef
          end
      | SErr => SErr
      | SUndef => SUndef
      end
  | None => SErr
  end.
