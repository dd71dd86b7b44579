(** Model of the tile operators: src/backend/base/base_tile.cpp,
    src/backend/base/base_tile_v2.cpp and src/kernels/cpu/tile.cpp.

    tile_v2 reads the repeats from its second input instead of an attribute
    and performs the same check and computation; both are [tile_run].
    Simplification: ranks are not limited to seven. *)
From Coq Require Import List ZArith Bool.
From Verif Require Import ShapeModel KernelBase.
Import ListNotations.
Local Open Scope Z_scope.

(** base_tile.cpp 41-57: insert ones in front of the shorter of the two *)
Definition align (x repeats : list Z) : list Z * list Z :=
  (repeat 1 (length repeats - length x) ++ x, repeat 1 (length x - length repeats) ++ repeats).

Definition tile_shape (x repeats : list Z) : list Z :=
  let '(x', r') := align x repeats in map (fun xr => fst xr * snd xr) (combine x' r').

(** tile.cpp 39-49: the loop over the repeats; the repeat iterator is
    advanced each time *)
Fixpoint tile_inner {A} (v : sres A) (x_shape r_shape o_shape x_index : list Z) (n : nat) (r_index : list Z) :
    list (event A) * list Z :=
  match n with
  | O => ([], r_index)
  | S k =>
      let o_index := map (fun rsx => fst rsx * fst (snd rsx) + snd (snd rsx)) (combine r_index (combine x_shape x_index)) in
      let '(rest, last) := tile_inner v x_shape r_shape o_shape x_index k (increase r_shape r_index) in
      ((match to_index o_shape o_index with SOk i => i | _ => -1 end, v) :: rest, last)
  end.

(** tile.cpp 36-51: the loop over the input elements *)
Fixpoint tile_outer {A} (data : list A) (x_shape r_shape o_shape : list Z) (n : nat) (i : Z) (x_index r_index : list Z) :
    list (event A) :=
  match n with
  | O => []
  | S k =>
      let '(evs, r_index') := tile_inner (load data i) x_shape r_shape o_shape x_index (Z.to_nat (prod r_shape)) r_index in
      evs ++ tile_outer data x_shape r_shape o_shape k (i + 1) (increase x_shape x_index) r_index'
  end.

(** tile.cpp 54-70: INT8 ... UINT64, FLOAT32, FLOAT64 *)
Definition tile_supports (dtype : Z) : bool :=
  ((1 <=? dtype) && (dtype <=? 8)) || (dtype =? 10) || (dtype =? 11).

(** base_tile.cpp 18-39, 74-94 *)
Definition tile_run {A} (repeats : list Z) (x : tensor A) : sres (raw_tensor A) :=
  if existsb (fun r => r <? 0) repeats then SErr else
  let '(x', r') := align (t_shape x) repeats in
  let o := tile_shape (t_shape x) repeats in
  if existsb (fun r => r =? 0) repeats then SOk (Tn (t_dtype x) o (fresh (prod o))) else
  if negb (tile_supports (t_dtype x)) then SErr else
  match exec (fresh (prod o)) (tile_outer (t_data x) x' r' o (Z.to_nat (prod x')) 0 (start x') (start r')) with
  | SOk m => SOk (Tn (t_dtype x) o m)
  | SErr => SErr
  | SUndef => SUndef
  end.
