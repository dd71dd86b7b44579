(** Model of the CPU shape_index_patch operator
    (src/kernels/cpu/shape_index_patch.cpp,
    src/backend/base/base_shape_index_patch.cpp).  Floats are their rational
    values, and arithmetic on them is exact. *)
From Coq Require Import List ZArith Bool QArith.
From Verif Require Import ShapeModel KernelBase ResizeModel ZooModel QuantizeModel TileModel.
Import ListNotations.
Local Open Scope Z_scope.

(** int(v): undefined when the value does not fit *)
Definition to_int (v : Q) : sres Z := let z := truncate v in if fits z then SOk z else SUndef.

(** base_shape_index_patch.cpp 53-54 *)
Definition patch_size (patch len origin : Z) : sres Z :=
  if origin =? 0 then SUndef else to_int (inject_Z (patch * len) / inject_Z origin + (1 # 2))%Q.

(** shape_index_patch.cpp 27-28 and 46-47: the first row (column) of a patch *)
Definition corner (pos : Q) (len patch : Z) : sres Z :=
  to_int (pos * inject_Z (len - 1) - inject_Z (patch - 1) / 2 + (1 # 2))%Q.

(** HypeShape::to_index: no test of the coordinates *)
Definition index2 (cols i j : Z) : Z := i * cols + j.
Definition index4 (s : Z * Z * Z * Z) (n c y x : Z) : Z := let '(_, cs, h, w) := s in ((n * cs + c) * h + y) * w + x.
Definition index5 (cs p l q n c ph i pw : Z) : Z := (((n * cs + c) * p + ph) * l + i) * q + pw.

(** 49-60 *)
Definition pixel (feat : list Q) (s : Z * Z * Z * Z) (p l q i n y x c ph pw : Z) : event Q :=
  let '(_, cs, h, w) := s in
  (index5 cs p l q n c ph i pw,
   if (y + ph <? 0) || (h <=? y + ph) || (x + pw <? 0) || (w <=? x + pw) then SOk 0%Q
   else load feat (index4 s n c (y + ph) (x + pw))).

(** 43-63 *)
Definition landmark (feat pos : list Q) (s : Z * Z * Z * Z) (cols p l q i n : Z) : list (event Q) :=
  let '(_, cs, h, w) := s in
  match bind2 (load pos (index2 cols n (2 * i + 1))) (fun py => bind2 (corner py h p) (fun y =>
        bind2 (load pos (index2 cols n (2 * i))) (fun px => bind2 (corner px w q) (fun x => SOk (y, x))))) with
  | SOk (y, x) =>
      flat_map (fun c => flat_map (fun ph => map (fun pw => pixel feat s p l q i n y x c ph pw) (upto q)) (upto p)) (upto cs)
  | SErr => [(0, SErr)]
  | SUndef => [(0, SUndef)]
  end.

(** infer (36-62) and run (64-79); the types of sample (shape_index_patch.cpp 67-90) *)
Definition shape_index_patch (patch origin : Z * Z) (x pos : tensor Q) : sres (raw_tensor Q) :=
  match t_shape x, t_shape pos with
  | [n; cs; h; w], [rows; cols; _; _] =>
      if negb (t_dtype x =? t_dtype pos) then SErr else
      if negb (Z.rem cols 2 =? 0) then SErr else
      bind2 (patch_size (fst patch) h (fst origin)) (fun p =>
      bind2 (patch_size (snd patch) w (snd origin)) (fun q =>
      let l := Z.quot cols 2 in
      if negb (tile_supports (t_dtype x)) then SErr else
      bind2 (exec (fresh (prod [n; cs; p; l; q]))
              (flat_map (fun i => flat_map (fun m => landmark (t_data x) (t_data pos) (n, cs, h, w) cols p l q i m) (upto n)) (upto l)))
            (fun m => SOk (Tn (t_dtype x) [n; cs; p; l; q] m))))
  | _, _ => SErr
  end.
