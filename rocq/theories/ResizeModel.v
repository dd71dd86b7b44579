(** Model of the resize2d operator: src/backend/base/base_resize2d.cpp 31-135
    and src/kernels/cpu/resize2d.cpp 16-215, 300-390, and of
    resize_nearest_neighbor: src/kernels/cpu/resize_nearest_neighbor.cpp 75-103.

    Simplifications: the arithmetic of double (and of float in Resize2d_ResizeHard)
    is that of the rationals, without rounding; an element is read as a rational
    by [to_q] and written by [cast]; the copies the kernels make when nothing
    changes (19-23, 143-147, 182-186) are left out, since run returns before
    calling them (base_resize2d.cpp 118-121). *)
From Coq Require Import List ZArith QArith Qround Bool.
From Verif Require Import ShapeModel KernelBase LoopModel TileModel.
Import ListNotations.
Local Open Scope Z_scope.

(** base_resize2d.cpp 41-44, 60-62: the sizes are kept *)
Fixpoint kept (shape size : list Z) : bool :=
  match shape, size with
  | a :: shape', b :: size' => ((a =? b) || (b <? 0)) && kept shape' size'
  | _, _ => true
  end.
(** 32-54 *)
Fixpoint find_height (i : nat) (shape size : list Z) : option nat :=
  match shape, size with
  | a :: shape', b :: size' =>
      if b =? 0 then None else
      if b <? 0 then find_height (S i) shape' size' else
      if (a =? b) && negb (kept (tl shape') (tl size')) then find_height (S i) shape' size' else
      Some i
  | _, _ => None
  end.
(** 59-63 *)
Fixpoint rest_kept (shape size : list Z) : bool :=
  match shape, size with
  | a :: shape', b :: size' => negb (b =? 0) && ((a =? b) || (b <? 0)) && rest_kept shape' size'
  | _, _ => true
  end.
(** 31-65 *)
Definition find_resized_height_dim (shape size : list Z) : option nat :=
  match find_height 0 shape size with
  | Some i =>
      if (Nat.leb (length size - 1) i) || (nth (S i) size 0 <=? 0) then None else
      if rest_kept (skipn (i + 2) shape) (skipn (i + 2) size) then Some i else None
  | None => None
  end.
(** 67-101: the axis, whether there is nothing to do, and the new shape *)
Definition check_outputs (shape size : list Z) : sres (nat * bool * list Z) :=
  if negb (Nat.eqb (length shape) (length size) && Nat.leb 2 (length size)) then SErr else
  match find_resized_height_dim shape size with
  | None => SErr
  | Some i =>
      SOk (i, (nth i shape 0 =? nth i size 0) && (nth (S i) shape 0 =? nth (S i) size 0),
           set_nth (S i) (nth (S i) size 0) (set_nth i (nth i size 0) shape))
  end.

Section Kernels.
Context {A : Type}.
Variable to_q : A -> Q.
Variable cast : Q -> A.

Definition Qgeb (a b : Q) : bool := Qle_bool b a.
Definition Qltb (a b : Q) : bool := negb (Qle_bool b a).
(** int(v) *)
Definition truncate (v : Q) : Z := if Qgeb v 0 then Qfloor v else Qceiling v.
(** int(std::round(v)): halves away from zero *)
Definition round (v : Q) : Z := if Qgeb v 0 then Qfloor (v + (1 # 2)) else - Qfloor (- v + (1 # 2)).

(** the pixel [d] of [dst] ones, in pixels of the [src] ones: resize2d.cpp 25-28, 35-36, 188-191, 198-199 *)
Definition centre (src dst d : Z) : Q :=
  let scl := (inject_Z src / inject_Z dst)%Q in (scl * inject_Z d + (scl / 2 - (1 # 2)))%Q.
(** 201-207 *)
Definition clamp (src n : Z) : Z :=
  let n := if n >=? 0 then n else 0 in if n <? src - 1 then n else src - 1.
Definition nearest_index (src dst d : Z) : Z := clamp src (round (centre src dst d)).
(** 149-150, 157-166 *)
Definition hard_index (src dst d : Z) : Z := clamp src (truncate ((inject_Z src / inject_Z dst) * inject_Z d)%Q).

(** one output element from those of its image and channel, [at_ y x] *)
Definition nearest_pixel (h w h' w' : Z) (at_ : Z -> Z -> sres A) (y x : Z) : sres A := at_ (nearest_index h h' y) (nearest_index w w' x).
Definition hard_pixel (h w h' w' : Z) (at_ : Z -> Z -> sres A) (y x : Z) : sres A := at_ (hard_index h h' y) (hard_index w w' x).

(** 35-41 *)
Definition linear_position (src dst d : Z) : Q :=
  let p := centre src dst d in
  let p := if Qgeb p 0 then p else 0%Q in
  if Qltb p (inject_Z (src - 1)) then p else (inject_Z (src - 1) - (1 # 100000))%Q.
Definition bind2 {B C} (r : sres B) (f : B -> sres C) : sres C := match r with SOk b => f b | SErr => SErr | SUndef => SUndef end.
(** 43-60 *)
Definition linear_pixel (h w h' w' : Z) (at_ : Z -> Z -> sres A) (y x : Z) : sres A :=
  let px := linear_position w w' x in let py := linear_position h h' y in
  let nx := truncate px in let ny := truncate py in
  let wx := (px - inject_Z nx)%Q in let wy := (py - inject_Z ny)%Q in
  bind2 (at_ ny nx) (fun v00 => bind2 (at_ ny (nx + 1)) (fun v01 => bind2 (at_ (ny + 1) nx) (fun v10 => bind2 (at_ (ny + 1) (nx + 1)) (fun v11 =>
    SOk (cast ((1 - wy) * (1 - wx) * to_q v00 + (1 - wy) * wx * to_q v01 + wy * (1 - wx) * to_q v10 + wy * wx * to_q v11)%Q))))).

(** 81-96, 107-116: the first coordinate and the fraction *)
Definition cubic_position (src dst d : Z) : Z * Q :=
  let f := ((inject_Z d + (1 # 2)) * (inject_Z src / inject_Z dst) - (1 # 2))%Q in
  let s := Qfloor f in
  let f := (f - inject_Z s)%Q in
  let '(s, f) := if s <? 1 then (1, 0%Q) else (s, f) in
  if s >=? src - 3 then (src - 3, 0%Q) else (s, f).
(** 98-104, 118-122 *)
Definition cubic_coeffs (f : Q) : Q * Q * Q * Q :=
  let a := (- (3 # 4))%Q in
  let c0 := (((a * (f + 1) - 5 * a) * (f + 1) + 8 * a) * (f + 1) - 4 * a)%Q in
  let c1 := (((a + 2) * f - (a + 3)) * f * f + 1)%Q in
  let c2 := (((a + 2) * (1 - f) - (a + 3)) * (1 - f) * (1 - f) + 1)%Q in
  (c0, c1, c2, (1 - c0 - c1 - c2)%Q).
(** 125-145: the column [sx + k] weighted by the coefficients of the rows, then by its own *)
Definition cubic_column (at_ : Z -> Z -> sres A) (sy x : Z) (cx : Q) (cy : Q * Q * Q * Q) : sres Q :=
  let '(c0, c1, c2, c3) := cy in
  bind2 (at_ (sy - 1) x) (fun v0 => bind2 (at_ sy x) (fun v1 => bind2 (at_ (sy + 1) x) (fun v2 => bind2 (at_ (sy + 2) x) (fun v3 =>
    SOk (to_q v0 * cx * c0 + to_q v1 * cx * c1 + to_q v2 * cx * c2 + to_q v3 * cx * c3)%Q)))).
Definition cubic_pixel (h w h' w' : Z) (at_ : Z -> Z -> sres A) (y x : Z) : sres A :=
  let '(sy, fy) := cubic_position h h' y in
  let '(sx, fx) := cubic_position w w' x in
  let cy := cubic_coeffs fy in
  let '(x0, x1, x2, x3) := cubic_coeffs fx in
  bind2 (cubic_column at_ sy (sx - 1) x0 cy) (fun s0 => bind2 (cubic_column at_ sy sx x1 cy) (fun s1 =>
  bind2 (cubic_column at_ sy (sx + 1) x2 cy) (fun s2 => bind2 (cubic_column at_ sy (sx + 2) x3 cy) (fun s3 =>
    SOk (cast (s0 + s1 + s2 + s3)%Q))))).

(** 322-345: which kernel; include/backend/common_structure.h: LINEAR 0, CUBIC 1, NEAREST 2, HARD 3 *)
Definition pixel (type : Z) :=
  if type =? 0 then linear_pixel else if type =? 1 then cubic_pixel else if type =? 3 then hard_pixel else nearest_pixel.

(** 31-33, 48-60 and the like, 265-320, 348-368: all images *)
Definition resize_events (type : Z) (src : list A) (number h w h' w' channels : Z) : list (event A) :=
  map (fun i => match i with
    | [k; y; x; c] => (k * (channels * h' * w') + ((y * w' + x) * channels + c),
        pixel type h w h' w' (fun sy sx => load src (k * (channels * h * w) + ((sy * w + sx) * channels + c))) y x)
    | _ => (0, SUndef)
    end) (loops [number; h'; w'; channels]).

(** base_resize2d.cpp 114-134, resize2d.cpp 348-388 *)
Definition resize2d (type : Z) (size : list Z) (x : tensor A) : sres (raw_tensor A) :=
  match check_outputs (t_shape x) size with
  | SOk (i, true, _) => SOk (Tn (t_dtype x) (t_shape x) (map Some (t_data x)))
  | SOk (i, false, out) =>
      if negb (tile_supports (t_dtype x)) then SErr else
      match exec (fresh (prod out)) (resize_events type (t_data x) (prod (firstn i out)) (nth i (t_shape x) 0) (nth (S i) (t_shape x) 0)
              (nth i out 0) (nth (S i) out 0) (prod (skipn (i + 2) out))) with
      | SOk m => SOk (Tn (t_dtype x) out m)
      | SErr => SErr
      | SUndef => SUndef
      end
  | SErr => SErr
  | SUndef => SUndef
  end.

(** resize_nearest_neighbor.cpp 75-103 *)
Definition resize_nearest_neighbor (dim : Z) (size : list Z) (x : tensor A) : sres (raw_tensor A) :=
  match size with
  | [sh; sw] =>
      let n := Z.of_nat (length (t_shape x)) in
      (* m_dim <= x_shape.size() - 2 with an unsigned right-hand side: true for 0- and 1-dimensional tensors *)
      if negb ((0 <=? dim) && ((n <? 2) || (dim <=? n - 2))) then SErr else
      if negb (dim + 1 <? n) then SUndef else
      if negb ((0 <? sh) && (0 <? sw)) then SErr else
      resize2d 2 (set_nth (Z.to_nat (dim + 1)) sw (set_nth (Z.to_nat dim) sh (repeat (-1) (length (t_shape x))))) x
  | _ => SErr
  end.
End Kernels.
