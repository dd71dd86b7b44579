(** Model of the affine_sample2d operator: src/backend/base/base_affine_sample2d.cpp
    25-114 and src/kernels/cpu/affine_sample2d.cpp 30-425, and of nhwc_letterbox:
    src/backend/zoo/nhwc_letterbox.cpp 26-115.

    Simplifications: the arithmetic of float and double is that of the rationals,
    without rounding; the matrix is a tensor of rationals; an element is read as a
    rational by [to_q] and written by [cast] (affine_sample2d.cpp 41-46); a
    conversion to int never overflows; the size is a list of numbers already and a
    negative one is undefined; the third row of the matrix is read and ignored as
    the code does (37, 72-73). *)
From Coq Require Import List ZArith QArith Qround Bool.
From Verif Require Import ShapeModel KernelBase LoopModel TileModel ResizeModel.
Import ListNotations.
Local Open Scope Z_scope.

Section Kernels.
Context {A : Type}.
Variable to_q : A -> Q.
Variable cast : Q -> A.

(** affine_sample2d.cpp 31-39: the row [r] of the matrix applied to (x, y, 1) *)
Definition transform (r0 r1 r2 : Q) (y x : Z) : Q := (r0 * inject_Z x + r1 * inject_Z y + r2 * inject_Z 1)%Q.

(** 75-76 *)
Definition inner_q (n : Z) (p : Q) : bool := Qgeb p 0 && Qltb p (inject_Z (n - 1)).
(** 85-88 *)
Definition hold (n : Z) (p : Q) : Q :=
  let p := if Qgeb p 0 then p else 0%Q in
  if Qltb p (inject_Z (n - 1)) then p else (inject_Z (n - 1) - (1 # 100000))%Q.
(** 67-108; [outer] is the outer value in the mode VALUE, None in the mode NEAREST *)
Definition affine_linear (outer : option A) (h w : Z) (at_ : Z -> Z -> sres A) (ly lx : Q) : sres A :=
  match inner_q w lx && inner_q h ly, outer with
  | false, Some o => SOk o
  | _, _ =>
      let px := hold w lx in let py := hold h ly in
      let nx := truncate px in let ny := truncate py in
      let wx := (px - inject_Z nx)%Q in let wy := (py - inject_Z ny)%Q in
      bind2 (at_ ny nx) (fun v00 => bind2 (at_ ny (nx + 1)) (fun v01 => bind2 (at_ (ny + 1) nx) (fun v10 => bind2 (at_ (ny + 1) (nx + 1)) (fun v11 =>
        SOk (cast ((1 - wy) * (1 - wx) * to_q v00 + (1 - wy) * wx * to_q v01 + wy * (1 - wx) * to_q v10 + wy * wx * to_q v11)%Q)))))
  end.

(** 142-143, 196-197 *)
Definition inner_z (n k : Z) : bool := (k >=? 0) && (k <? n - 1).
(** 130-161 with [to_int] rounding, 184-215 with it truncating *)
Definition affine_point (to_int : Q -> Z) (outer : option A) (h w : Z) (at_ : Z -> Z -> sres A) (ly lx : Q) : sres A :=
  let nx := to_int lx in let ny := to_int ly in
  match inner_z w nx && inner_z h ny, outer with
  | false, Some o => SOk o
  | _, _ => at_ (clamp h ny) (clamp w nx)
  end.

(** 256, 265-280 *)
Definition outside_cubic (n s : Z) : bool := (s <? 1) || (s >=? n - 3).
Definition hold_cubic (n s : Z) (f : Q) : Z * Q :=
  let '(s, f) := if s <? 1 then (1, 0%Q) else (s, f) in
  if s >=? n - 3 then (n - 3, 0%Q) else (s, f).
(** 241-318 *)
Definition affine_cubic (outer : option A) (h w : Z) (at_ : Z -> Z -> sres A) (ly lx : Q) : sres A :=
  let sy := Qfloor ly in let fy := (ly - inject_Z sy)%Q in
  let sx := Qfloor lx in let fx := (lx - inject_Z sx)%Q in
  match outside_cubic h sy || outside_cubic w sx, outer with
  | true, Some o => SOk o
  | _, _ =>
      let '(sy, fy) := hold_cubic h sy fy in
      let '(sx, fx) := hold_cubic w sx fx in
      let cy := cubic_coeffs fy in
      let '(x0, x1, x2, x3) := cubic_coeffs fx in
      bind2 (cubic_column to_q at_ sy (sx - 1) x0 cy) (fun s0 => bind2 (cubic_column to_q at_ sy sx x1 cy) (fun s1 =>
      bind2 (cubic_column to_q at_ sy (sx + 1) x2 cy) (fun s2 => bind2 (cubic_column to_q at_ sy (sx + 2) x3 cy) (fun s3 =>
        SOk (cast (s0 + s1 + s2 + s3)%Q)))))
  end.

(** 322-359: which kernel; LINEAR 0, CUBIC 1, NEAREST 2, HARD 3 *)
Definition affine_pixel (type : Z) :=
  if type =? 1 then affine_cubic else if type =? 2 then affine_point round else if type =? 3 then affine_point truncate else affine_linear.

(** 58-67, 105-107 and the like, 362-414 *)
Definition affine_events (type : Z) (m : list Q) (outer : option A) (src : list A) (number h w h' w' channels : Z) : list (event A) :=
  let r i := nth i m 0%Q in
  map (fun i => match i with
    | [k; y; x; c] => (k * (channels * h' * w') + ((y * w' + x) * channels + c),
        affine_pixel type outer h w (fun sy sx => load src (k * (channels * h * w) + ((sy * w + sx) * channels + c)))
          (transform (r 3%nat) (r 4%nat) (r 5%nat) y x) (transform (r 0%nat) (r 1%nat) (r 2%nat) y x))
    | _ => (0, SUndef)
    end) (loops [number; h'; w'; channels]).

(** base_affine_sample2d.cpp 44 (init), 48-114 (infer, run) *)
Definition affine_sample2d (type dim : Z) (outer : option A) (size : list Z) (affine : tensor Q) (x : tensor A) : sres (raw_tensor A) :=
  if negb ((0 <=? type) && (type <=? 3)) then SErr else
  let n := Z.of_nat (length (t_shape x)) in
  if n <? 2 then SErr else
  let dim := if dim <? 0 then n + dim else dim in
  if negb ((0 <=? dim) && (dim + 1 <? n)) then SErr else
  match size with
  | [sh; sw] =>
      if (sh <? 0) || (sw <? 0) then SUndef else
      let i := Z.to_nat dim in
      let out := set_nth (S i) sw (set_nth i sh (t_shape x)) in
      match t_shape affine with
      | [3; 3] =>
          if negb (tile_supports (t_dtype x)) then SErr else
          match exec (fresh (prod out)) (affine_events type (t_data affine) outer (t_data x) (prod (firstn i out)) (nth i (t_shape x) 0) (nth (S i) (t_shape x) 0)
                  (nth i out 0) (nth (S i) out 0) (prod (skipn (i + 2) out))) with
          | SOk m => SOk (Tn (t_dtype x) out m)
          | SErr => SErr
          | SUndef => SUndef
          end
      | _ => SErr
      end
  | _ => SErr
  end.

(** nhwc_letterbox.cpp 31, 54-60, 67-73: height and width of the output *)
Definition letter_size (size : list Z) : option (Z * Z) :=
  match size with
  | [w; h] => Some (h, w)
  | [s] => Some (s, s)
  | _ => None
  end.
(** 91-113; the outer value is 0 unless given (23); images or outputs without pixels are left undefined *)
Definition nhwc_letterbox (type : Z) (outer : A) (size : list Z) (x : tensor A) : sres (raw_tensor A) :=
  match letter_size size, t_shape x with
  | Some (h', w'), [n; h; w; c] =>
      if negb ((0 <? h) && (0 <? w) && (0 <? h') && (0 <? w')) then SUndef else
      let x_scale := (inject_Z w' / inject_Z w)%Q in
      let y_scale := (inject_Z h' / inject_Z h)%Q in
      (* std::min(a, b) is b < a ? b : a *)
      let scale := if Qltb y_scale x_scale then y_scale else x_scale in
      affine_sample2d type 1 (Some outer) [h'; w']
        (Tn 10 [3; 3] [1 / scale; 0; 0; 0; 1 / scale; 0; 0; 0; 1]%Q) x
  | _, _ => SErr
  end.
End Kernels.
