(** Model of the operators that crop, pad or scale by calling another operator:
    src/backend/zoo/nhwc_center_crop2d.cpp 23-84, crop_nd.cpp 24-107, limit.cpp
    23-108, nhwc_scale_resize2d.cpp 22-101 and divided.cpp 23-107 (the calls of
    pad and of resize2d are those of PadModel and ResizeModel).

    Simplifications: the sizes are lists of integers already; a sum of sizes does
    not overflow, a product of them does where it is said; a negative stride of
    divided is left undefined. *)
From Coq Require Import List ZArith QArith Bool.
From Verif Require Import ShapeModel KernelBase PadModel ResizeModel.
Import ListNotations.
Local Open Scope Z_scope.

(** nhwc_center_crop2d.cpp 66-70, crop_nd.cpp 77-78, limit.cpp 97-100: a padding of [d] on both sides; the division of int truncates *)
Definition halves (d : Z) : Z * Z := (Z.quot d 2, d - Z.quot d 2).

(** nhwc_center_crop2d.cpp 28-31, 57-84; the size is width first; [zero] is 0 as an element *)
Definition nhwc_center_crop2d {A} (zero : A) (size : list Z) (x : tensor A) : sres (raw_tensor A) :=
  match size, t_shape x with
  | [w'; h'], [n; h; w; c] => pad_run [(0, 0); halves (h' - h); halves (w' - w); (0, 0)] zero x
  | _, _ => SErr
  end.

(** crop_nd.cpp 71-98 *)
Definition crop_padding (size want : Z) (shift : option Z) : Z * Z :=
  match shift with
  | None => if want <=? 0 then (0, 0) else halves (want - size)
  | Some s => if want <=? 0 then (- s, s) else (- s, s + want - size)
  end.
(** 56-107; a tensor without axes reads the first of no paddings (100) *)
Definition crop_nd {A} (zero : A) (shift : list Z) (want : list Z) (x : tensor A) : sres (raw_tensor A) :=
  let dims := length (t_shape x) in
  if negb ((Nat.eqb (length shift) 0 || Nat.eqb (length shift) dims) && Nat.eqb (length want) dims) then SErr else
  if Nat.eqb dims 0 then SUndef else
  let shifts := match shift with [] => repeat None dims | _ => map Some shift end in
  pad_run (map (fun p => crop_padding (fst (fst p)) (snd (fst p)) (snd p)) (combine (combine (t_shape x) want) shifts)) zero x.

(** limit.cpp 46-66: the limits of all axes and whether one is exceeded *)
Definition limit_axis (size lim : Z) : Z := if (lim <=? 0) || (size <=? lim) then size else lim.
Definition exceeds (size lim : Z) : bool := negb ((lim <=? 0) || (size <=? lim)).
(** 82-108 *)
Definition limit {A} (zero : A) (limits : list Z) (x : tensor A) : sres (raw_tensor A) :=
  let dims := length (t_shape x) in
  if negb (Nat.leb (length limits) dims) then SErr else
  let lims := repeat (-1) (dims - length limits) ++ limits in
  if negb (existsb (fun p => exceeds (fst p) (snd p)) (combine (t_shape x) lims)) then SOk (Tn (t_dtype x) (t_shape x) (map Some (t_data x))) else
  pad_run (map (fun p => halves (limit_axis (fst p) (snd p) - fst p)) (combine (t_shape x) lims)) zero x.

(** nhwc_scale_resize2d.cpp 54-64: height and width; int products and quotients *)
Definition int_max : Z := 2147483647.
Definition scaled (s long short : Z) : sres Z :=
  if (short =? 0) || (int_max <? s * long) || (s * long <? - int_max - 1) then SUndef else SOk (Z.quot (s * long) short).
Definition scale_size (h w : Z) (size : list Z) : sres (Z * Z) :=
  match size with
  | [sw; sh] => SOk (sh, sw)
  | [s] => if w <? h then bind2 (scaled s h w) (fun l => SOk (l, s)) else bind2 (scaled s w h) (fun l => SOk (s, l))
  | _ => SErr
  end.
(** 27, 82-101 *)
Definition nhwc_scale_resize2d {A} (to_q : A -> Q) (cast : Q -> A) (type : Z) (size : list Z) (x : tensor A) : sres (raw_tensor A) :=
  match t_shape x with
  | [n; h; w; c] => bind2 (scale_size h w size) (fun hw => resize2d to_q cast type [-1; fst hw; snd hw; -1] x)
  | _ => SErr
  end.

(** ** divided.cpp *)
(** a quotient of integers rounded to the nearest integer, halves to even *)
Definition div_even (n d : Z) : Z :=
  let q := n / d in let r := n mod d in
  if 2 * r <? d then q else if d <? 2 * r then q + 1 else if Z.even q then q else q + 1.
(** the conversion of a positive int to float: 24 binary digits *)
Definition float_of (n : Z) : Z :=
  let e := Z.max 0 (Z.log2 n - 23) in div_even n (2 ^ e) * 2 ^ e.
(** the quotient of two positive numbers as a float, a fraction; no overflow, and no underflow since n, d < 2^32 *)
Definition float_div (n d : Z) : Z * Z :=
  let k := Z.log2 n - Z.log2 d in
  let e := if d * 2 ^ Z.max k 0 <=? n * 2 ^ Z.max (- k) 0 then k - 23 else k - 24 in
  (div_even (n * 2 ^ Z.max (- e) 0) (d * 2 ^ Z.max e 0) * 2 ^ Z.max e 0, 2 ^ Z.max (- e) 0).
(** std::ceil *)
Definition ceil (f : Z * Z) : Z := - ((- fst f) / snd f).
(** divided.cpp 63: y = stride == 1 ? y : int(std::ceil(float(y) / stride)) * stride *)
Definition divided_axis (y stride : Z) : sres Z :=
  if stride =? 1 then SOk y else
  if stride <=? 0 then SUndef else
  if y =? 0 then SOk 0 else
  let q := ceil (float_div (float_of y) (float_of stride)) in
  if (int_max <? q) || (int_max <? q * stride) then SUndef else SOk (q * stride).
(** 53-68, on the reversed shape and strides *)
Fixpoint divided_rev (x strides : list Z) : sres (list Z) :=
  match strides, x with
  | [], _ => SOk x
  | s :: strides', y :: x' => bind2 (divided_axis y s) (fun z => bind2 (divided_rev x' strides') (fun r => SOk (z :: r)))
  | _ :: _, [] => SErr
  end.
Definition divided_shape (x strides : list Z) : sres (list Z) :=
  if Nat.ltb (length x) (length strides) then SErr else bind2 (divided_rev (rev x) (rev strides)) (fun r => SOk (rev r)).
(** 83-107 *)
Definition divided {A} (strides : list Z) (value : A) (x : tensor A) : sres (raw_tensor A) :=
  bind2 (divided_shape (t_shape x) strides) (fun shape =>
    pad_run (map (fun p => (0, fst p - snd p)) (combine shape (t_shape x))) value x).
