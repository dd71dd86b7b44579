(** Model of the operators that compute the padding of a convolution or
    pooling from its input: src/backend/tf/conv2d_padding.cpp,
    src/backend/tf/pooling2d_padding.cpp,
    src/backend/onnx/pooling2d_auto_pad.cpp,
    src/backend/mxnet/pooling2d_padding.cpp,
    src/backend/dragon/conv2d_padding.cpp,
    src/backend/dragon/pooling2d_auto_pad.cpp.

    Each computes the two axes in the same way; the model has one function for
    an axis.  int(std::ceil(n / float(s))) and int(std::floor(n / float(s)))
    are the exact ceiling and floor (so they are for up to 2^24:
    [ceil_div_float] in PropsPadding).  A stride of zero makes infinities,
    whose conversion is undefined; negative strides are taken as undefined as
    well. *)
From Coq Require Import List ZArith Bool.
From Verif Require Import ShapeModel KernelBase ConvModel PoolingModel DeconvModel.
Import ListNotations.
Local Open Scope Z_scope.

Definition ceil_div (n s : Z) : sres Z := if s <=? 0 then SUndef else SOk (- ((- n) / s)).
Definition floor_div (n s : Z) : sres Z := if s <=? 0 then SUndef else SOk (n / s).

(** common_function.h 22-28 *)
Definition pool_backward (y before after k s : Z) : Z := (y - 1) * s + k - before - after.

Inductive scheme := NotSet | Valid | SameUpper | SameLower.

(** *** tf/conv2d_padding.cpp 96-165: (before, after) of an axis *)
Definition tf_conv_valid (x before after k s d : Z) : sres (Z * Z) :=
  let kernel := (k - 1) * d + 1 in
  bind (ceil_div (x + before + after - kernel + 1) s) (fun y =>
  let expected := backward_size y before after k s d in
  SOk (before, after + expected - x)).
Definition tf_conv_same (x before after k s d : Z) : sres (Z * Z) :=
  bind (ceil_div (x + before + after) s) (fun y =>
  let padding := backward_size y before after k s d - x in
  let half := Z.quot padding 2 in
  SOk (before + half, after + (padding - half))).

(** *** tf/pooling2d_padding.cpp 80-145, onnx/pooling2d_auto_pad.cpp 92-176 *)
Definition pool_valid (x before after k s : Z) : sres (Z * Z) :=
  bind (ceil_div (x + before + after - k + 1) s) (fun y => SOk (before, after + pool_backward y before after k s - x)).
Definition pool_same_upper (x before after k s : Z) : sres (Z * Z) :=
  bind (ceil_div (x + before + after) s) (fun y =>
  let padding := pool_backward y before after k s - x in
  let half := Z.quot padding 2 in
  SOk (before + half, after + (padding - half))).
Definition pool_same_lower (x before after k s : Z) : sres (Z * Z) :=
  bind (ceil_div (x + before + after) s) (fun y =>
  let padding := pool_backward y before after k s - x in
  let half := Z.quot padding 2 in
  SOk (before + (padding - half), after + half)).
(** onnx 66-90, mxnet/pooling2d_padding.cpp 113-119; the remainder of C++ *)
Definition pool_notset (x before after k s : Z) : sres (Z * Z) :=
  if s =? 0 then SUndef else SOk (before, after - Z.rem (x + before + after - k) s).

Definition onnx_pool (m : scheme) : Z -> Z -> Z -> Z -> Z -> sres (Z * Z) :=
  match m with NotSet => pool_notset | Valid => pool_valid | SameUpper => pool_same_upper | SameLower => pool_same_lower end.
Definition mx_pool (valid : bool) (x before after k s : Z) : sres (Z * Z) :=
  if valid then pool_notset x before after k s else SOk (before, after).

(** *** dragon/conv2d_padding.cpp 102-180: [SameUpper] gets the larger half first *)
Definition dragon_conv (m : scheme) (x before after k s d : Z) : sres (Z * Z) :=
  match m with
  | NotSet | Valid => SOk (before, after)
  | _ =>
      let dk := d * (k - 1) + 1 in
      bind (floor_div (x + s - 1) s) (fun odm =>
      let needed := Z.max 0 ((odm - 1) * s + dk - x) in
      let pad_l := match m with SameUpper => needed - Z.quot needed 2 | _ => Z.quot needed 2 end in
      let padding := pool_backward odm before after k s - x in
      SOk (pad_l, before + after + (padding - pad_l)))
  end.

(** *** dragon/pooling2d_auto_pad.cpp 70-165 *)
Definition dragon_forward_valid (x before after k s : Z) (ceil_mode : bool) : sres Z :=
  bind ((if ceil_mode then ceil_div else floor_div) (x + before + after - k) s) (fun q =>
  let y := q + 1 in SOk (if x + before + after <=? (y - 1) * s then y - 1 else y)).
Definition dragon_pool (m : scheme) (ceil_mode : bool) (x before after k s : Z) : sres (Z * Z) :=
  match m with
  | NotSet | Valid =>
      bind (dragon_forward_valid x before after k s ceil_mode) (fun y => SOk (before, after + pool_backward y before after k s - x))
  | _ =>
      bind (floor_div (x + s - 1) s) (fun odm =>
      let needed := Z.max 0 ((odm - 1) * s + k - x) in
      let pad_l := match m with SameUpper => Z.quot needed 2 | _ => needed - Z.quot needed 2 end in
      bind (ceil_div x s) (fun y =>
      let padding := pool_backward y before after k s - x in
      SOk (pad_l, before + after + (padding - pad_l))))
  end.

(** *** The operators: the parameters are read in init, the sizes in run *)
Inductive format := NCHW | NHWC.
(** the padding tensor: top, bottom, left, right *)
Definition layout (f : format) (h w : Z * Z) : list Z :=
  match f with
  | NCHW => [0; 0; 0; 0; fst h; snd h; fst w; snd w]
  | NHWC => [0; 0; fst h; snd h; fst w; snd w; 0; 0]
  end.

(** data[i], unchecked *)
Definition at_ (l : list Z) (i : Z) : sres Z := load l i.
Definition pair_at (l : list Z) (i j : Z) : sres (Z * Z) := bind (at_ l i) (fun a => bind (at_ l j) (fun b => SOk (a, b))).
Definition spatial (f : format) (l : list Z) : sres (Z * Z) := match f with NCHW => pair_at l 2 3 | NHWC => pair_at l 1 2 end.
(** the padding of the height and of the width, from the eight numbers *)
Definition static_of (f : format) (p : list Z) : sres ((Z * Z) * (Z * Z)) :=
  match f with
  | NCHW => bind (pair_at p 4 5) (fun h => bind (pair_at p 6 7) (fun w => SOk (h, w)))
  | NHWC => bind (pair_at p 2 3) (fun h => bind (pair_at p 4 5) (fun w => SOk (h, w)))
  end.

(** tf/conv2d_padding.cpp 53-57, 71-75 and pooling2d_padding.cpp 55-58, 64-67:
    any one of the four numbers being zero is enough *)
Definition padding_accepted (f : format) (p : list Z) : bool :=
  let z i := nth i p 0 =? 0 in
  match f with NCHW => z 0%nat || z 1%nat || z 2%nat || z 3%nat | NHWC => z 0%nat || z 1%nat || z 6%nat || z 7%nat end.
Definition ones_accepted (f : format) (l : list Z) : bool :=
  let o i := nth i l 0 =? 1 in match f with NCHW => o 0%nat || o 1%nat | NHWC => o 0%nat || o 3%nat end.

Section Conv.
Variable axis : Z -> Z -> Z -> Z -> Z -> Z -> sres (Z * Z).
(** Conv2DPadding::init and run, of tf (24-91, 167-228) and dragon (26-97, 182-252); [axis] is the padding method *)
Definition conv_padding (f : format) (padding dilation stride : list Z) (dtype_x dtype_w : Z) (x w : list Z) : sres (list Z) :=
  if negb ((Z.of_nat (length padding) =? 8) && (Z.of_nat (length dilation) =? 4) && (Z.of_nat (length stride) =? 4)) then SErr else
  if negb (padding_accepted f padding && ones_accepted f dilation && ones_accepted f stride) then SErr else
  if negb ((Z.of_nat (length x) =? 4) && (Z.of_nat (length w) =? 4) && (dtype_x =? dtype_w)) then SErr else
  if negb (nth 1 w 0 =? nth 1 x 0) then SErr else
  bind (static_of f padding) (fun '(ph, pw) => bind (spatial f dilation) (fun '(dh, dw) => bind (spatial f stride) (fun '(sh, sw) =>
  bind (spatial f x) (fun '(h, w0) => bind (spatial f w) (fun '(kh, kw) =>
  bind (axis h (fst ph) (snd ph) kh sh dh) (fun a => bind (axis w0 (fst pw) (snd pw) kw sw dw) (fun b =>
  SOk (layout f a b)))))))).
End Conv.

Section Pool.
Variable axis : Z -> Z -> Z -> Z -> Z -> sres (Z * Z).
(** Pooling2DPadding of tf (24-76, 147-213) when [checked], of mxnet (30-56,
    72-145), and of onnx and dragon (NCHW only): the input may have any rank *)
Definition pool_padding (checked : bool) (f : format) (padding x ksize stride : list Z) : sres (list Z) :=
  if negb (Z.of_nat (length padding) =? 8) then SErr else
  if checked && negb (padding_accepted f padding) then SErr else
  bind (static_of f padding) (fun '(ph, pw) => bind (spatial f ksize) (fun '(kh, kw) => bind (spatial f stride) (fun '(sh, sw) =>
  bind (spatial f x) (fun '(h, w) =>
  bind (axis h (fst ph) (snd ph) kh sh) (fun a => bind (axis w (fst pw) (snd pw) kw sw) (fun b => SOk (layout f a b))))))).
End Pool.

Definition tf_conv_padding (same : bool) := conv_padding (if same then tf_conv_same else tf_conv_valid).
Definition dragon_conv_padding (m : scheme) := conv_padding (dragon_conv m).
Definition tf_pool_padding (same : bool) := pool_padding (if same then pool_same_upper else pool_valid) true.
Definition mx_pool_padding (valid : bool) := pool_padding (mx_pool valid) false.
Definition onnx_pool_padding (m : scheme) := pool_padding (onnx_pool m) false NCHW.
Definition dragon_pool_padding (m : scheme) (ceil_mode : bool) := pool_padding (dragon_pool m ceil_mode) false NCHW.
