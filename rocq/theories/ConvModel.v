(** Model of two-dimensional convolution:
    src/backend/base/base_conv2d.cpp 39-205, conv2d_forward
    (include/backend/common_function.h 33-43), im2col_cpu
    (src/kernels/cpu/im2col.cpp 37-110) and cpu_conv2d_nchw_compute_run
    (src/kernels/cpu/conv2d_core.cpp 17-120, the build without CBLAS).

    Simplifications: as in GemmModel the numbers are abstract and exact, and
    loops shared among threads run in order; a counting loop down to zero from
    a negative number, which the code only leaves through undefined behaviour,
    is [SUndef], and so is a shape with a negative size. *)
From Coq Require Import List ZArith Bool.
From Verif Require Import ShapeModel KernelBase LoopModel EltwiseModel GemmModel.
Import ListNotations.
Local Open Scope Z_scope.

Definition bind {A B} (a : sres A) (f : A -> sres B) : sres B :=
  match a with SOk a => f a | SErr => SErr | SUndef => SUndef end.

(** common_function.h 37-42, im2col.cpp 43-47: C++ division drops the
    fraction, so the floor does nothing *)
Definition conv_size (x before after k stride dilation : Z) : sres Z :=
  if stride =? 0 then SUndef else SOk (Z.quot (x + before + after - (dilation * (k - 1) + 1)) stride + 1).

(** common_structure.h: padding, stride, dilation *)
Record window := Window { top : Z; bottom : Z; left_ : Z; right_ : Z; stride_h : Z; stride_w : Z; dil_h : Z; dil_w : Z }.

Definition forward (win : window) (h w kh kw : Z) : sres (Z * Z) :=
  bind (conv_size h (top win) (bottom win) kh (stride_h win) (dil_h win)) (fun oh =>
  bind (conv_size w (left_ win) (right_ win) kw (stride_w win) (dil_w win)) (fun ow =>
  SOk (oh, ow))).

Section Conv.
Context {R : Type} (rO rI : R) (radd rmul : R -> R -> R).
Variable near : R -> R -> bool.

(** im2col.cpp 28-30: the comparison of unsigned values *)
Definition in_image (a b : Z) : bool := (0 <=? a) && (a <? b).

(** im2col.cpp 37-80 *)
Definition im2col (x : Z -> sres R) (channels h w kh kw : Z) (win : window) (padding_value : R) : sres (list (event R)) :=
  bind (forward win h w kh kw) (fun o =>
  let (oh, ow) := o in
  if (oh <? 0) || (ow <? 0) then SUndef else
  SOk (map (fun kc => (fst kc,
    match snd kc with
    | [channel; kernel_row; kernel_col; output_row; output_col] =>
        let input_row := - top win + kernel_row * dil_h win + output_row * stride_h win in
        let input_col := - left_ win + kernel_col * dil_w win + output_col * stride_w win in
        if negb (in_image input_row h) then SOk padding_value
        else if in_image input_col w then x (channel * (h * w) + (input_row * w + input_col))
        else SOk padding_value
    | _ => SUndef
    end)) (counted (loops [channels; kh; kw; oh; ow])))).

(** 42-45 *)
Definition is_1x1 (kh kw : Z) (win : window) : bool :=
  (stride_h win =? 1) && (stride_w win =? 1) && (kh =? 1) && (kw =? 1) &&
  (top win =? 0) && (bottom win =? 0) && (left_ win =? 0) && (right_ win =? 0).

Definition shift {A} (d : Z) (tr : list (event A)) : list (event A) := map (fun e => (d + fst e, snd e)) tr.

(** 58-98: one image; [x] reads the input, [w] the weights *)
Definition conv_image (is_float : bool) (x w : Z -> sres R) (channels h wd outs kh kw oh ow : Z) (win : window)
    (padding_value : R) (kernel_packed : bool) : sres (list (event R)) :=
  let kernel_dims := channels * kh * kw in
  let col_buffer_size := channels * kh * kw * oh * ow in
  let col :=
    if is_1x1 kh kw win then SOk x
    else bind (im2col x channels h wd kh kw win padding_value) (fun stores =>
         bind (exec (map Some (repeat rO (Z.to_nat col_buffer_size))) stores) (fun buffer => SOk (read buffer))) in
  bind col (fun col =>
    packed_gemm rO rI radd rmul near is_float outs (oh * ow) kernel_dims rI w col rO (negb kernel_packed) true).

(** 17-34, 57, 95-97: the images one after the other *)
Definition conv_run (is_float : bool) (x w : list R) (number channels h wd outs kh kw oh ow : Z) (win : window)
    (padding_value : R) (kernel_packed : bool) : sres (list (event R)) :=
  bind (each (map (fun i =>
    lift1 (shift (i * (outs * (oh * ow))))
      (conv_image is_float (fun p => load x (i * (channels * h * wd) + p)) (load w) channels h wd outs kh kw oh ow win padding_value kernel_packed))
    (upto number))) (fun trs => SOk (concat trs)).

(** base_conv2d.cpp 62-118: the attributes: padding 4x2, stride, dilation;
    [None] is a refused attribute *)
Definition conv_init (nchw : bool) (padding stride dilation : list Z) : option window :=
  let p i := nth i padding 0 in let s i := nth i stride 0 in let d i := nth i dilation 0 in
  if negb (Nat.eqb (length padding) 8 && Nat.eqb (length stride) 4 && Nat.eqb (length dilation) 4) then None else
  if nchw then
    if negb ((p 0%nat =? 0) && (p 1%nat =? 0) && (p 2%nat =? 0) && (p 3%nat =? 0)) then None else
    if negb ((s 0%nat =? 1) && (s 1%nat =? 1)) then None else
    if negb ((d 0%nat =? 1) && (d 1%nat =? 1)) then None else
    Some (Window (p 4%nat) (p 5%nat) (p 6%nat) (p 7%nat) (s 2%nat) (s 3%nat) (d 2%nat) (d 3%nat))
  else
    if negb ((p 0%nat =? 0) && (p 1%nat =? 0) && (p 6%nat =? 0) && (p 7%nat =? 0)) then None else
    if negb ((s 0%nat =? 1) && (s 3%nat =? 1)) then None else
    if negb ((d 0%nat =? 1) && (d 3%nat =? 1)) then None else
    Some (Window (p 2%nat) (p 3%nat) (p 4%nat) (p 5%nat) (s 1%nat) (s 2%nat) (d 1%nat) (d 2%nat)).

(** base_conv2d.cpp 121-205 and conv2d_core.cpp 101-120 *)
Definition conv2d (nchw : bool) (padding stride dilation : list Z) (padding_value : R) (kernel_packed : bool)
    (x w : tensor R) : sres (raw_tensor R) :=
  match conv_init nchw padding stride dilation with
  | None => SErr
  | Some win =>
      match t_shape x, t_shape w with
      | [n; x1; x2; x3], [outs; w1; w2; w3] =>
          if negb (t_dtype x =? t_dtype w) then SErr else
          if negb (w1 =? x1) then SErr else
          bind (if nchw then forward win x2 x3 w2 w3 else forward win x1 x2 w1 w2) (fun o =>
          let (oh, ow) := o in
          if (oh <? 0) || (ow <? 0) then SUndef else
          if negb nchw then SErr else
          if negb ((t_dtype x =? 10) || (t_dtype x =? 11)) then SErr else
          bind (conv_run (t_dtype x =? 10) (t_data x) (t_data w) n x1 x2 x3 outs w2 w3 oh ow win padding_value kernel_packed) (fun stores =>
          bind (exec (fresh (n * outs * oh * ow)) stores) (fun m =>
          SOk (Tn (t_dtype x) [n; outs; oh; ow] m))))
      | _, _ => SErr
      end
  end.
End Conv.
