(** Model of the CPU operator conv2d_quantized: int8 convolution whose int32 sums
    are multiplied by one float per output channel.
    src/backend/base/base_conv2d_quantized.cpp 37-222 and
    src/kernels/cpu/quantized/conv2d_quantized_core.cpp 19-145, with
    math<int8_t, int32_t>::gemm (src/kernels/cpu/math_cpu.cpp 26-45, 79-210) and
    im2col_cpu (im2col.cpp 37-110), which are those of GemmModel and ConvModel on
    integers.

    The channels of an image are dequantised by a loop with OpenMP whose iterations
    store through one shared pointer and move it (90-115): [order i] is the order in
    which the channels of image [i] get their turn.  Without OpenMP it is
    0, 1, 2, ...

    Simplifications: int32 sums are exact (C163_sums_fit says when they are); an
    iteration of the dequantising loop is not interrupted by another one; floats
    are abstract: [of_int] is the conversion from int32, [mul] the product; the
    padding value is an exact number; the images' products, which go to different
    parts of the int32 buffer, are computed each in its own. *)
From Coq Require Import List ZArith Bool QArith.
From Verif Require Import ShapeModel KernelBase LoopModel EltwiseModel GemmModel ConvModel ResizeModel.
Import ListNotations.
Local Open Scope Z_scope.

(** int8_t(padding_value): conversion of a value outside the type is undefined *)
Definition to_int8 (v : Q) : sres Z := let z := truncate v in if (-128 <=? z) && (z <=? 127) then SOk z else SUndef.

(** 62-77: one image, as int32 *)
Definition quant_image (x w : Z -> sres Z) (channels h wd outs kh kw oh ow : Z) (win : window) (pv : Q) : sres (list (option Z)) :=
  let kernel_dims := channels * kh * kw in
  let col :=
    if is_1x1 kh kw win then SOk x
    else bind (to_int8 pv) (fun p =>
         bind (im2col x channels h wd kh kw win p) (fun stores =>
         bind (exec (map Some (repeat 0 (Z.to_nat (channels * kh * kw * oh * ow)))) stores) (fun buffer => SOk (read buffer)))) in
  bind col (fun col =>
  match gemm_row_major 0 1 Z.add Z.mul Z.eqb false false false outs (oh * ow) kernel_dims 1 w kernel_dims col (oh * ow) 0 (oh * ow) with
  | Some p => exec_instrs (fresh (outs * (oh * ow))) p
  | None => SErr
  end).

Section Dequantize.
Context {F : Type} (of_int : Z -> F) (mul : F -> F -> F).

(** 101-114: the blocks of eight, then the rest *)
Definition eights (count : Z) : list Z :=
  flat_map (fun i => map (fun l => i * 8 + l) (upto 8)) (upto (count / 8)) ++ map (fun k => count / 8 * 8 + k) (upto (count - count / 8 * 8)).
(** 96-115: one channel *)
Definition dequantize_channel (m : list (option Z)) (scales : list F) (area c : Z) : sres (list F) :=
  bind (load scales c) (fun s =>
  each (map (fun i => lift1 (fun v => mul (of_int v) s) (read m (c * area + i))) (eights area))).
(** 91-116: what one image's loop leaves behind the pointer, in the order of the stores *)
Definition dequantize_image (order : list Z) (m : list (option Z)) (scales : list F) (area : Z) : sres (list F) :=
  bind (each (map (dequantize_channel m scales area) order)) (fun ls => SOk (concat ls)).

(** base_conv2d_quantized.cpp 125-190, 192-222 and conv2d_quantized_core.cpp 127-145 *)
Definition conv2d_quantized (order : Z -> list Z) (nchw : bool) (padding stride dilation : list Z) (pv : Q) (scales : list F)
    (x w : tensor Z) : sres (tensor F) :=
  match conv_init nchw padding stride dilation with
  | None => SErr
  | Some win =>
      match t_shape x, t_shape w with
      | [n; x1; x2; x3], [outs; w1; w2; w3] =>
          if negb (t_dtype x =? t_dtype w) then SErr else
          if negb (w1 =? x1) then SErr else
          if negb (t_dtype x =? 1) then SErr else
          if negb (Z.of_nat (length scales) =? outs) then SErr else
          bind (if nchw then forward win x2 x3 w2 w3 else forward win x1 x2 w1 w2) (fun o =>
          let (oh, ow) := o in
          if (oh <? 0) || (ow <? 0) then SUndef else
          if negb nchw then SErr else
          bind (each (map (fun i =>
            bind (quant_image (fun p => load (t_data x) (i * (x1 * x2 * x3) + p)) (load (t_data w)) x1 x2 x3 outs w2 w3 oh ow win pv) (fun m =>
            dequantize_image (order i) m scales (oh * ow))) (upto n))) (fun images =>
          SOk (Tn 10 [n; outs; oh; ow] (concat images))))
      | _, _ => SErr
      end
  end.
End Dequantize.
(** the order without OpenMP *)
Definition in_turn (outs : Z) (image : Z) : list Z := upto outs.
