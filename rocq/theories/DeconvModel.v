(** Model of two-dimensional transposed convolution:
    src/backend/base/base_conv2d_transpose.cpp 36-231, conv2d_backward
    (include/backend/common_function.h 45-55), col2im_cpu
    (src/kernels/cpu/im2col.cpp 130-168) and
    cpu_transpose_conv2d_nchw_compute_run
    (src/kernels/cpu/transpose_conv2d_core.cpp 22-118, the build without CBLAS).

    Simplifications: as in ConvModel; the output_shape attribute, which is no
    field of the operator and has no effect, is left out. *)
From Coq Require Import List ZArith Bool.
From Verif Require Import ShapeModel KernelBase LoopModel EltwiseModel TransposeModel AxisModel GemmModel ConvModel.
Import ListNotations.
Local Open Scope Z_scope.

(** common_function.h 45-55 *)
Definition backward_size (y before after k stride dilation : Z) : Z :=
  (y - 1) * stride + (dilation * (k - 1) + 1) - before - after.

Definition shift_instrs {A} (d : Z) (p : list (instr A)) : list (instr A) :=
  map (fun i => match i with Put k v => Put (d + k) v | Upd k f => Upd (d + k) f end) p.

(** memcpy of [n] elements, initialised or not *)
Definition blit {A} (out : list (option A)) (dst : Z) (src : list (option A)) (n : Z) : sres (list (option A)) :=
  if (n <? 0) || (dst <? 0) || (Z.of_nat (length src) <? n) || (Z.of_nat (length out) <? dst + n) then SUndef
  else SOk (firstn (Z.to_nat dst) out ++ firstn (Z.to_nat n) src ++ skipn (Z.to_nat (dst + n)) out).

Section Deconv.
Context {R : Type} (rO rI : R) (radd rmul : R -> R -> R).
Variable near : R -> R -> bool.

(** im2col.cpp 130-168; [col] reads the column buffer *)
Definition col2im (col : Z -> sres R) (channels h w kh kw : Z) (win : window) : sres (list (instr R)) :=
  bind (forward win h w kh kw) (fun o =>
  let (oh, ow) := o in
  if (oh <? 0) || (ow <? 0) then SUndef else
  SOk (zeros rO (h * w * channels) ++
    flat_map (fun kc =>
      match snd kc with
      | [channel; kernel_row; kernel_col; output_row; output_col] =>
          let input_row := - top win + kernel_row * dil_h win + output_row * stride_h win in
          let input_col := - left_ win + kernel_col * dil_w win + output_col * stride_w win in
          if negb (in_image input_row h) then []
          else if in_image input_col w
          then [Upd (channel * (h * w) + (input_row * w + input_col)) (lift1 (fun v acc => radd acc v) (col (fst kc)))]
          else []
      | _ => []
      end) (counted (loops [channels; kh; kw; oh; ow])))).

(** transpose_conv2d_core.cpp 71-103: one image, whose numbers [x] reads;
    [wt] reads the transposed weights, [col] is the column buffer, as the
    previous image left it *)
Definition deconv_image (is_float : bool) (x wt : Z -> sres R) (ins h w outs kh kw oh ow : Z) (win : window)
    (base : Z) (col out : list (option R)) : sres (list (option R) * list (option R)) :=
  bind (packed_gemm rO rI radd rmul near is_float (outs * kh * kw) (h * w) ins rI wt x rO true true) (fun stores =>
  bind (exec col stores) (fun col =>
  bind (if is_1x1 kh kw win then blit out base col (outs * kh * kw * h * w)
        else bind (col2im (read col) outs oh ow kh kw win) (fun p => exec_instrs out (shift_instrs base p))) (fun out =>
  SOk (col, out)))).

(** 70-105: the images one after the other *)
Fixpoint deconv_images (is_float : bool) (x wt : Z -> sres R) (ins h w outs kh kw oh ow : Z) (win : window)
    (images : list Z) (col out : list (option R)) : sres (list (option R)) :=
  match images with
  | [] => SOk out
  | i :: images =>
      bind (deconv_image is_float (fun p => x (i * (ins * (h * w)) + p)) wt ins h w outs kh kw oh ow win
              (i * (outs * oh * ow)) col out) (fun r =>
      deconv_images is_float x wt ins h w outs kh kw oh ow win images (fst r) (snd r))
  end.

(** base_conv2d_transpose.cpp 36-231, transpose_conv2d_core.cpp 22-70, 107-135.
    The attributes are checked as those of conv2d are. *)
Definition conv2d_transpose (nchw : bool) (padding stride dilation : list Z) (kernel_packed : bool)
    (x w : tensor R) : sres (raw_tensor R) :=
  match conv_init nchw padding stride dilation with
  | None => SErr
  | Some win =>
      match t_shape x, t_shape w with
      | [n; x1; x2; x3], [w0; w1; w2; w3] =>
          if negb (t_dtype x =? t_dtype w) then SErr else
          if negb (w0 =? x1) then SErr else
          let oh := if nchw then backward_size x2 (top win) (bottom win) w2 (stride_h win) (dil_h win)
                    else backward_size x1 (top win) (bottom win) w1 (stride_h win) (dil_h win) in
          let ow := if nchw then backward_size x3 (left_ win) (right_ win) w3 (stride_w win) (dil_w win)
                    else backward_size x2 (left_ win) (right_ win) w2 (stride_w win) (dil_w win) in
          if (oh <? 0) || (ow <? 0) then SUndef else
          if negb nchw then SErr else
          if negb ((t_dtype x =? 10) || (t_dtype x =? 11)) then SErr else
          if kernel_packed then SErr else
          bind (reshape (t_shape w) [w0; -1]) (fun s =>
          bind (transpose_run (t_dtype x =? 10) (Some [1; 0]) (Tn (t_dtype w) s (t_data w))) (fun wt =>
          bind (deconv_images (t_dtype x =? 10) (load (t_data x)) (read (t_data wt)) x1 x2 x3 w1 w2 w3 oh ow win
                  (upto n) (fresh (w1 * w2 * w3 * x2 * x3)) (fresh (n * w1 * oh * ow))) (fun m =>
          SOk (Tn (t_dtype x) [n; w1; oh; ow] m))))
      | _, _ => SErr
      end
  end.
End Deconv.
