(** Model of the CPU dcn_v2_forward operator, convolution at displaced places
    (src/backend/torch/base_dcn_v2_forward.cpp 15-207,
    src/kernels/cpu/dcn_v2_forward.cpp 13-22, src/kernels/cpu/dcn/dcn_v2_cpu.cpp
    12-160, dcn_v2_im2col_cpu.cpp 14-139, utils.h 21-31, 56-129).

    Floats are the rational numbers they denote, in lowest terms, and arithmetic
    on them is exact.  The matrix products are those of GemmModel (the build
    without CBLAS).  Products of sizes, and the conversion of a coordinate to an
    int, do not overflow; a shape with a negative size is undefined. *)
From Coq Require Import List ZArith Bool QArith Qround Qcanon.
From Verif Require Import ShapeModel KernelBase EltwiseModel GemmModel ConvModel ResizeModel.
Import ListNotations.
Local Open Scope Z_scope.

Definition float32 : Z := 10.

(** include/kernels/common/math.h 25-28: FLT_EPSILON is 2^-23 *)
Definition near32 (a b : Qc) : bool :=
  let d := if Qltb b a then (this a - this b)%Q else (this b - this a)%Q in Qltb d (1 # 8388608).

(** base_dcn_v2_forward.cpp 102-162: the dtype and the shape announced *)
Definition infer (nchw : bool) (win : window) (types : list Z) (sx sw sb so sm : list Z) : sres (Z * list Z) :=
  match types, sx, sw with
  | dx :: rest, [n; x1; x2; x3], [outs; w1; w2; w3] =>
      if negb (Nat.eqb (length sb) 1 && Nat.eqb (length so) 4 && Nat.eqb (length sm) 4) then SErr else
      if negb (forallb (Z.eqb dx) rest) then SErr else
      bind2 (if nchw then forward win x2 x3 w2 w3 else forward win x1 x2 w1 w2) (fun o =>
      SOk (dx, if nchw then [n; outs; fst o; snd o] else [n; fst o; snd o; outs]))
  | _, _, _ => SErr
  end.

(** dcn_v2_im2col_cpu.cpp 14-42; [im] is where the image and channel start *)
Definition bilinear (x : list Qc) (im height width : Z) (h w : Q) : sres Q :=
  let hl := Qfloor h in let wl := Qfloor w in
  let hh := hl + 1 in let wh := wl + 1 in
  let lh := (h - inject_Z hl)%Q in let lw := (w - inject_Z wl)%Q in
  let uh := (1 - lh)%Q in let uw := (1 - lw)%Q in
  let get (inside : bool) (i : Z) : sres Q := if inside then lift1 this (load x (im + i)) else SOk 0%Q in
  bind2 (get ((0 <=? hl) && (0 <=? wl)) (hl * width + wl)) (fun v1 =>
  bind2 (get ((0 <=? hl) && (wh <=? width - 1)) (hl * width + wh)) (fun v2 =>
  bind2 (get ((hh <=? height - 1) && (0 <=? wl)) (hh * width + wl)) (fun v3 =>
  bind2 (get ((hh <=? height - 1) && (wh <=? width - 1)) (hh * width + wh)) (fun v4 =>
  SOk (uh * uw * v1 + uh * lw * v2 + lh * uw * v3 + lh * lw * v4)%Q)))).

Record sizes := Sizes { batch : Z; channels : Z; height : Z; width : Z; height_col : Z; width_col : Z;
  kernel_h : Z; kernel_w : Z; groups : Z }.

(** 95-114: the value stored for tap (i, j) *)
Definition tap (d : sizes) (win : window) (x off mask : list Qc) (b c g h w i j : Z) : sres Qc :=
  let col := height_col d * width_col d in
  let taps := kernel_h d * kernel_w d in
  let at_ := (b * groups d + g) * (2 * (taps * col)) in
  bind2 (load off (at_ + ((2 * (i * kernel_w d + j)) * height_col d + h) * width_col d + w)) (fun oh =>
  bind2 (load off (at_ + ((2 * (i * kernel_w d + j) + 1) * height_col d + h) * width_col d + w)) (fun ow =>
  bind2 (load mask ((b * groups d + g) * (taps * col) + ((i * kernel_w d + j) * height_col d + h) * width_col d + w)) (fun m =>
  let h_im := (inject_Z (h * stride_h win - top win + i * dil_h win) + this oh)%Q in
  let w_im := (inject_Z (w * stride_w win - left_ win + j * dil_w win) + this ow)%Q in
  bind2 (if Qltb (-(1)) h_im && Qltb (-(1)) w_im && Qltb h_im (inject_Z (height d)) && Qltb w_im (inject_Z (width d))
         then bilinear x ((b * channels d + c) * (height d * width d)) (height d) (width d) h_im w_im
         else SOk 0%Q) (fun v =>
  SOk (Q2Qc (v * this m)))))).

(** 62-119, 130-139: the stores into the columns buffer *)
Definition im2col (d : sizes) (win : window) (x off mask : list Qc) : sres (list (event Qc)) :=
  if groups d =? 0 then SUndef else
  let per := Z.quot (channels d) (groups d) in
  let n := channels d * batch d * height_col d * width_col d in
  if (0 <? n) && (per =? 0) then SUndef else
  SOk (flat_map (fun index =>
    let w_col := index mod width_col d in
    let h_col := (index / width_col d) mod height_col d in
    let b_col := (index / width_col d / height_col d / channels d) mod batch d in
    let c_im := (index / width_col d / height_col d) mod channels d in
    let c_col := c_im * (kernel_h d * kernel_w d) in
    let g := Z.quot c_im per in
    let start := ((b_col * (channels d * kernel_w d * kernel_h d) + c_col) * height_col d + h_col) * width_col d + w_col in
    flat_map (fun i => map (fun j =>
      (start + (i * kernel_w d + j) * (height_col d * width_col d), tap d win x off mask b_col c_im g h_col w_col i j))
      (upto (kernel_w d))) (upto (kernel_h d))) (upto n)).

(** utils.h 71-98: the leading dimensions of products without a line or with one;
    the second operand is never transposed here *)
Definition adjusted (transa : bool) (m n k lda ldb ldc : Z) : Z * Z * Z :=
  let ldc := if n <=? 1 then Z.max m 1 else ldc in
  let lda := if transa then (if m <=? 1 then Z.max k 1 else lda) else (if k <=? 1 then Z.max m 1 else lda) in
  let ldb := if n <=? 1 then Z.max k 1 else ldb in
  (lda, ldb, ldc).

(** utils.h 107-129, one matrix of the batch *)
Definition sgemm (vec transa : bool) (m n k : Z) (a : Z -> sres Qc) (lda : Z) (b : Z -> sres Qc) (ldb : Z)
    (beta : Qc) (c : list (option Qc)) (ldc : Z) : sres (list (option Qc)) :=
  let '(lda, ldb, ldc) := adjusted transa m n k lda ldb ldc in
  gemm (Q2Qc 0) (Q2Qc 1) Qcplus Qcmult near32 vec true transa false m n k (Q2Qc 1) a lda b ldb beta c ldc.

(** dcn_v2_cpu.cpp 77-158: the product of the ones and the bias fills the image,
    the product of the columns and the weights is added.
    [ones] and [columns] are read where the image starts *)
Definition image (vec : bool) (pixels outs k : Z) (ones columns : Z -> sres Qc) (w bias : list Qc) : sres (list (option Qc)) :=
  bind2 (sgemm vec true pixels outs 1 ones 1 (load bias) 1 (Q2Qc 0) (fresh (outs * pixels)) pixels) (fun c =>
  sgemm vec false pixels outs k columns pixels (load w) k (Q2Qc 1) c pixels).

Definition is_negative (l : list Z) : bool := existsb (fun d => d <? 0) l.

(** dcn_v2_forward.cpp 13-22 and dcn_v2_cpu.cpp 35-160, on the shape announced.
    The images do not overlap: each is its own piece of the output *)
Definition compute (vec : bool) (win : window) (deform : Z) (announced : list Z) (x w b off mask : tensor Qc) : sres (raw_tensor Qc) :=
  match t_shape x, t_shape w with
  | [n; c; h; wd], [outs; ck; kh; kw] =>
      if negb (top win =? bottom win) then SErr else
      if negb (left_ win =? right_ win) then SErr else
      if negb (t_dtype x =? float32) then SErr else
      if negb (c =? ck) then SErr else
      if (stride_h win =? 0) || (stride_w win =? 0) then SUndef else
      let oh := Z.quot (h + 2 * top win - (dil_h win * (kh - 1) + 1)) (stride_h win) + 1 in
      let ow := Z.quot (wd + 2 * left_ win - (dil_w win * (kw - 1) + 1)) (stride_w win) + 1 in
      if is_negative [n; oh; ow; c * kh * kw; oh * ow] then SUndef else
      if negb (if list_eq_dec Z.eq_dec announced [n; outs; oh; ow] then true else false) then SErr else
      let k := c * kh * kw in
      let pixels := oh * ow in
      let d := Sizes n c h wd oh ow kh kw deform in
      bind2 (im2col d win (t_data x) (t_data off) (t_data mask)) (fun stores =>
      bind2 (exec (fresh (n * k * pixels)) stores) (fun columns =>
      let ones := repeat (Q2Qc 1) (Z.to_nat (n * pixels)) in
      bind2 (each (map (fun i =>
        image vec pixels outs k (fun p => load ones (i * pixels + p)) (fun p => read columns (i * (k * pixels) + p)) (t_data w) (t_data b)) (upto n)))
        (fun images => SOk (Tn float32 announced (concat images)))))
  | _, _ => SErr
  end.

(** init, then run *)
Definition dcn_v2 (vec nchw : bool) (padding stride dilation : list Z) (deform : Z) (x w b off mask : tensor Qc) : sres (raw_tensor Qc) :=
  match conv_init nchw padding stride dilation with
  | None => SErr
  | Some win =>
      bind2 (infer nchw win [t_dtype x; t_dtype w; t_dtype b; t_dtype off; t_dtype mask] (t_shape x) (t_shape w) (t_shape b) (t_shape off) (t_shape mask)) (fun p =>
      if is_negative (snd p) then SUndef else
      compute vec win deform (snd p) x w b off mask)
  end.
