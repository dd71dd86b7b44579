(** Model of the CPU roi_align operator (src/backend/base/base_roi_align.cpp 24-33,
    src/kernels/cpu/roi_align.cpp 28-38, src/kernels/cpu/dragon/roi_align_op.h 27-35,
    roi_align_op.cpp 8-38, roi_align_op_kernel.cpp 15-124).

    Floats are the rational numbers they denote and arithmetic on them is exact;
    a conversion to int never overflows. *)
From Coq Require Import List ZArith Bool QArith Qround.
From Verif Require Import ShapeModel KernelBase ResizeModel NmsModel.
Import ListNotations.
Local Open Scope Z_scope.

Definition float32 : Z := 10.

(** base_roi_align.cpp 24-33: dtype and shape announced *)
Definition infer (ph pw : Z) (dx dr : Z) (sx sr : list Z) : sres (Z * list Z) :=
  if negb (dx =? dr) then SErr else
  match sr, sx with
  | r :: _, _ :: c :: _ => SOk (dx, [r; c; ph; pw])
  | _, _ => SUndef
  end.

(** kernel 16-55, one axis of [n] cells: the two cells and the weight of the second.
    [v] has been found to be between -1 and n *)
Definition axis_cells (n : Z) (v : Q) : Z * Z * Q :=
  let v := if Qle_bool v 0 then 0%Q else v in
  let lo := truncate v in
  if n - 1 <=? lo then (n - 1, n - 1, (inject_Z (n - 1) - inject_Z (n - 1))%Q)
  else (lo, lo + 1, (v - inject_Z lo)%Q).
(** [base] is where the image and channel start *)
Definition interpolated (x : list Q) (base h w : Z) (y0 x0 : Q) : sres Q :=
  if qlt y0 (-(1)) || qlt (inject_Z h) y0 || qlt x0 (-(1)) || qlt (inject_Z w) x0 then SOk 0%Q else
  let '(yl, yh, ly) := axis_cells h y0 in
  let '(xl, xh, lx) := axis_cells w x0 in
  let hy := (1 - ly)%Q in let hx := (1 - lx)%Q in
  bind2 (load x (base + (yl * w + xl))) (fun v1 =>
  bind2 (load x (base + (yl * w + xh))) (fun v2 =>
  bind2 (load x (base + (yh * w + xl))) (fun v3 =>
  bind2 (load x (base + (yh * w + xh))) (fun v4 =>
  SOk (hy * hx * v1 + hy * lx * v2 + ly * hx * v3 + ly * lx * v4)%Q)))).

Record options := Options { pool_h : Z; pool_w : Z; spatial_scale : Q; sampling_ratio : Z }.

(** 87-90: the samples along an axis of a bin *)
Definition grid (ratio : Z) (len : Q) (pool : Z) : Z := if 0 <? ratio then ratio else Qceiling (len / inject_Z pool).
(** 100-102, 104-106 *)
Definition sample_at (start bin : Q) (p i n : Z) : Q := (start + inject_Z p * bin + (inject_Z i + (1 # 2)) * bin / inject_Z n)%Q.
(** 97-112: one output element; the samples are added up row by row *)
Definition pooled (o : options) (x : list Q) (base h w : Z) (start_w start_h bin_h bin_w : Q) (gh gw : Z) (ph pw : Z) : sres Q :=
  bind2 (fold_left (fun acc t => bind2 acc (fun s =>
           bind2 (interpolated x base h w (sample_at start_h bin_h ph (fst t) gh) (sample_at start_w bin_w pw (snd t) gw)) (fun v => SOk (s + v)%Q)))
         (flat_map (fun iy => map (fun ix => (iy, ix)) (upto gw)) (upto gh)) (SOk 0%Q))
    (fun s => SOk (s / (inject_Z gh * inject_Z gw))%Q).

(** 66-121, one box: its stores.  R[0..4] *)
Definition box_events (o : options) (C H W : Z) (x : list Q) (n : Z) (r : Q * Q * Q * Q * Q) : list (event Q) :=
  let '(r0, r1, r2, r3, r4) := r in
  let ind := truncate r0 in
  let y_offset := C * (pool_h o * pool_w o) in
  if ind <? 0 then map (fun k => (n * y_offset + k, SOk 0%Q)) (upto y_offset) else
  let start_w := (r1 * spatial_scale o)%Q in
  let start_h := (r2 * spatial_scale o)%Q in
  let end_w := (r3 * spatial_scale o)%Q in
  let end_h := (r4 * spatial_scale o)%Q in
  let width := std_max (end_w - start_w) 1 in
  let height := std_max (end_h - start_h) 1 in
  let bin_h := (height / inject_Z (pool_h o))%Q in
  let bin_w := (width / inject_Z (pool_w o))%Q in
  let gh := grid (sampling_ratio o) height (pool_h o) in
  let gw := grid (sampling_ratio o) width (pool_w o) in
  flat_map (fun c => flat_map (fun ph => map (fun pw =>
    (n * y_offset + c * (pool_h o * pool_w o) + (ph * pool_w o + pw),
     pooled o x (ind * (C * (H * W)) + c * (H * W)) H W start_w start_h bin_h bin_w gh gw ph pw))
    (upto (pool_w o))) (upto (pool_h o))) (upto C).
(** R = rois + n * 5 *)
Definition box_of (rois : list Q) (n : Z) : sres (Q * Q * Q * Q * Q) :=
  bind2 (load rois (n * 5)) (fun r0 => bind2 (load rois (n * 5 + 1)) (fun r1 => bind2 (load rois (n * 5 + 2)) (fun r2 =>
  bind2 (load rois (n * 5 + 3)) (fun r3 => bind2 (load rois (n * 5 + 4)) (fun r4 => SOk (r0, r1, r2, r3, r4)))))).
Definition roi_events (o : options) (C H W : Z) (x rois : list Q) (num : Z) : list (event Q) :=
  flat_map (fun n => match box_of rois n with SOk r => box_events o C H W x n r | SErr => [(0, SErr)] | SUndef => [(0, SUndef)] end) (upto num).

(** run: the constructor's checks, the dtypes, the kernel *)
Definition run (o : options) (x rois : tensor Q) : sres (raw_tensor Q) :=
  if (pool_h o <=? 0) || (pool_w o <=? 0) then SErr else
  match t_shape x, t_shape rois with
  | _ :: C :: H :: W :: _, num :: _ =>
      if negb (t_dtype x =? float32) then SErr else
      if negb (t_dtype rois =? float32) then SErr else
      let shape := [num; C; pool_h o; pool_w o] in
      bind2 (exec (fresh (num * C * pool_h o * pool_w o)) (roi_events o C H W (t_data x) (t_data rois) num))
        (fun m => SOk (Tn float32 shape m))
  | _, _ => SUndef
  end.
