(** Model of two-dimensional depthwise convolution:
    src/backend/base/base_depthwise_conv2d.cpp 11-27 over
    src/backend/base/base_conv2d.cpp 39-205,
    src/kernels/cpu/depthwise_conv2d_core.cpp 11-58 and
    src/kernels/cpu/depthwise_conv2d_algorithm.cpp 12-390 (the build without
    NEON; depthwise_3x3_s2_inplace, which nothing calls, is left out).

    Simplifications: as in ConvModel.  [slack] is what lies in memory behind
    the last weight: the kernels load the weights by four. *)
From Coq Require Import List ZArith Bool.
From Verif Require Import ShapeModel KernelBase LoopModel EltwiseModel PoolingModel GemmModel ConvModel.
Import ListNotations.
Local Open Scope Z_scope.

Section Depthwise.
Context {R : Type} (rO : R) (radd rmul : R -> R -> R).

(** sum += v for the values in turn *)
Fixpoint sum_terms (acc : R) (l : list (sres R)) : sres R :=
  match l with
  | [] => SOk acc
  | SOk v :: l => sum_terms (radd acc v) l
  | _ => SUndef
  end.

(** depthwise_conv2d_algorithm.cpp 12-42; [x] reads the plane, [k] the kernel *)
Definition depthwise_inner (x k : Z -> sres R) (h w s ow : Z) (win : window) (padding_value : R) (oh_index ow_index : Z) : event R :=
  let h_in := oh_index * s - top win in
  let w_in := ow_index * s - left_ win in
  (oh_index * ow + ow_index,
   sum_terms rO (map (fun c =>
     match c with
     | [i; j] =>
         let h_index := i + h_in in
         let w_index := j + w_in in
         let v := if (0 <=? h_index) && (h_index <? h) && (0 <=? w_index) && (w_index <? w) then x (h_index * w + w_index) else SOk padding_value in
         lift2 rmul v (k (i * 3 + j))
     | _ => SUndef
     end) (loops [3; 3]))).

(** 188-238, 350-371: four elements of a row, their windows inside the plane *)
Definition lanes (x k : Z -> sres R) (w s ow : Z) (win : window) (oh_index ow_index : Z) : list (event R) :=
  let i0 := (oh_index * s - top win) * w + (ow_index * s - left_ win) in
  map (fun l => (oh_index * ow + ow_index + l,
    sum_terms rO (map (fun c =>
      match c with
      | [i; j] => lift2 rmul (x (i0 + i * w + j + l * s)) (k (i * 3 + j))
      | _ => SUndef
      end) (loops [3; 3])))) (upto 4).

(** float32x4 k0_x4(kernel_at) ...: twelve loads, of which nine are used *)
Definition kernel_loads (k : Z -> sres R) : bool :=
  forallb (fun i => match k i with SOk _ => true | _ => false end) ([0; 1; 2; 3] ++ [3; 4; 5; 6] ++ [6; 7; 8; 9]).

(** 119-122, 312-315: rows (columns) whose windows touch the padding *)
Definition pad_lines (pad s : Z) : Z := if pad =? 0 then 0 else Z.quot (pad - 1) s + 1.

(** 143-258 ([s] = 1), 325-389 ([s] = 2): one plane *)
Definition plane3x3 (s : Z) (x k : Z -> sres R) (h w oh ow : Z) (win : window) (pv : R) : sres (list (event R)) :=
  if negb (kernel_loads k) then SUndef else
  let h_start := pad_lines (top win) s in
  let h_end := oh - pad_lines (bottom win) s in
  let w_start := pad_lines (left_ win) s in
  let w_end := ow - pad_lines (right_ win) s in
  let inner := depthwise_inner x k h w s ow win pv in
  let quad := lanes x k w s ow win in
  let cols := steps w_start (w_end - 3) 4 in
  let w_rest := w_start + 4 * Z.of_nat (length cols) in
  let whole r := map (inner r) (range 0 ow) in
  if s =? 1 then
    let rows := steps h_start (h_end - 1) 2 in
    SOk (flat_map whole (range 0 h_start) ++
         flat_map (fun r =>
           flat_map (fun c => [inner r c; inner (r + 1) c]) (range 0 w_start) ++
           flat_map (fun c => quad r c ++ quad (r + 1) c) cols ++
           flat_map (fun c => [inner r c; inner (r + 1) c]) (range w_rest ow)) rows ++
         flat_map whole (range (h_start + 2 * Z.of_nat (length rows)) oh))
  else
    let rows := range h_start h_end in
    SOk (flat_map whole (range 0 h_start) ++
         flat_map (fun r => map (inner r) (range 0 w_start) ++ flat_map (quad r) cols ++ map (inner r) (range w_rest ow)) rows ++
         flat_map whole (range (h_start + Z.of_nat (length rows)) oh)).

(** 44-84: one plane *)
Definition plane_general (x k : Z -> sres R) (h w kh kw oh ow : Z) (win : window) (pv : R) : list (event R) :=
  map (fun kc => (fst kc,
    match snd kc with
    | [r; c] =>
        sum_terms rO (map (fun pq => 
          match pq with
          | [p; q] =>
              let h_in := - top win + r * stride_h win + p * dil_h win in
              let w_in := - left_ win + c * stride_w win + q * dil_w win in
              lift2 rmul (k (p * kw + q))
                (if (0 <=? h_in) && (h_in <? h) && (0 <=? w_in) && (w_in <? w) then x (h_in * w + w_in) else SOk pv)
          | _ => SUndef
          end) (loops [kh; kw]))
    | _ => SUndef
    end)) (counted (loops [oh; ow])).

(** depthwise_conv2d_core.cpp 25-36 *)
Definition depthwise_plane (is_float : bool) (x k : Z -> sres R) (h w kh kw oh ow : Z) (win : window) (pv : R) : sres (list (event R)) :=
  if negb is_float then SOk (plane_general x k h w kh kw oh ow win pv) else
  if (kh =? 3) && (kw =? 3) && (stride_h win =? 1) && (stride_w win =? 1) && (dil_h win =? 1) && (dil_w win =? 1) then plane3x3 1 x k h w oh ow win pv else
  if (kh =? 3) && (kw =? 3) && (stride_h win =? 2) && (stride_w win =? 2) && (dil_h win =? 1) && (dil_w win =? 1) then plane3x3 2 x k h w oh ow win pv else
  SOk (plane_general x k h w kh kw oh ow win pv).

(** the planes one after the other *)
Definition depthwise_run (is_float : bool) (x k : Z -> sres R) (n c h w kh kw oh ow : Z) (win : window) (pv : R) : sres (list (event R)) :=
  bind (each (map (fun nc =>
    match nc with
    | [b; ch] =>
        let plane := b * c + ch in
        lift1 (shift (plane * (oh * ow)))
          (depthwise_plane is_float (fun i => x (plane * (h * w) + i)) (fun i => k (ch * (kh * kw) + i)) h w kh kw oh ow win pv)
    | _ => SUndef
    end) (loops [n; c]))) (fun trs => SOk (concat trs)).

(** base_conv2d.cpp 121-205, base_depthwise_conv2d.cpp 11-27,
    depthwise_conv2d_core.cpp 38-58 *)
Definition depthwise_conv2d (nchw : bool) (padding stride dilation : list Z) (padding_value : R) (kernel_packed : bool)
    (x w : tensor R) (slack : list R) : sres (raw_tensor R) :=
  match conv_init nchw padding stride dilation with
  | None => SErr
  | Some win =>
      match t_shape x, t_shape w with
      | [n; x1; x2; x3], [w0; w1; w2; w3] =>
          if negb (t_dtype x =? t_dtype w) then SErr else
          if negb (w1 =? x1) then SErr else
          bind (if nchw then forward win x2 x3 w2 w3 else forward win x1 x2 w1 w2) (fun o =>
          let (oh, ow) := o in
          if negb (w0 =? 1) then SErr else
          if (oh <? 0) || (ow <? 0) then SUndef else
          if negb nchw then SErr else
          if negb ((t_dtype x =? 10) || (t_dtype x =? 11)) then SErr else
          if kernel_packed then SErr else
          bind (depthwise_run (t_dtype x =? 10) (load (t_data x)) (load (t_data w ++ slack)) n x1 x2 x3 w2 w3 oh ow win padding_value) (fun stores =>
          bind (exec (fresh (n * x1 * oh * ow)) stores) (fun m =>
          SOk (Tn (t_dtype x) [n; x1; oh; ow] m))))
      | _, _ => SErr
      end
  end.
End Depthwise.
