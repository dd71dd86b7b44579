(** Model of the CPU quantize operator (src/kernels/cpu/quantize.cpp,
    src/backend/base/base_quantize.cpp), built for SSE or AVX.  The elements
    are finite floats, represented by their rational values; [mul] is the
    product of two of them with whatever rounding it has. *)
From Coq Require Import List ZArith Bool QArith Qround.
From Verif Require Import ShapeModel KernelBase ResizeModel ZooModel.
Import ListNotations.
Local Open Scope Z_scope.

(** round(): halves away from zero *)
Definition round_away (q : Q) : Z := if Qle_bool 0 q then Qfloor (q + (1 # 2)) else - Qfloor (- q + (1 # 2)).
(** _mm_cvtps_epi32 / _mm256_cvtps_epi32 in the default rounding mode: halves
    to even, and INT_MIN for what does not fit (simd_sse_def.h 310-315,
    simd_avx_def.h 273-275) *)
Definition round_even (q : Q) : Z := div_even (Qnum q) (Zpos (Qden q)).
Definition int_min : Z := - 2147483648.
Definition fits (z : Z) : bool := (int_min <=? z) && (z <=? 2147483647).
Definition cvtps (q : Q) : Z := let z := round_even q in if fits z then z else int_min.
(** quantize.cpp 16-20 *)
Definition saturate (z : Z) : Z := if 127 <? z then 127 else if z <? -128 then -128 else z.
(** 22-36: the conversion of an out-of-range float to int32_t is undefined *)
Definition to_int8 (q : Q) : sres Z := let z := round_away q in if fits z then SOk (saturate z) else SUndef.

Section Quantize.
Variable mul : Q -> Q -> Q.

Definition scalar (x : list Q) (scale : Q) (i : Z) : event Z :=
  (i, match load x i with SOk v => to_int8 (mul v scale) | SErr => SErr | SUndef => SUndef end).
(** 84-95 *)
Definition lane (x : list Q) (scale : Q) (i : Z) : event Z :=
  (i, match load x i with SOk v => SOk (saturate (cvtps (mul v scale))) | SErr => SErr | SUndef => SUndef end).

(** 78-109: eight at a time, the rest one by one *)
Definition one_scale_float (x : list Q) (scale : Q) (count : Z) : list (event Z) :=
  flat_map (fun i => map (fun l => lane x scale (i * 8 + l)) (upto 8)) (upto (count / 8)) ++
  map (fun k => scalar x scale (count / 8 * 8 + k)) (upto (count - count / 8 * 8)).

(** 53-65 and 111-122; [loop_count] elements for every scale, while there are any *)
Fixpoint groups (x : list Q) (scales : list Q) (index count loop_count : Z) : list (event Z) :=
  match scales with
  | [] => []
  | s :: rest =>
      let k := Z.min loop_count (count - index) in
      map (fun d => scalar x s (index + d)) (upto k) ++ groups x rest (index + k) count loop_count
  end.

(** int(std::ceil(static_cast<float>(count) / quantize_group)) *)
Definition loop_count (count g : Z) : Z := if count =? 0 then 0 else ceil (float_div (float_of count) (float_of g)).

(** Quantize::infer and run (base_quantize.cpp 24-54), Quantize::quantize (quantize.cpp 127-141) *)
Definition quantize (scales : list Q) (x : tensor Q) : sres (raw_tensor Z) :=
  match t_shape x with
  | [] => SUndef                                      (* sizes()[0] *)
  | d :: _ =>
      if negb (Z.of_nat (length scales) =? d) then SErr else
      if negb ((t_dtype x =? 10) || (t_dtype x =? 11)) then SErr else
      let count := prod (t_shape x) in
      let stores := match scales with
                    | [] => [(0, SUndef)]             (* int(ceil(0 / 0)) *)
                    | [s] => if t_dtype x =? 10 then one_scale_float (t_data x) s count else map (scalar (t_data x) s) (upto count)
                    | _ => groups (t_data x) scales 0 count (loop_count count d)
                    end in
      match exec (fresh count) stores with
      | SOk m => SOk (Tn 1 (t_shape x) m)
      | SErr => SErr
      | SUndef => SUndef
      end
  end.
End Quantize.
