(** Model of the operators that resample by a factor: sample2d
    (src/kernels/cpu/sample2d.cpp 16-128) and sample2d_v2
    (src/kernels/cpu/sample2d_v2.cpp 15-92), which hand the work to
    affine_sample2d (AffineModel) and resize2d (ResizeModel).

    Simplifications: those of AffineModel and ResizeModel; the factors are the
    rationals the floats denote and a float operation is the exact one followed
    by [rnd]; the threshold 1e-5 (sample2d.cpp 54) is the number 1/100000. *)
From Coq Require Import List ZArith QArith Qround Bool.
From Verif Require Import ShapeModel KernelBase LoopModel TileModel ResizeModel AffineModel.
Import ListNotations.
Local Open Scope Z_scope.

Section Sample.
Context {A : Type}.
Variable to_q : A -> Q.
Variable cast : Q -> A.
Variable rnd : Q -> Q.

(** int32_t(std::floor(n * scale)): sample2d.cpp 119-120, sample2d_v2.cpp 67 *)
Definition scaled (n : Z) (s : Q) : sres Z :=
  let v := Qfloor (rnd (rnd (inject_Z n) * s)%Q) in
  if (v <? - 2 ^ 31) || (2 ^ 31 <=? v) then SUndef else SOk v.
(** sample2d_v2.cpp 66-68 *)
Fixpoint scaled_all (shape : list Z) (scale : list Q) : sres (list Z) :=
  match shape, scale with
  | [], [] => SOk []
  | n :: shape', s :: scale' => bind2 (scaled n s) (fun v => bind2 (scaled_all shape' scale') (fun l => SOk (v :: l)))
  | _, _ => SErr (* 58-62: found before any size is computed *)
  end.
(** 57-62 *)
Definition size_of (shape : list Z) (scale : list Q) : sres (list Z) :=
  if negb (Nat.eqb (length shape) (length scale)) then SErr else scaled_all shape scale.
(** sample2d_v2.cpp 83-90; [type] is HARD (3) unless given (33) *)
Definition sample2d_v2 (type : Z) (scale : list Q) (x : tensor A) : sres (raw_tensor A) :=
  bind2 (size_of (t_shape x) scale) (fun size => resize2d to_q cast type size x).
(** 73-80, base_resize2d.cpp 103-112: the dtype and the shape announced *)
Definition sample2d_v2_infer (scale : list Q) (x : tensor A) : sres (Z * list Z) :=
  bind2 (size_of (t_shape x) scale) (fun size =>
  bind2 (check_outputs (t_shape x) size) (fun p => SOk (t_dtype x, snd p))).

(** sample2d.cpp 49-79 (init), 103-127 (run); [zero] is the outer value 0, type
    is NEAREST (2) and dim -2 unless given (42-43) *)
Definition sample2d (zero : A) (type dim : Z) (scale : Q) (x : tensor A) : sres (raw_tensor A) :=
  if Qltb scale (1 # 100000) then SErr else
  if negb ((0 <=? type) && (type <=? 3)) then SErr else
  let n := Z.of_nat (length (t_shape x)) in
  let fixed := if dim <? 0 then n + dim else dim in
  if (fixed <? 0) || (n - 1 <=? fixed) then SErr else
  let i := Z.to_nat fixed in
  bind2 (scaled (nth i (t_shape x) 0) scale) (fun sh =>
  bind2 (scaled (nth (S i) (t_shape x) 0) scale) (fun sw =>
  let r := rnd (1 / scale)%Q in
  affine_sample2d to_q cast type dim (Some zero) [sh; sw] (Tn 10 [3; 3] [r; 0; 0; 0; r; 0; 0; 0; 1]%Q) x)).
(** 81-101: int(n * scale) *)
Definition sample2d_infer (dim : Z) (scale : Q) (x : tensor A) : sres (Z * list Z) :=
  let n := Z.of_nat (length (t_shape x)) in
  let fixed := if dim <? 0 then n + dim else dim in
  if (fixed <? 0) || (n - 1 <=? fixed) then SErr else
  let i := Z.to_nat fixed in
  let cut (k : Z) := let v := truncate (rnd (rnd (inject_Z k) * scale)%Q) in if (v <? - 2 ^ 31) || (2 ^ 31 <=? v) then SUndef else SOk v in
  bind2 (cut (nth i (t_shape x) 0)) (fun sh =>
  bind2 (cut (nth (S i) (t_shape x) 0)) (fun sw =>
  SOk (t_dtype x, set_nth (S i) sw (set_nth i sh (t_shape x))))).
End Sample.
