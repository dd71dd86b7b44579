(** Space to batch and batch to space, as TensorFlow defines them (channels
    first). *)
From Coq Require Import List ZArith.
From Verif Require Import ShapeSpec KernelBase KernelSpec.
Import ListNotations.
Local Open Scope Z_scope.

(** [y] holds the space of [x], padded by (top, bottom) and (left, right)
    with zeros, cut into blocks of [bh] by [bw]: image [(dh * bw + dw) * N + n]
    of [y] shows the pixels of image [n] at offset [(dh, dw)] of every block. *)
Definition batched {A} (zero : A) (pt pb pl pr bh bw : Z) (x y : tensor A) : Prop :=
  exists N C H W oH oW, t_shape x = [N; C; H; W] /\ H + pt + pb = oH * bh /\ W + pl + pr = oW * bw /\
    t_dtype y = t_dtype x /\ t_shape y = [bh * bw * N; C; oH; oW] /\
    forall dh dw n c i j, 0 <= dh < bh -> 0 <= dw < bw -> 0 <= n < N -> 0 <= c < C -> 0 <= i < oH -> 0 <= j < oW ->
      let source := [n; c; i * bh + dh - pt; j * bw + dw - pl] in
      let pixel := elt y [(dh * bw + dw) * N + n; c; i; j] in
      (inside (t_shape x) source -> pixel = elt x source) /\
      (~ inside (t_shape x) source -> pixel = Some zero).

(** [y] is [x] put back into space and cropped. *)
Definition spaced {A} (ct cb cl cr bh bw : Z) (x y : tensor A) : Prop :=
  exists N C H W, t_shape x = [bh * bw * N; C; H; W] /\
    t_dtype y = t_dtype x /\ t_shape y = [N; C; H * bh - ct - cb; W * bw - cl - cr] /\
    forall dh dw n c i j, 0 <= dh < bh -> 0 <= dw < bw ->
      inside (t_shape y) [n; c; i * bh + dh - ct; j * bw + dw - cl] ->
      elt y [n; c; i * bh + dh - ct; j * bw + dw - cl] = elt x [(dh * bw + dw) * N + n; c; i; j].
