(** What a transposed convolution is. *)
From Coq Require Import List ZArith Bool.
From Verif Require Import KernelBase KernelSpec GemmSpec ConvSpec.
Import ListNotations.
Local Open Scope Z_scope.

Section Deconv.
Context {R : Type} (rO : R) (radd rmul : R -> R -> R).

(** element (a, b) of channel [c] of image [n]: input element (i, j), through
    place (p, q) of the kernel, goes to place (i * stride + p * dil - top,
    j * stride + q * dil - left) *)
Definition transposed_convolution (x w : tensor R) (ins h wd kh kw : Z)
    (top left stride_h stride_w dil_h dil_w : Z) (n c a b : Z) : R :=
  sum_of rO radd kh (fun p =>
  sum_of rO radd kw (fun q =>
  sum_of rO radd h (fun i =>
  sum_of rO radd wd (fun j =>
    if (i * stride_h + p * dil_h - top =? a) && (j * stride_w + q * dil_w - left =? b)
    then sum_of rO radd ins (fun o => rmul (value rO w [o; c; p; q]) (value rO x [n; o; i; j]))
    else rO)))).

(** the scalar product of two tensors of shape [[n; c; h; w]] *)
Definition dot (f g : Z -> Z -> Z -> Z -> R) (n c h w : Z) : R :=
  sum_of rO radd n (fun b => sum_of rO radd c (fun k => sum_of rO radd h (fun i => sum_of rO radd w (fun j =>
    rmul (f b k i j) (g b k i j))))).
End Deconv.
