(** What a depthwise convolution is. *)
From Coq Require Import List ZArith Bool.
From Verif Require Import KernelBase KernelSpec GemmSpec ConvSpec.
Import ListNotations.
Local Open Scope Z_scope.

Section Depthwise.
Context {R : Type} (rO : R) (radd rmul : R -> R -> R).

(** output element (i, j) of channel [c] of image [n]: the weights of [c] times
    the window of channel [c] of the padded image *)
Definition depthwise (x w : tensor R) (h wd kh kw : Z) (pv : R)
    (top left stride_h stride_w dil_h dil_w : Z) (n c i j : Z) : R :=
  sum_of rO radd kh (fun p =>
  sum_of rO radd kw (fun q =>
    rmul (value rO w [0; c; p; q])
         (padded pv h wd (fun a b => value rO x [n; c; a; b])
            (i * stride_h + p * dil_h - top) (j * stride_w + q * dil_w - left)))).
End Depthwise.
