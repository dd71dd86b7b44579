(** What a convolution is. *)
From Coq Require Import List ZArith Bool.
From Verif Require Import KernelBase KernelSpec GemmSpec.
Import ListNotations.
Local Open Scope Z_scope.

(** the element at a coordinate ([dflt] outside the tensor) *)
Definition value {R} (dflt : R) (t : tensor R) (c : list Z) : R :=
  match elt t c with Some v => v | None => dflt end.

(** an [h x w] image continued by a constant *)
Definition padded {R} (pv : R) (h w : Z) (image : Z -> Z -> R) (i j : Z) : R :=
  if (0 <=? i) && (i <? h) && (0 <=? j) && (j <? w) then image i j else pv.

Section Conv.
Context {R : Type} (rO : R) (radd rmul : R -> R -> R).

(** output element (i, j) of channel [o] of image [n]: the weights of [o]
    times the window of the padded image whose corner is at
    (i * stride, j * stride) *)
Definition convolution (x w : tensor R) (channels h wd kh kw : Z) (pv : R)
    (top left stride_h stride_w dil_h dil_w : Z) (n o i j : Z) : R :=
  sum_of rO radd channels (fun c =>
  sum_of rO radd kh (fun p =>
  sum_of rO radd kw (fun q =>
    rmul (value rO w [o; c; p; q])
         (padded pv h wd (fun a b => value rO x [n; c; a; b])
            (i * stride_h + p * dil_h - top) (j * stride_w + q * dil_w - left))))).
End Conv.
