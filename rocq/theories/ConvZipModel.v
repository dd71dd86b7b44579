(** Model of the compiler's rule that replaces a convolution by one with Winograd's
    method: Conv2dZipperOption::zip, src/compiler/option/winograd_zipper_option.cpp
    16-94, with KernelCommonFunc::winograd_check, src/kernels/common/function.cpp
    80-96; how nodes are walked and linked is in TransModel (C31).

    A node's attributes are those the rule and the operators read.  A missing
    attribute that is got is an exception ([SErr]); reading behind the end of a
    tensor or a shape is [SUndef].  Simplifications: int attributes are already cast;
    the format is NCHW or not; the inputs keep their order and are not modelled but
    for the constant weights. *)
From Coq Require Import List ZArith Bool.
From Verif Require Import ShapeModel KernelBase EltwiseModel GemmModel ConvModel WinogradModel.
Import ListNotations.
Local Open Scope Z_scope.

Inductive layer := Conv2d | Conv2dV2 | OtherLayer.
Record conv_node (R : Type) := ConvNode {
  layer_of : layer;
  nchw_of : bool;
  padding_of : option (list Z); (* [None]: the attribute is not set *)
  padding_value_of : option R;
  stride_of : option (list Z);
  dilation_of : option (list Z);
  dialations_of : option (list Z); (* name::typo::dialations *)
  packed_of : option bool;
  inputs_of : nat; (* how many *)
  weights_of : option (tensor R); (* the value of the node that gives them; [None] if it has none *)
}.
Arguments ConvNode {R}. Arguments layer_of {R}. Arguments nchw_of {R}. Arguments padding_of {R}. Arguments padding_value_of {R}.
Arguments stride_of {R}. Arguments dilation_of {R}. Arguments dialations_of {R}. Arguments packed_of {R}. Arguments inputs_of {R}. Arguments weights_of {R}.

(** the new node: conv2d_winograd, or its version whose padding is an input *)
Record wino_node (R : Type) := WinoNode { w_padding : option (list Z); w_nchw : bool; w_padding_value : option R }.
Arguments WinoNode {R}. Arguments w_padding {R}. Arguments w_nchw {R}. Arguments w_padding_value {R}.

Section Zip.
Context {R : Type}.

Definition got {A} (a : option A) : sres A := match a with Some v => SOk v | None => SErr end.
Definition four_of (l : list Z) : sres unit := if (4 <=? Z.of_nat (length l)) then SOk tt else SUndef.

(** function.cpp 80-96 *)
Definition winograd_check (kernel : list Z) (sh sw dh dw : Z) : sres bool :=
  match kernel with
  | outs :: ins :: kh :: kw :: _ =>
      SOk ((kh =? 3) && (kw =? 3) && (sw =? 1) && (sh =? 1) && (dh =? 1) && (dw =? 1) && ((32 <=? ins) && (32 <=? outs)))
  | _ => SUndef
  end.

(** 16-94; [SOk None]: the node stays *)
Definition conv_zip (cpu : bool) (nd : conv_node R) : sres (option (wino_node R)) :=
  if negb cpu then SOk None else
  match layer_of nd with
  | OtherLayer => SOk None
  | l =>
      if negb (nchw_of nd) then SOk None else
      bind (got (stride_of nd)) (fun stride =>
      bind (match dilation_of nd with Some d => bind (four_of d) (fun _ => SOk d) | None => SOk [0; 0; 0; 0] end) (fun dilation =>
      bind (four_of stride) (fun _ =>
      let v2 := match l with Conv2dV2 => true | _ => false end in
      if negb (Nat.eqb (inputs_of nd) (if v2 then 3 else 2)) then SErr else
      bind (got (weights_of nd)) (fun w =>
      bind (if v2 then SOk None else bind (got (padding_of nd)) (fun p => SOk (Some p))) (fun padding =>
      bind (winograd_check (t_shape w) (nth 2 stride 0) (nth 3 stride 0) (nth 2 dilation 0) (nth 3 dilation 0)) (fun ok =>
      SOk (if ok then Some (WinoNode padding (nchw_of nd) (padding_value_of nd)) else None)))))))
  end.
End Zip.

Section Run.
Context {R : Type} (rO rI : R) (radd rmul rsub rdiv : R -> R -> R) (ropp : R -> R).
Variable near : R -> R -> bool.

(** base_conv2d.cpp 17-60: the fields' defaults, then conv2d *)
Definition run_node (nd : conv_node R) (x w : tensor R) : sres (raw_tensor R) :=
  bind (got (padding_of nd)) (fun padding =>
  bind (got (stride_of nd)) (fun stride =>
  bind (got (match dilation_of nd with Some d => Some d | None => dialations_of nd end)) (fun dilation =>
  conv2d rO rI radd rmul near (nchw_of nd) padding stride dilation
    (match padding_value_of nd with Some v => v | None => rO end) (match packed_of nd with Some b => b | None => false end) x w))).
(** base_conv2d_winograd.cpp 15-20: the fields' defaults; a new operator that has
    run on [earlier] *)
Definition run_zipped (z : wino_node R) (earlier : list (tensor R * tensor R)) (x w : tensor R) : sres (raw_tensor R) :=
  bind (got (w_padding z)) (fun padding =>
  let pv := match w_padding_value z with Some v => v | None => rO end in
  snd (wino_run rO rI radd rmul rsub rdiv ropp near (w_nchw z) padding pv
    (wino_runs rO rI radd rmul rsub rdiv ropp near (w_nchw z) padding pv (false, None) earlier) x w)).
End Run.
