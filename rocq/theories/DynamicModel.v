(** Model of the CPU operator depthwise_conv2d_v2, whose padding is an input:
    src/kernels/cpu/depthwise_conv2d_v2.cpp 14-95 (conv2d_v2 and pooling2d_v2 are
    in InputParamModel).

    It holds a depthwise_conv2d whose fields survive from one call to the next; its
    init (inherited, src/backend/base/base_conv2d.cpp 39-118) assigns fields before
    it checks them.  The computation is that of DepthwiseModel on the fields.

    Simplifications: the inputs are given already cast to int; the fields that no
    input changes (format, padding value) are arguments; infer and
    run treat the fields in the same way, so a history is the parameters of the
    calls of both; the format of the refusals is not modelled. *)
From Coq Require Import List ZArith Bool.
From Verif Require Import ShapeModel KernelBase EltwiseModel GemmModel ConvModel DepthwiseModel.
Import ListNotations.
Local Open Scope Z_scope.

Definition shape_is (t : tensor Z) (s : list Z) : bool := if list_eq_dec Z.eq_dec (t_shape t) s then true else false.

(** is_int_equal, depthwise_conv2d_v2.cpp 50-57.  An empty tensor has the shape of a scalar
    but no element *)
Definition int_equal (new : tensor Z) (old : option (tensor Z)) : sres bool :=
  match old with
  | None => if shape_is new [] then SUndef else SOk false
  | Some o => SOk (shape_is new (t_shape o) && (if list_eq_dec Z.eq_dec (t_data new) (t_data o) then true else false))
  end.
(** all the parameters are what they were *)
Fixpoint unchanged (new : list (tensor Z)) (old : list (option (tensor Z))) : sres bool :=
  match new, old with
  | n :: ns, o :: os =>
      match int_equal n o, unchanged ns os with SOk a, SOk b => SOk (a && b) | SUndef, _ | _, SUndef => SUndef | _, _ => SErr end
  | [], [] => SOk true
  | _, _ => SErr
  end.

Section Dynamic.
Context {I X Y : Type} (init : list (tensor Z) -> I -> I * bool) (run : I -> X -> sres Y).

(** the parameters of the last call that set them, the fields of the core *)
Definition state : Type := list (option (tensor Z)) * I.

(** 62-68: bring the core up to date; [false]: its init has thrown *)
Definition update (st : state) (ps : list (tensor Z)) : sres (state * bool) :=
  match unchanged ps (fst st) with
  | SOk true => SOk (st, true)
  | SOk false => let (i, ok) := init ps (snd st) in SOk ((map Some ps, i), ok)
  | SErr => SErr
  | SUndef => SUndef
  end.
(** 76-90 *)
Definition call (st : state) (ps : list (tensor Z)) (x : X) : sres Y :=
  match update st ps with
  | SOk (st', ok) => if ok then run (snd st') x else SErr
  | SErr => SErr
  | SUndef => SUndef
  end.
(** the state after calls with these parameters; [None]: one of them was undefined *)
Fixpoint after (st : state) (h : list (list (tensor Z))) : option state :=
  match h with
  | [] => Some st
  | ps :: rest => match update st ps with SOk (st', _) => after st' rest | SErr => after st rest | SUndef => None end
  end.
End Dynamic.

(** ** The convolution *)
(** m_padding4x2, m_stride4 and m_dilation4, once assigned *)
Definition conv_fields : Type := option (list Z * list Z * list Z).
(** base_conv2d.cpp 62-118 *)
Definition conv_reinit (nchw : bool) (stride dilation : tensor Z) (ps : list (tensor Z)) (f : conv_fields) : conv_fields * bool :=
  match ps with
  | [padding] =>
      if negb (shape_is padding [4; 2] && shape_is stride [4] && shape_is dilation [4]) then (f, false) else
      (Some (t_data padding, t_data stride, t_data dilation),
       match conv_init nchw (t_data padding) (t_data stride) (t_data dilation) with Some _ => true | None => false end)
  | _ => (f, false)
  end.
(** 143-153: what run reads of the fields *)
Definition conv_window (nchw : bool) (f : conv_fields) : sres window :=
  match f with
  | None => SUndef
  | Some (padding, stride, dilation) =>
      let p i := nth i padding 0 in let s i := nth i stride 0 in let d i := nth i dilation 0 in
      SOk (if nchw then Window (p 4%nat) (p 5%nat) (p 6%nat) (p 7%nat) (s 2%nat) (s 3%nat) (d 2%nat) (d 3%nat)
           else Window (p 2%nat) (p 3%nat) (p 4%nat) (p 5%nat) (s 1%nat) (s 2%nat) (d 1%nat) (d 2%nat))
  end.

Section Conv.
Context {R : Type} (rO : R) (radd rmul : R -> R -> R).

(** depthwise_conv2d's run (DepthwiseModel.depthwise_conv2d) on the fields; [slack]
    is the memory behind the weights *)
Definition depthwise_core (nchw : bool) (pv : R) (packed : bool) (slack : list R) (f : conv_fields) (xw : tensor R * tensor R) : sres (raw_tensor R) :=
  let (x, w) := xw in
  match t_shape x, t_shape w with
  | [n; x1; x2; x3], [w0; w1; w2; w3] =>
      if negb (t_dtype x =? t_dtype w) then SErr else
      if negb (w1 =? x1) then SErr else
      bind (conv_window nchw f) (fun win =>
      bind (if nchw then forward win x2 x3 w2 w3 else forward win x1 x2 w1 w2) (fun o =>
      let (oh, ow) := o in
      if negb (w0 =? 1) then SErr else
      if (oh <? 0) || (ow <? 0) then SUndef else
      if negb nchw then SErr else
      if negb ((t_dtype x =? 10) || (t_dtype x =? 11)) then SErr else
      if packed then SErr else
      bind (depthwise_run rO radd rmul (t_dtype x =? 10) (load (t_data x)) (load (t_data w ++ slack)) n x1 x2 x3 w2 w3 oh ow win pv) (fun stores =>
      bind (exec (fresh (n * x1 * oh * ow)) stores) (fun m =>
      SOk (Tn (t_dtype x) [n; x1; oh; ow] m)))))
  | _, _ => SErr
  end.
Definition depthwise_conv2d_v2 (nchw : bool) (stride dilation : tensor Z) (pv : R) (packed : bool) (slack : list R) :=
  call (conv_reinit nchw stride dilation) (depthwise_core nchw pv packed slack).
End Conv.

(** a core nothing has been set in *)
Definition new_conv : state (I := conv_fields) := ([None], None).
