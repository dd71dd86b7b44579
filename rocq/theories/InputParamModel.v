(** Model of the operators that take their parameters as inputs and keep an
    inner operator: Pooling2DV2 (src/kernels/cpu/pooling2d_v2.cpp 20-110) and
    Conv2DV2 (src/kernels/cpu/conv2d_v2.cpp 25-92).

    The object keeps the parameters it saw last (m_padding_int4x2, ...) and
    the members of the inner operator; it initialises the inner operator again
    when the parameters differ.  A refused initialisation is an exception, so
    the object stays as far as it had got.  Simplifications: the parameters
    are already int32 (tensor::cast); the stack is not modelled; the inner
    operators are the ones of PoolingModel and ConvModel. *)
From Coq Require Import List ZArith Bool.
From Verif Require Import ShapeModel KernelBase ConvModel PoolingModel.
Import ListNotations.
Local Open Scope Z_scope.

(** an int32 tensor: shape and contents *)
Definition itensor := (list Z * list Z)%type.

Fixpoint zlist_eqb (a b : list Z) : bool :=
  match a, b with
  | [], [] => true
  | x :: a, y :: b => (x =? y) && zlist_eqb a b
  | _, _ => false
  end.

(** is_int_equal: pooling2d_v2.cpp 43-50, conv2d_v2.cpp 51-58; before the first
    run the kept tensor is empty, with the shape of a scalar *)
Definition is_int_equal (lhs : itensor) (rhs : option itensor) : sres bool :=
  match rhs with
  | None => match fst lhs with [] => SUndef | _ => SOk false end
  | Some rhs => SOk (zlist_eqb (fst lhs) (fst rhs) && zlist_eqb (snd lhs) (snd rhs))
  end.

(** Tensor::has_shape *)
Definition has_shape (t : itensor) (s : list Z) : bool := zlist_eqb (fst t) s.

(** ** pooling2d_v2 *)

(** m_padding4x2, m_ksize4, m_stride4 of the inner operator *)
Record pool_members := PM { m_padding : list Z; m_ksize : list Z; m_stride : list Z }.
Record pool_v2 := PV2 { c_padding : option itensor; c_ksize : option itensor; c_stride : option itensor; inner : pool_members }.

(** base_pooling2d.cpp 36-95 as a change of the members: the shapes are
    checked before they are assigned, what they say after; the Boolean says
    that nothing was refused *)
Definition pool_reinit (nchw : bool) (padding ksize stride : itensor) (m : pool_members) : pool_members * bool :=
  if negb (has_shape padding [4; 2] && has_shape ksize [4] && has_shape stride [4]) then (m, false) else
  (PM (snd padding) (snd ksize) (snd stride),
   match pool_init nchw (snd padding) (snd ksize) (snd stride) with Some _ => true | None => false end).

(** the window the members describe (base_pooling2d.cpp 110-120, 152-162) *)
Definition members_window (nchw : bool) (m : pool_members) : pool_window :=
  let p i := nth i (m_padding m) 0 in let k i := nth i (m_ksize m) 0 in let s i := nth i (m_stride m) 0 in
  if nchw then PW (p 4%nat) (p 5%nat) (p 6%nat) (p 7%nat) (k 2%nat) (k 3%nat) (s 2%nat) (s 3%nat)
  else PW (p 2%nat) (p 3%nat) (p 4%nat) (p 5%nat) (k 1%nat) (k 2%nat) (s 1%nat) (s 2%nat).

Section Pool.
Context {T : Type} (ltb : T -> T -> bool) (zero : T) (add : T -> T -> T) (div : T -> Z -> T).
Variables (nchw : bool) (ty : pool_type) (pad : pad_type).

(** base_pooling2d.cpp 97-169 with given members; members that were never
    assigned are empty arrays *)
Definition pool_inner_run (m : pool_members) (x : tensor T) : sres (raw_tensor T) :=
  match m_padding m with
  | [] => SUndef
  | _ =>
    let win := members_window nchw m in
    match t_shape x with
    | [n; x1; x2; x3] =>
        let h := if nchw then x2 else x1 in let w := if nchw then x3 else x2 in
        bind (pool_size h (p_top win) (p_bottom win) (k_h win) (s_h win)) (fun oh =>
        bind (pool_size w (p_left win) (p_right win) (k_w win) (s_w win)) (fun ow =>
        if (oh <? 0) || (ow <? 0) then SUndef else
        pool_run ltb zero add div nchw ty pad win x oh ow))
    | _ => SErr
    end
  end.

(** pooling2d_v2.cpp 20-41 *)
Definition pool_v2_new : pool_v2 := PV2 None None None (PM [] [] []).

(** 81-110 *)
Definition pool_v2_run (st : pool_v2) (padding ksize stride : itensor) (x : tensor T) : pool_v2 * sres (raw_tensor T) :=
  match is_int_equal padding (c_padding st), is_int_equal ksize (c_ksize st), is_int_equal stride (c_stride st) with
  | SOk a, SOk b, SOk c =>
      let keep := PV2 (if a then c_padding st else Some padding) (if b then c_ksize st else Some ksize) (if c then c_stride st else Some stride) in
      if negb (a && b && c) then
        let (m, ok) := pool_reinit nchw padding ksize stride (inner st) in
        (keep m, if ok then pool_inner_run m x else SErr)
      else (keep (inner st), pool_inner_run (inner st) x)
  | _, _, _ => (st, SUndef)
  end.

(** a sequence of runs *)
Fixpoint pool_v2_history (st : pool_v2) (runs : list (itensor * itensor * itensor * tensor T)) : pool_v2 :=
  match runs with
  | [] => st
  | (padding, ksize, stride, x) :: runs => pool_v2_history (fst (pool_v2_run st padding ksize stride x)) runs
  end.
End Pool.

(** ** conv2d_v2: only the padding is an input *)
Record conv_members := CM { cm_padding : list Z; cm_stride : list Z; cm_dilation : list Z }.
Record conv_v2 := CV2 { cc_padding : option itensor; c_inner : conv_members }.

(** base_conv2d.cpp 39-118 *)
Definition conv_reinit (nchw : bool) (padding stride dilation : itensor) (m : conv_members) : conv_members * bool :=
  if negb (has_shape padding [4; 2] && has_shape stride [4] && has_shape dilation [4]) then (m, false) else
  (CM (snd padding) (snd stride) (snd dilation),
   match conv_init nchw (snd padding) (snd stride) (snd dilation) with Some _ => true | None => false end).

Definition conv_members_window (nchw : bool) (m : conv_members) : window :=
  let p i := nth i (cm_padding m) 0 in let s i := nth i (cm_stride m) 0 in let d i := nth i (cm_dilation m) 0 in
  if nchw then Window (p 4%nat) (p 5%nat) (p 6%nat) (p 7%nat) (s 2%nat) (s 3%nat) (d 2%nat) (d 3%nat)
  else Window (p 2%nat) (p 3%nat) (p 4%nat) (p 5%nat) (s 1%nat) (s 2%nat) (d 1%nat) (d 2%nat).

Section Conv.
Context {R : Type} (rO rI : R) (radd rmul : R -> R -> R).
Variable near : R -> R -> bool.
Variables (nchw : bool) (stride dilation : itensor) (pv : R) (packed : bool).

(** base_conv2d.cpp 121-205 with given members *)
Definition conv_inner_run (m : conv_members) (x w : tensor R) : sres (raw_tensor R) :=
  match cm_padding m with
  | [] => SUndef
  | _ =>
    let win := conv_members_window nchw m in
    match t_shape x, t_shape w with
    | [n; x1; x2; x3], [outs; w1; w2; w3] =>
        if negb (t_dtype x =? t_dtype w) then SErr else
        if negb (w1 =? x1) then SErr else
        bind (if nchw then forward win x2 x3 w2 w3 else forward win x1 x2 w1 w2) (fun o =>
        let (oh, ow) := o in
        if (oh <? 0) || (ow <? 0) then SUndef else
        if negb nchw then SErr else
        if negb ((t_dtype x =? 10) || (t_dtype x =? 11)) then SErr else
        bind (conv_run rO rI radd rmul near (t_dtype x =? 10) (t_data x) (t_data w) n x1 x2 x3 outs w2 w3 oh ow win pv packed) (fun stores =>
        bind (exec (fresh (n * outs * oh * ow)) stores) (fun m =>
        SOk (Tn (t_dtype x) [n; outs; oh; ow] m))))
    | _, _ => SErr
    end
  end.

Definition conv_v2_new : conv_v2 := CV2 None (CM [] [] []).

(** conv2d_v2.cpp 77-92 *)
Definition conv_v2_run (st : conv_v2) (padding : itensor) (x w : tensor R) : conv_v2 * sres (raw_tensor R) :=
  match is_int_equal padding (cc_padding st) with
  | SOk true => (st, conv_inner_run (c_inner st) x w)
  | SOk false =>
      let (m, ok) := conv_reinit nchw padding stride dilation (c_inner st) in
      (CV2 (Some padding) m, if ok then conv_inner_run m x w else SErr)
  | _ => (st, SUndef)
  end.

Fixpoint conv_v2_history (st : conv_v2) (runs : list (itensor * tensor R * tensor R)) : conv_v2 :=
  match runs with
  | [] => st
  | (padding, x, w) :: runs => conv_v2_history (fst (conv_v2_run st padding x w)) runs
  end.
End Conv.
