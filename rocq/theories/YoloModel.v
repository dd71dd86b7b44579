(** Model of the CPU yolo operator (src/kernels/cpu/yolo.cpp).

    Elements are abstract.  [logistic y] is T(1. / (1. + std::exp(y))) and
    [opp] is the negation of a signed element.  Sizes and indices are
    unbounded integers. *)
From Coq Require Import List ZArith Bool.
From Verif Require Import ShapeModel KernelBase ResizeModel TileModel.
Import ListNotations.
Local Open Scope Z_scope.

(** yolo.cpp 82-86 and yolo_poster.cpp 59-63: divides by w * h *)
Definition entry_index (w h outputs classes batch location entry : Z) : sres Z :=
  if w * h =? 0 then SUndef
  else SOk (batch * outputs + Z.quot location (w * h) * w * h * (4 + classes + 1) + entry * w * h + Z.rem location (w * h)).

(** the fields of the output: out.pack({out, classes, mask, anchors}), 155 *)
Record packed (V A : Type) := Packed { p_out : tensor V; p_classes : Z; p_mask : list Z; p_anchors : list A }.
Arguments Packed {V A} _ _ _ _.
Arguments p_out {V A} _.
Arguments p_classes {V A} _.
Arguments p_mask {V A} _.
Arguments p_anchors {V A} _.

Section Yolo.
Context {V A : Type}.
Variable logistic : V -> V.
Variable opp : V -> V.

(** 13-19: neg leaves the elements of the unsigned types (UINT8, UINT16,
    UINT32, UINT64) as they are *)
Definition neg (dtype : Z) (v : V) : V :=
  if (dtype =? 2) || (dtype =? 4) || (dtype =? 6) || (dtype =? 8) then v else opp v.

(** 91 *)
Definition activate (dtype : Z) (v : V) : V := logistic (neg dtype v).

(** 89-93: in place *)
Fixpoint activate_at (dtype : Z) (ps : list Z) (m : list V) : sres (list V) :=
  match ps with
  | [] => SOk m
  | p :: ps' => bind2 (load m p) (fun v => activate_at dtype ps' (set_nth (Z.to_nat p) (activate dtype v) m))
  end.
Definition activate_array (dtype index n : Z) (m : list V) : sres (list V) :=
  activate_at dtype (map (fun i => index + i) (upto n)) m.

(** 100-105 *)
Definition activate_anchor (dtype w h outputs classes : Z) (bn : Z * Z) (m : list V) : sres (list V) :=
  let '(b, n) := bn in
  bind2 (entry_index w h outputs classes b (n * w * h) 0) (fun index =>
  bind2 (activate_array dtype index (2 * w * h) m) (fun m =>
  bind2 (entry_index w h outputs classes b (n * w * h) 4) (fun index =>
  activate_array dtype index ((1 + classes) * w * h) m))).

Fixpoint activate_anchors (dtype w h outputs classes : Z) (l : list (Z * Z)) (m : list V) : sres (list V) :=
  match l with
  | [] => SOk m
  | bn :: l' => bind2 (activate_anchor dtype w h outputs classes bn m) (activate_anchors dtype w h outputs classes l')
  end.

(** infer (50-71) and run (110-158); [classes], [mask] and [anchors] are the
    parameters after init (31-42); the copy of the input (122-124) is the
    starting content of the output *)
Definition yolo (classes : Z) (mask : list Z) (anchors : list A) (x : tensor V) : sres (packed V A) :=
  let n := Z.of_nat (length mask) in
  match t_shape x with
  | [batch; c; h; w] =>
      if negb (c =? n * (classes + 4 + 1)) then SErr else
      if negb (tile_supports (t_dtype x)) then SErr else
      bind2 (activate_anchors (t_dtype x) w h (c * h * w) classes (list_prod (upto batch) (upto n)) (t_data x)) (fun m =>
      SOk (Packed (Tn (t_dtype x) (t_shape x) m) classes mask anchors))
  | _ => SErr
  end.
End Yolo.
