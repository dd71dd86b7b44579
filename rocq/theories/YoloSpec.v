(** What the yolo operator should compute. *)
From Coq Require Import List ZArith Bool.
From Verif Require Import ShapeSpec KernelBase KernelSpec YoloModel.
Import ListNotations.
Local Open Scope Z_scope.

(** Every anchor of an image has 4 channels for the box (x, y, width, height),
    one for objectness and one for each class.  All are squashed but the
    width and the height. *)
Definition squashed {V} (f : V -> V) (classes anchors : Z) (x y : tensor V) : Prop :=
  t_dtype y = t_dtype x /\ t_shape y = t_shape x /\ wf y /\
  forall batch channels h w, t_shape x = [batch; channels; h; w] ->
  forall b n e r c, 0 <= b < batch -> 0 <= n < anchors -> 0 <= e < 5 + classes -> 0 <= r < h -> 0 <= c < w ->
    let at_ := [b; n * (5 + classes) + e; r; c] in
    exists v, elt x at_ = Some v /\ elt y at_ = Some (if (e =? 2) || (e =? 3) then v else f v).

Definition unsigned (dtype : Z) : Prop := In dtype [2; 4; 6; 8].
