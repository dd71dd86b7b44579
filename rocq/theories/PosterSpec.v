(** What yolo_poster should report for one image. *)
From Coq Require Import List ZArith QArith Qminmax Bool Permutation.
From Verif Require Import ShapeSpec KernelBase KernelSpec NmsSpec YoloModel PosterModel.
Import ListNotations.
Local Open Scope Z_scope.

(** What the standard library promises of std::sort, for the order "greater
    key first". *)
Definition sorts (sort : (Z -> Z -> bool) -> list Z -> list Z) : Prop :=
  forall (key : Z -> Q) l, let s := sort (fun a b => negb (Qle_bool (key a) (key b))) l in
    Permutation s l /\ forall u a v b w, s = u ++ a :: v ++ b :: w -> (key b <= key a)%Q.

(** a layer that fits: as many channels as its anchors need, the anchors its
    mask names exist and are sizes, and it has this image *)
Record fits_layer (classes b : Z) (l : layer) : Prop := {
  fl_wf : wf (p_out l);
  fl_classes : p_classes l = classes;
  fl_shape : exists batch h w, t_shape (p_out l) = [batch; Z.of_nat (length (p_mask l)) * (5 + classes); h; w] /\ b < batch;
  fl_mask : Forall (fun m => 0 <= m /\ 2 * m + 1 < Z.of_nat (length (p_anchors l))) (p_mask l);
  fl_anchors : Forall (fun a => 0 <= a)%Q (p_anchors l) }.

Definition height (l : layer) : Z := nth 2 (t_shape (p_out l)) 0.
Definition width (l : layer) : Z := nth 3 (t_shape (p_out l)) 0.

(** one place an object can be at: layer, row, column, anchor *)
Definition place : Type := layer * (Z * Z * Z).

(** entry [e] of a place: 0-3 are the box, 4 is objectness, then the classes *)
Definition number (b : Z) (o : place) (e : Z) : Q :=
  let '(l, (r, c, a)) := o in
  match elt (p_out l) [b; a * (5 + p_classes l) + e; r; c] with Some v => v | None => 0%Q end.

(** the [k]-th number of the anchor the place uses *)
Definition anchor (o : place) (k : Z) : Q :=
  let '(l, (r, c, a)) := o in nth (Z.to_nat (2 * nth (Z.to_nat a) (p_mask l) 0 + k)) (p_anchors l) 0%Q.

(** the objects of image [b], by layer, row, column and anchor *)
Definition places_of (l : layer) : list place :=
  flat_map (fun r => flat_map (fun c => map (fun a => (l, (r, c, a))) (upto (Z.of_nat (length (p_mask l))))) (upto (width l))) (upto (height l)).
Definition objects (thresh : Q) (b : Z) (layers : list layer) : list place :=
  filter (fun o => negb (Qle_bool (number b o 4) thresh)) (flat_map places_of layers).

Definition clip (v : Q) : Q := Qmax 0 (Qmin 1 v).

Section Spec.
Variable expq : Q -> Q.
Variables (netw neth : Z).

(** the box of a place, clipped to the unit square *)
Definition box_rect (b : Z) (o : place) : rect :=
  let '(l, (r, c, a)) := o in
  let cx := ((inject_Z c + number b o 0) / inject_Z (width l))%Q in
  let cy := ((inject_Z r + number b o 1) / inject_Z (height l))%Q in
  let w := (expq (number b o 2) * anchor o 0 / inject_Z netw)%Q in
  let h := (expq (number b o 3) * anchor o 1 / inject_Z neth)%Q in
  Rect (clip (cy - h / 2)) (clip (cx - w / 2)) (clip (cy + h / 2)) (clip (cx + w / 2)).

Definition score (b : Z) (o : place) (k : Z) : Q := (number b o 4 * number b o (5 + k))%Q.

(** two rectangles share more than this part of their union *)
Definition share_more (threshold : Q) (r s : rect) : Prop :=
  (0 < area r + area s - intersection r s /\ threshold < iou r s)%Q.

(** a row of the report: left, top, width, height, score, class *)
Definition row_says (b : Z) (row : list Q) (o : place) (k : Z) : Prop :=
  exists x y w h s, row = [x; y; w; h; s; inject_Z k] /\
    (x == x0 (box_rect b o) /\ y == y0 (box_rect b o) /\ x + w == x1 (box_rect b o) /\ y + h == y1 (box_rect b o) /\ s == score b o k)%Q.

(** the report of image [b] *)
Record reported (thresh nms_thresh : Q) (classes b : Z) (layers : list layer) (rows : list (list Q)) (kept : nat -> Z -> bool) : Prop := {
  (* the kept objects and their classes, in order *)
  r_rows : Forall2 (fun row ik => exists o, nth_error (objects thresh b layers) (fst ik) = Some o /\ row_says b row o (snd ik))
             rows (filter (fun ik => kept (fst ik) (snd ik)) (list_prod (seq 0 (length (objects thresh b layers))) (upto classes)));
  r_good : forall i k o, 0 <= k < classes -> nth_error (objects thresh b layers) i = Some o -> kept i k = true -> (thresh < score b o k)%Q;
  (* of one class no two overlap too much *)
  r_apart : forall i j k o o', 0 <= k < classes -> i <> j -> nth_error (objects thresh b layers) i = Some o -> nth_error (objects thresh b layers) j = Some o' ->
    kept i k = true -> kept j k = true -> ~ share_more nms_thresh (box_rect b o) (box_rect b o');
  (* what is missing overlaps something kept that is no worse *)
  r_complete : forall i k o, 0 <= k < classes -> nth_error (objects thresh b layers) i = Some o -> (thresh < score b o k)%Q -> kept i k = false ->
    exists j o', nth_error (objects thresh b layers) j = Some o' /\ kept j k = true /\ (score b o k <= score b o' k)%Q /\
      share_more nms_thresh (box_rect b o') (box_rect b o) }.
End Spec.
