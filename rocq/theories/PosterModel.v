(** Model of the CPU yolo_poster operator (src/kernels/cpu/yolo_poster.cpp).

    Floats are the rational numbers they denote and arithmetic on them is
    exact; [expq] is exp.  Only the quotient of box_iou can be 0 / 0 here (the
    sizes of the layers and of the network input are not zero when it is
    reached), and a NaN is not greater than anything.  std::sort is a
    parameter.  prob[k] of detection i is a function of i and k. *)
From Coq Require Import List ZArith Bool QArith.
From Verif Require Import ShapeModel KernelBase ResizeModel YoloModel NmsModel.
Import ListNotations.
Local Open Scope Z_scope.

(** one input: what the yolo operator packed (cast to FLOAT32), 330-333, 345-348 *)
Definition layer := packed Q Q.

(** 121-127: centre and size *)
Record box := Box { bx : Q; by_ : Q; bw : Q; bh : Q }.
Record detection := Det { d_box : box; d_prob : list Q }.

Section Poster.
Variable expq : Q -> Q.
Variable sort : (Z -> Z -> bool) -> list Z -> list Z.
Variables (thresh nms_thresh : Q).

Fixpoint collect {X Y} (f : X -> sres (list Y)) (l : list X) : sres (list Y) :=
  match l with
  | [] => SOk []
  | x :: l' => bind2 (f x) (fun a => bind2 (collect f l') (fun b => SOk (a ++ b)))
  end.

(** 183-191 *)
Definition get_yolo_box (x : list Q) (base : Z) (biases : list Q) (n index i j lw lh w h stride : Z) : sres box :=
  bind2 (load x (base + (index + 0 * stride))) (fun x0 =>
  bind2 (load x (base + (index + 1 * stride))) (fun x1 =>
  bind2 (load x (base + (index + 2 * stride))) (fun x2 =>
  bind2 (load biases (2 * n)) (fun b0 =>
  bind2 (load x (base + (index + 3 * stride))) (fun x3 =>
  bind2 (load biases (2 * n + 1)) (fun b1 =>
  SOk (Box ((inject_Z i + x0) / inject_Z lw) ((inject_Z j + x1) / inject_Z lh)
           (expq x2 * b0 / inject_Z w) (expq x3 * b1 / inject_Z h))%Q)))))).

(** 206-210 *)
Fixpoint class_probs (x : list Q) (base : Z) (w h outputs classes location : Z) (objectness : Q) (js : list Z) : sres (list Q) :=
  match js with
  | [] => SOk []
  | j :: js' =>
      bind2 (entry_index w h outputs classes 0 location (4 + 1 + j)) (fun class_index =>
      bind2 (load x (base + class_index)) (fun p =>
      let prob := (objectness * p)%Q in
      bind2 (class_probs x base w h outputs classes location objectness js') (fun rest =>
      SOk ((if qlt thresh prob then prob else 0%Q) :: rest))))
  end.

(** 193-216: one anchor at one place; [base] is where the image starts
    (slice, 345) *)
Definition detect (y : tensor Q) (w h outputs classes base : Z) (l : layer) (netw neth : Z) (i n : Z) : sres (list detection) :=
  let row := Z.quot i w in
  let col := Z.rem i w in
  bind2 (entry_index w h outputs classes 0 (n * w * h + i) 4) (fun obj_index =>
  bind2 (load (t_data y) (base + obj_index)) (fun objectness =>
  if Qle_bool objectness thresh then SOk [] else
  bind2 (entry_index w h outputs classes 0 (n * w * h + i) 0) (fun box_index =>
  bind2 (load (p_mask l) n) (fun mn =>
  bind2 (get_yolo_box (t_data y) base (p_anchors l) mn box_index col row w h netw neth (w * h)) (fun bbox =>
  bind2 (class_probs (t_data y) base w h outputs classes (n * w * h + i) objectness (upto classes)) (fun probs =>
  SOk [Det bbox probs])))))).

(** 193-219 for image [n] of one layer; x.size(1), x.size(2), x.size(3) of
    anything but rank 4 are out of range or other sizes: refused here *)
Definition get_yolo_detections (classes netw neth n : Z) (l : layer) : sres (list detection) :=
  match t_shape (p_out l) with
  | [_; c; h; w] =>
      if negb (p_classes l =? classes) then SErr else
      let outputs := c * h * w in
      collect (fun i => collect (fun a => detect (p_out l) w h outputs classes (n * outputs) l netw neth i a)
                          (upto (Z.of_nat (length (p_mask l))))) (upto (w * h))
  | _ => SErr
  end.

(** 289-291 *)
Definition clamp1 (x : Q) : Q := std_max 0 (std_min 1 x).
(** 293-306 with min 0 and max 1 *)
Definition clamp_box (x : box) : box :=
  let left := clamp1 (bx x - bw x / 2)%Q in
  let right := clamp1 (bx x + bw x / 2)%Q in
  let top := clamp1 (by_ x - bh x / 2)%Q in
  let bottom := clamp1 (by_ x + bh x / 2)%Q in
  let width := (right - left)%Q in
  let height := (bottom - top)%Q in
  Box (left + width / 2)%Q (top + height / 2)%Q width height.

(** 221-230 *)
Definition overlap1 (x1 w1 x2 w2 : Q) : Q :=
  let l1 := (x1 - w1 / 2)%Q in
  let l2 := (x2 - w2 / 2)%Q in
  let left := if qlt l2 l1 then l1 else l2 in
  let r1 := (x1 + w1 / 2)%Q in
  let r2 := (x2 + w2 / 2)%Q in
  let right := if qlt r1 r2 then r1 else r2 in
  (right - left)%Q.
(** 232-239 *)
Definition box_intersection (a b : box) : Q :=
  let w := overlap1 (bx a) (bw a) (bx b) (bw b) in
  let h := overlap1 (by_ a) (bh a) (by_ b) (bh b) in
  if qlt w 0 || qlt h 0 then 0%Q else (w * h)%Q.
(** 241-246 *)
Definition box_union (a b : box) : Q := (bw a * bh a + bw b * bh b - box_intersection a b)%Q.
(** 248-251 and the comparison of 278: x / 0 is an infinity or NaN *)
Definition iou_above (a b : box) : bool :=
  let i := box_intersection a b in
  let u := box_union a b in
  if Qeq_bool u 0 then qlt 0 i else qlt nms_thresh (i / u)%Q.

Definition box_of (dets : list detection) (i : Z) : box := nth (Z.to_nat i) (map d_box dets) (Box 0 0 0 0).
Definition prob_of (dets : list detection) (i k : Z) : Q := nth (Z.to_nat k) (nth (Z.to_nat i) (map d_prob dets) []) 0%Q.

(** 279: prob[k] = 0 *)
Definition drop (p : Z -> Z -> Q) (j k : Z) : Z -> Z -> Q := fun i k' => if (i =? j) && (k' =? k) then 0%Q else p i k'.

(** 275-281 *)
Fixpoint suppress (boxes : Z -> box) (a : box) (k : Z) (rest : list Z) (p : Z -> Z -> Q) : Z -> Z -> Q :=
  match rest with
  | [] => p
  | j :: rest' => suppress boxes a k rest' (if iou_above a (boxes j) then drop p j k else p)
  end.

(** 271-282 *)
Fixpoint nms_class (boxes : Z -> box) (k : Z) (sorted : list Z) (p : Z -> Z -> Q) : Z -> Z -> Q :=
  match sorted with
  | [] => p
  | i :: rest => nms_class boxes k rest (if Qeq_bool (p i k) 0 then p else suppress boxes (boxes i) k rest p)
  end.

(** 253-284 *)
Definition do_nms_sort (boxes : Z -> box) (total classes : Z) (p : Z -> Z -> Q) : Z -> Z -> Q :=
  fold_left (fun p k => nms_class boxes k (sort (fun a b => qlt (p b k) (p a k)) (upto total)) p) (upto classes) p.

(** 371-379: x, y, width, height, score, label *)
Definition rows_of (boxes : Z -> box) (p : Z -> Z -> Q) (total classes : Z) : list (list Q) :=
  flat_map (fun i => flat_map (fun j =>
    if qlt thresh (p i j) then
      let b := boxes i in [[(bx b - bw b / 2)%Q; (by_ b - bh b / 2)%Q; bw b; bh b; p i j; inject_Z j]]
    else []) (upto classes)) (upto total).

(** 339-387: one image *)
Definition poster_image (classes netw neth : Z) (layers : list layer) (n : Z) : sres (list (list Q)) :=
  bind2 (collect (get_yolo_detections classes netw neth n) layers) (fun found =>
  let dets := map (fun d => Det (clamp_box (d_box d)) (d_prob d)) found in
  let total := Z.of_nat (length dets) in
  SOk (rows_of (box_of dets) (do_nms_sort (box_of dets) total classes (prob_of dets)) total classes)).

Fixpoint images {X} (f : Z -> sres X) (l : list Z) : sres (list X) :=
  match l with
  | [] => SOk []
  | n :: l' => bind2 (f n) (fun a => bind2 (images f l') (fun b => SOk (a :: b)))
  end.

(** run (324-394): the sizes of the network input, then the layers; the
    number of images and classes is that of the last layer *)
Definition yolo_poster (netw neth : Z) (layers : list layer) : sres (list (list (list Q))) :=
  match rev layers with
  | [] => SErr
  | last :: _ =>
      match t_shape (p_out last) with
      | batch :: _ => images (poster_image (p_classes last) netw neth layers) (upto batch)
      | [] => SUndef
      end
  end.

(** yolo_num_detections (65-78) *)
Definition num_detections (classes : Z) (l : layer) : sres Z :=
  match t_shape (p_out l) with
  | [_; c; h; w] =>
      if negb (p_classes l =? classes) then SErr else
      bind2 (collect (fun i => collect (fun n =>
               bind2 (entry_index w h (c * h * w) classes 0 (n * w * h + i) 4) (fun o =>
               bind2 (load (t_data (p_out l)) o) (fun v => SOk (if qlt thresh v then [tt] else []))))
               (upto (Z.of_nat (length (p_mask l))))) (upto (w * h)))
        (fun found => SOk (Z.of_nat (length found)))
  | _ => SErr
  end.

(** infer (86-115): the shapes of the fields of the output *)
Definition poster_infer (layers : list layer) : sres (list (list Z)) :=
  match rev layers with
  | [] => SErr
  | last :: _ =>
      match t_shape (p_out last) with
      | batch :: _ =>
          bind2 (images (fun i => num_detections (p_classes last) (nth (Z.to_nat i) layers last)) (upto (Z.of_nat (length layers))))
            (fun counts => SOk (repeat [fold_right Z.add 0 counts; 4 + 1 + 1] (Z.to_nat batch)))
      | [] => SUndef
      end
  end.
End Poster.

(** a sort for the examples: insertion *)
Fixpoint insert_by (lt : Z -> Z -> bool) (x : Z) (l : list Z) : list Z :=
  match l with
  | [] => [x]
  | y :: l' => if lt y x then y :: insert_by lt x l' else x :: l
  end.
Definition insertion_sort (lt : Z -> Z -> bool) (l : list Z) : list Z := fold_right (insert_by lt) [] l.
