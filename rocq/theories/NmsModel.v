(** Model of non-maximum suppression on the CPU:
    src/kernels/cpu/non_max_suppression_v3.cpp and
    src/backend/base/base_non_max_suppression_v3.cpp.

    Simplifications: the boxes, scores and thresholds are finite floats and
    are modelled by the rational numbers they denote; arithmetic on them is
    exact (no rounding, overflow or NaN).  Boxes are FLOAT32 or FLOAT64 (the
    integer versions are not modelled).  std::priority_queue is a parameter:
    [top q] is the element top() shows and pop() removes, with what is left. *)
From Coq Require Import List ZArith QArith Bool.
From Verif Require Import ShapeModel KernelBase.
Import ListNotations.
Local Open Scope Z_scope.

Definition qlt (a b : Q) : bool := negb (Qle_bool b a).
(** std::min, std::max *)
Definition std_min (a b : Q) : Q := if qlt b a then b else a.
Definition std_max (a b : Q) : Q := if qlt a b then b else a.

(** the four numbers of box [i]: boxes[i * 4 + 0] to boxes[i * 4 + 3] *)
Definition load4 (boxes : list Q) (i : Z) : sres (Q * Q * Q * Q) :=
  match load boxes (i * 4 + 0), load boxes (i * 4 + 1), load boxes (i * 4 + 2), load boxes (i * 4 + 3) with
  | SOk a, SOk b, SOk c, SOk d => SOk (a, b, c, d)
  | _, _, _, _ => SUndef
  end.

(** non_max_suppression_v3.cpp 19-39: ymin, xmin, ymax, xmax; mode 1 is xywh *)
Definition corners (xywh : bool) (b : Q * Q * Q * Q) : Q * Q * Q * Q :=
  let '(b0, b1, b2, b3) := b in
  if xywh then (std_min b0 (b0 + b2), std_min b1 (b1 + b3), std_max b0 (b0 + b2), std_max b1 (b1 + b3))%Q
  else (std_min b0 b2, std_min b1 b3, std_max b0 b2, std_max b1 b3).

(** non_max_suppression_v3.cpp 41-55 *)
Definition boxes_suppress (iou_threshold : Q) (ci cj : Q * Q * Q * Q) : bool :=
  let '(ymin_i, xmin_i, ymax_i, xmax_i) := ci in
  let '(ymin_j, xmin_j, ymax_j, xmax_j) := cj in
  let area_i := ((ymax_i - ymin_i) * (xmax_i - xmin_i))%Q in
  let area_j := ((ymax_j - ymin_j) * (xmax_j - xmin_j))%Q in
  if Qle_bool area_i 0 || Qle_bool area_j 0 then false else
  let intersection_area := (std_max (std_min ymax_i ymax_j - std_max ymin_i ymin_j) 0 *
                            std_max (std_min xmax_i xmax_j - std_max xmin_i xmin_j) 0)%Q in
  let iou := (intersection_area / (area_i + area_j - intersection_area))%Q in
  qlt iou_threshold iou.

(** non_max_suppression_v3.cpp 11-57 *)
Definition check_suppress (boxes : list Q) (xywh : bool) (iou_threshold : Q) (i j : Z) : sres bool :=
  match load4 boxes i, load4 boxes j with
  | SOk bi, SOk bj => SOk (boxes_suppress iou_threshold (corners xywh bi) (corners xywh bj))
  | _, _ => SUndef
  end.

Definition candidate : Type := Z * Q. (* box_index, score *)

Section Nms.
Variable top : list candidate -> option (candidate * list candidate).
Variables (boxes : list Q) (xywh : bool) (iou_threshold : Q) (max_output : Z).

(** non_max_suppression_v3.cpp 100-105: from the newest selected to the
    oldest ([selected] is kept newest first) *)
Fixpoint any_suppress (i : Z) (selected : list Z) : sres bool :=
  match selected with
  | [] => SOk false
  | j :: selected' =>
      match check_suppress boxes xywh iou_threshold i j with
      | SOk true => SOk true
      | SOk false => any_suppress i selected'
      | SErr => SErr
      | SUndef => SUndef
      end
  end.

(** non_max_suppression_v3.cpp 94-111; every round pops one candidate *)
Fixpoint nms_loop (fuel : nat) (queue : list candidate) (selected : list Z) : sres (list Z) :=
  match fuel with
  | O => SOk selected
  | S fuel' =>
      if Z.of_nat (length selected) <? max_output then
        match top queue with
        | None => SOk selected
        | Some (next, queue') =>
            match any_suppress (fst next) selected with
            | SOk suppressed => nms_loop fuel' queue' (if suppressed then selected else fst next :: selected)
            | SErr => SErr
            | SUndef => SUndef
            end
        end
      else SOk selected
  end.

(** non_max_suppression_v3.cpp 84-88 *)
Definition candidates (scores : list Q) (score_threshold : Q) : list candidate :=
  filter (fun c => qlt score_threshold (snd c)) (combine (upto (Z.of_nat (length scores))) scores).

(** base_non_max_suppression_v3.cpp 28 (init), 55-70;
    non_max_suppression_v3.cpp 60-118: the output is filled with -1, then the
    selected indices are stored *)
Definition nms_run (scores : list Q) (score_threshold : Q) : sres (tensor Z) :=
  if max_output <=? 0 then SErr else
  let queue := candidates scores score_threshold in
  match nms_loop (length queue) queue [] with
  | SOk selected =>
      let sel := rev selected in
      SOk (Tn 5 [max_output] (sel ++ repeat (-1) (Z.to_nat max_output - length sel)))
  | SErr => SErr
  | SUndef => SUndef
  end.
End Nms.

(** A priority queue that keeps its elements in a list: the first of the
    greatest scores. *)
Fixpoint list_top (q : list candidate) : option (candidate * list candidate) :=
  match q with
  | [] => None
  | c :: q' =>
      match list_top q' with
      | None => Some (c, [])
      | Some (m, rest) => if qlt (snd c) (snd m) then Some (m, c :: rest) else Some (c, q')
      end
  end.
