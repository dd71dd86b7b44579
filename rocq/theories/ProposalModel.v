(** Model of the CPU proposal operator (src/kernels/cpu/dragon/proposal_op.cpp,
    bbox_utils.h, bbox_utils.cpp).

    Floats are the rational numbers they denote and arithmetic on them is exact;
    [expq] is exp, [sqrtq] sqrt, [level] the level before it is clamped
    (bbox_utils.h 194-195: int(canonical_level + log2(max(sqrt(w * h), 1) /
    canonical_scale)) as a function of w * h).  A row of [proposals_] is a box and
    its score.  Integer overflow and float16 are left out, and so are the checks
    of the input and output counts that bind_inputs and bind_outputs make. *)
From Coq Require Import List ZArith Bool QArith.
From Verif Require Import ShapeModel KernelBase ResizeModel NmsModel DetectModel.
Import ListNotations.
Local Open Scope Z_scope.

Notation candidate := (corners * Q)%type.

(** *** SortProposals (bbox_utils.h 128-157) *)
Section Sorting.
Context {A : Type}.
Variable score_of : A -> Q.

(** std::swap of the rows i and j *)
Definition swap (l : list A) (i j : Z) : sres (list A) :=
  bind2 (load l i) (fun x => bind2 (load l j) (fun y =>
    SOk (set_nth (Z.to_nat j) x (set_nth (Z.to_nat i) y l)))).
(** while (left <= end && score[left] >= pivot) ++left.  SErr: not ended after [f]
    rounds *)
Fixpoint go_up (f : nat) (l : list A) (left last : Z) (pivot : Q) : sres Z :=
  match f with
  | O => SErr
  | S f' => if left <=? last
            then bind2 (load l left) (fun x => if Qle_bool pivot (score_of x) then go_up f' l (left + 1) last pivot else SOk left)
            else SOk left
  end.
(** while (right > start && score[right] <= pivot) --right *)
Fixpoint go_down (f : nat) (l : list A) (start right : Z) (pivot : Q) : sres Z :=
  match f with
  | O => SErr
  | S f' => if start <? right
            then bind2 (load l right) (fun x => if Qle_bool (score_of x) pivot then go_down f' l start (right - 1) pivot else SOk right)
            else SOk right
  end.
(** the outer loop (138-147); the answer is the rows and [right] *)
Fixpoint partition (f : nat) (l : list A) (start last left right : Z) (pivot : Q) : sres (list A * Z) :=
  match f with
  | O => SErr
  | S f' =>
      if left <=? right then
        bind2 (go_up (S (length l)) l left last pivot) (fun left =>
        bind2 (go_down (S (length l)) l start right pivot) (fun right =>
        if left <=? right
        then bind2 (swap l left right) (fun l => partition f' l start last (left + 1) (right - 1) pivot)
        else partition f' l start last left right pivot))
      else SOk (l, right)
  end.
Fixpoint sort_proposals (f : nat) (l : list A) (start last top : Z) : sres (list A) :=
  match f with
  | O => SErr
  | S f' =>
      bind2 (load l start) (fun p =>
      bind2 (partition (S (length l)) l start last (start + 1) last (score_of p)) (fun lr =>
      let right := snd lr in
      bind2 (if start <? right then swap (fst lr) start right else SOk (fst lr)) (fun l =>
      bind2 (if start <? right - 1 then sort_proposals f' l start (right - 1) top else SOk l) (fun l =>
      if (right + 1 <? top) && (right + 1 <? last) then sort_proposals f' l (right + 1) last top else SOk l))))
  end.
End Sorting.

(** *** iou and ApplyNMS (bbox_utils.cpp 82-121) *)
Definition iou (a b : corners) : Q :=
  if qlt (xmax b) (xmin a) || qlt (ymax b) (ymin a) || qlt (xmax a) (xmin b) || qlt (ymax a) (ymin b) then 0%Q else
  let x1 := std_max (xmin a) (xmin b) in
  let y1 := std_max (ymin a) (ymin b) in
  let x2 := std_min (xmax a) (xmax b) in
  let y2 := std_min (ymax a) (ymax b) in
  let area := (std_max 0 (x2 - x1 + 1) * std_max 0 (y2 - y1 + 1))%Q in
  let area_a := ((xmax a - xmin a + 1) * (ymax a - ymin a + 1))%Q in
  let area_b := ((xmax b - xmin b + 1) * (ymax b - ymin b + 1))%Q in
  (area / (area_a + area_b - area))%Q.
(** [l] the boxes from i on, [dead] their flags, [count] how many are kept already.
    keep_indices has [keeps] places *)
Fixpoint apply_nms (keeps : Z) (thresh : Q) (count : Z) (l : list corners) (dead : list bool) : sres (list corners) :=
  match l, dead with
  | b :: l', true :: dead' => apply_nms keeps thresh count l' dead'
  | b :: l', false :: dead' =>
      if keeps <=? count then SUndef else
      if count + 1 =? keeps then SOk [b] else
      bind2 (apply_nms keeps thresh (count + 1) l' (map (fun t => snd t || qlt thresh (iou b (fst t))) (combine l' dead')))
            (fun r => SOk (b :: r))
  | _, _ => SOk []
  end.

Section Proposal.
Variables expq sqrtq : Q -> Q.
Variable level : Q -> Z.

Record params := Params {
  strides : list Z; ratios : list Q; scales : list Q;
  pre_nms : Z; post_nms : Z; thresh : Q; min_size : Z;
  min_level : Z; max_level : Z }.

(** BBoxTransform (bbox_utils.h 26-60) *)
Definition clip (extent v : Q) : Q := std_max 0 (std_min v (extent - 1)).
Definition transform (dx dy dlw dlh im_w im_h mw mh : Q) (b : corners) : corners * bool :=
  let w := (xmax b - xmin b + 1)%Q in
  let h := (ymax b - ymin b + 1)%Q in
  let cx := (xmin b + (1 # 2) * w)%Q in
  let cy := (ymin b + (1 # 2) * h)%Q in
  let px := (dx * w + cx)%Q in
  let py := (dy * h + cy)%Q in
  let pw := (expq dlw * w)%Q in
  let ph := (expq dlh * h)%Q in
  let c := Corners (clip im_w (px - (1 # 2) * pw)) (clip im_h (py - (1 # 2) * ph))
                   (clip im_w (px + (1 # 2) * pw)) (clip im_h (py + (1 # 2) * ph)) in
  (c, Qle_bool mw (xmax c - xmin c + 1) && Qle_bool mh (ymax c - ymin c + 1)).
(** ROUND (bbox_utils.h 21) *)
Definition ROUND (v : Q) : Q := inject_Z (truncate (v + (1 # 2))).
(** GenerateAnchors (64-89) *)
Definition anchors (base : Z) (rs ss : list Q) : list corners :=
  let center := ((1 # 2) * (inject_Z base - 1))%Q in
  flat_map (fun r =>
    let rw := ROUND (sqrtq (inject_Z (base * base) / r)) in
    let rh := ROUND (rw * r) in
    map (fun s => let sw := ((1 # 2) * (rw * s - 1))%Q in
                  let sh := ((1 # 2) * (rh * s - 1))%Q in
                  Corners (center - sw) (center - sh) (center + sw) (center + sh)) ss) rs.
Definition shifted (stride h w : Z) (a : corners) : corners :=
  Corners (inject_Z (w * stride) + xmin a) (inject_Z (h * stride) + ymin a)
          (inject_Z (w * stride) + xmax a) (inject_Z (h * stride) + ymax a).
Definition scored (t : corners * bool) (s : Q) : candidate := (fst t, (if snd t then 1 else 0) * s)%Q.

(** GenerateProposals (bbox_utils.cpp 11-52) *)
Definition generate (fh fw stride : Z) (im_w im_h mw mh : Q) (scores deltas : list Q) (an : list corners) : sres (list candidate) :=
  let k := fh * fw in
  traverse (fun c => let '(h, w, a) := c in
    bind2 (load deltas (h * fw + w + (a * 4 + 0) * k)) (fun dx =>
    bind2 (load deltas (h * fw + w + (a * 4 + 1) * k)) (fun dy =>
    bind2 (load deltas (h * fw + w + (a * 4 + 2) * k)) (fun dlw =>
    bind2 (load deltas (h * fw + w + (a * 4 + 3) * k)) (fun dlh =>
    bind2 (load an a) (fun b =>
    bind2 (load scores (h * fw + w + a * k)) (fun s =>
    SOk (scored (transform dx dy dlw dlh im_w im_h mw mh (shifted stride h w b)) s))))))))
  (flat_map (fun h => flat_map (fun w => map (fun a => (h, w, a)) (upto (Z.of_nat (length an)))) (upto fw)) (upto fh)).
(** GenerateGridAnchors (bbox_utils.h 91-112) *)
Definition grid_anchors (fh fw stride : Z) (an : list corners) : list corners :=
  flat_map (fun a => flat_map (fun h => map (fun w => shifted stride h w a) (upto fw)) (upto fh)) an.
(** GenerateProposals_v2 (bbox_utils.cpp 54-78) *)
Definition generate_v2 (im_w im_h mw mh : Q) (scores deltas : list Q) (grid : list corners) : sres (list candidate) :=
  let n := Z.of_nat (length grid) in
  traverse (fun t =>
    bind2 (load deltas (fst t)) (fun dx =>
    bind2 (load deltas (n + fst t)) (fun dy =>
    bind2 (load deltas (2 * n + fst t)) (fun dlw =>
    bind2 (load deltas (3 * n + fst t)) (fun dlh =>
    bind2 (load scores (fst t)) (fun s =>
    SOk (scored (transform dx dy dlw dlh im_w im_h mw mh (snd t)) s))))))) (combine (upto n) grid).

(** one row of the answer: image and box (RetrieveRoIs, bbox_utils.h 159-174) *)
Notation roi := (Q * corners)%type.

(** sorting, suppressing and writing the rows of image n (proposal_op.cpp 47-59
    and 109-121) *)
Definition choose (p : params) (n : Z) (l : list candidate) : sres (list roi) :=
  let total := Z.of_nat (length l) in
  let top := Z.min total (pre_nms p) in
  bind2 (sort_proposals snd (S (length l)) l 0 (total - 1) (pre_nms p)) (fun s =>
  if top <? 0 then SErr                               (* std::vector<char> of a negative size *)
  else bind2 (apply_nms (post_nms p) (thresh p) 0 (map fst (firstn (Z.to_nat top) s)) (repeat false (Z.to_nat top)))
             (fun kept => SOk (map (fun b => (inject_Z n, b)) kept))).

(** RunWithType, one image (20-124).  [maps] are the heights and widths of the
    feature maps, [total] Input(-3).dim(1).  scores and bbox_deltas are not moved
    on from image to image *)
Definition image (p : params) (maps : list (Z * Z)) (total : Z) (scores deltas info : list Q) (columns n : Z) : sres (list roi) :=
  bind2 (load info (n * columns)) (fun im_h =>
  bind2 (load info (n * columns + 1)) (fun im_w =>
  bind2 (load info (n * columns + 2)) (fun scale =>
  let mb := (inject_Z (min_size p) * scale)%Q in
  match strides p with
  | [] => SErr
  | [s] =>
      match maps with
      | (fh, fw) :: _ => bind2 (generate fh fw s im_w im_h mb mb scores deltas (anchors s (ratios p) (scales p))) (choose p n)
      | [] => SErr
      end
  | _ =>
      if negb (length (strides p) =? length maps)%nat || negb (length (strides p) =? length (scales p))%nat then SErr else
      (* &scales[0] for every stride *)
      let grid := flat_map (fun t => grid_anchors (fst (snd t)) (snd (snd t)) (fst t) (anchors (fst t) (ratios p) (firstn 1 (scales p))))
                           (combine (strides p) maps) in
      (* the rows are written before they are counted *)
      if total <? Z.of_nat (length grid) then SUndef else
      if negb (Z.of_nat (length grid) =? total) then SErr else
      bind2 (generate_v2 im_w im_h mb mb scores deltas grid) (choose p n)
  end))).

(** roi_level and CollectRoIs (bbox_utils.h 176-211) *)
Definition roi_level (p : params) (b : corners) : Z :=
  let l := level ((xmax b - xmin b + 1) * (ymax b - ymin b + 1))%Q in
  Z.min (max_level p) (Z.max (min_level p) l).
Definition bin (p : params) (b : corners) : Z := Z.max (roi_level p b - min_level p) 0.
(** CollectRoIs and DistributeRoIs (213-234); [outputs] of them *)
Definition distribute (p : params) (outputs : Z) (rois : list roi) : sres (list (list roi)) :=
  if existsb (fun r => outputs <=? bin p (snd r)) rois then SUndef else
  SOk (map (fun i => match filter (fun r => bin p (snd r) =? i) rois with
                     | [] => [(0%Q, Corners 0 0 1 1)]
                     | l => l
                     end) (upto outputs)).

(** run (proposal.cpp 35-43, proposal_op.cpp 126-186).  [num] is Input(0).dim(0),
    [infos] Input(-1).dim(0).  There are max_level - min_level + 1 outputs *)
Definition proposal (p : params) (num infos columns : Z) (maps : list (Z * Z)) (total : Z) (scores deltas info : list Q) : sres (list (list roi)) :=
  let outputs := max_level p - min_level p + 1 in
  if negb (infos =? num) then SErr else
  bind2 (traverse (image p maps total scores deltas info columns) (upto num)) (fun rs =>
  let rois := concat rs in
  if 1 <? outputs then distribute p outputs rois else SOk [rois]).
End Proposal.
