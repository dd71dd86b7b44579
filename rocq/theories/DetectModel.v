(** Model of the CPU detection_output operator
    (src/kernels/cpu/detection_output.cpp) and of the functions of
    src/kernels/cpu/caffe/bbox_util.cpp it calls.

    Floats are the rational numbers they denote and arithmetic on them is exact;
    [expq] is exp.  std::sort is a parameter ([sort]); std::stable_sort is
    insertion.  A std::map from labels is the list of its entries in order of
    label.  The casts to FLOAT32 (157-159) and integer overflow are left out. *)
From Coq Require Import List ZArith Bool QArith.
From Verif Require Import ShapeModel KernelBase ResizeModel NmsModel.
Import ListNotations.
Local Open Scope Z_scope.

Record corners := Corners { xmin : Q; ymin : Q; xmax : Q; ymax : Q }.

Record params := Params {
  classes : Z; share : bool; background : Z; code : Z; in_target : bool;
  keep_top : Z; confidence : Q; nms : Q; eta : Q; top : Z }.

Fixpoint traverse {X Y} (f : X -> sres Y) (l : list X) : sres (list Y) :=
  match l with
  | [] => SOk []
  | x :: l' => bind2 (f x) (fun a => bind2 (traverse f l') (fun b => SOk (a :: b)))
  end.
Definition four (data : list Q) (i : Z) : sres corners :=
  bind2 (load data i) (fun a => bind2 (load data (i + 1)) (fun b =>
  bind2 (load data (i + 2)) (fun c => bind2 (load data (i + 3)) (fun d => SOk (Corners a b c d))))).
Fixpoint lookup {X} (l : list (Z * X)) (k : Z) : option X :=
  match l with [] => None | (k', x) :: r => if k' =? k then Some x else lookup r k end.

(** BBoxSize (bbox_util.cpp 160-178), of a box whose size is not stored yet *)
Definition size (b : corners) : Q :=
  if qlt (xmax b) (xmin b) || qlt (ymax b) (ymin b) then 0%Q else ((xmax b - xmin b) * (ymax b - ymin b))%Q.
(** IntersectBBox (143-158) *)
Definition intersect (a b : corners) : corners :=
  if qlt (xmax a) (xmin b) || qlt (xmax b) (xmin a) || qlt (ymax a) (ymin b) || qlt (ymax b) (ymin a)
  then Corners 0 0 0 0
  else Corners (std_max (xmin a) (xmin b)) (std_max (ymin a) (ymin b)) (std_min (xmax a) (xmax b)) (std_min (ymax a) (ymax b)).
(** JaccardOverlap (353-373) with normalized = true (bbox_util.hpp); the sizes
    are those stored by DecodeBBox, which are the ones BBoxSize computes *)
Definition jaccard (a b : corners) : Q :=
  let i := intersect a b in
  let w := (xmax i - xmin i)%Q in
  let h := (ymax i - ymin i)%Q in
  if qlt 0 w && qlt 0 h then let s := (w * h)%Q in (s / (size a + size b - s))%Q else 0%Q.

Section Detection.
Variable expq : Q -> Q.
Variable sort : list (Q * (Z * Z)) -> list (Q * (Z * Z)).

(** GetLocPredictions (1217-1242): of image i; [loc_classes] boxes for each of
    the [priors] predictions.  Without predictions no label is entered *)
Definition label_of (p : params) (c : Z) : Z := if share p then -1 else c.
Definition loc_classes (p : params) : Z := if share p then 1 else classes p.
Definition locations (p : params) (loc : list Q) (priors i : Z) : sres (list (Z * list corners)) :=
  if priors <=? 0 then SOk [] else
  let n := loc_classes p in
  traverse (fun c => bind2 (traverse (fun k => four loc (i * (priors * n * 4) + k * n * 4 + c * 4)) (upto priors))
                           (fun bs => SOk (label_of p c, bs))) (upto n).
(** GetConfidenceScores (1422-1437) *)
Definition confidences (p : params) (conf : list Q) (priors i : Z) : sres (list (Z * list Q)) :=
  if priors <=? 0 then SOk [] else
  traverse (fun c => bind2 (traverse (fun k => load conf (i * (priors * classes p) + k * classes p + c)) (upto priors))
                           (fun s => SOk (c, s))) (upto (classes p)).
(** GetPriorBBoxes (1745-1770) *)
Definition prior_boxes (prior : list Q) (priors : Z) : sres (list corners * list corners) :=
  bind2 (traverse (fun i => four prior (i * 4)) (upto priors)) (fun bs =>
  bind2 (traverse (fun i => four prior ((priors + i) * 4)) (upto priors)) (fun vs => SOk (bs, vs))).

(** DecodeBBox (521-609), clip_bbox = false *)
Definition decode (p : params) (b v x : corners) : sres corners :=
  let w := (xmax b - xmin b)%Q in
  let h := (ymax b - ymin b)%Q in
  if code p =? 1 then
    SOk (if in_target p
         then Corners (xmin b + xmin x) (ymin b + ymin x) (xmax b + xmax x) (ymax b + ymax x)
         else Corners (xmin b + xmin v * xmin x) (ymin b + ymin v * ymin x) (xmax b + xmax v * xmax x) (ymax b + ymax v * ymax x))%Q
  else if code p =? 2 then
    if negb (qlt 0 w) || negb (qlt 0 h) then SErr else
    let cx := ((xmin b + xmax b) / 2)%Q in
    let cy := ((ymin b + ymax b) / 2)%Q in
    let dx := (if in_target p then xmin x * w + cx else xmin v * xmin x * w + cx)%Q in
    let dy := (if in_target p then ymin x * h + cy else ymin v * ymin x * h + cy)%Q in
    let dw := (if in_target p then expq (xmax x) * w else expq (xmax v * xmax x) * w)%Q in
    let dh := (if in_target p then expq (ymax x) * h else expq (ymax v * ymax x) * h)%Q in
    SOk (Corners (dx - dw / 2) (dy - dh / 2) (dx + dw / 2) (dy + dh / 2))%Q
  else if code p =? 3 then
    if negb (qlt 0 w) || negb (qlt 0 h) then SErr else
    SOk (if in_target p
         then Corners (xmin b + xmin x * w) (ymin b + ymin x * h) (xmax b + xmax x * w) (ymax b + ymax x * h)
         else Corners (xmin b + xmin v * xmin x * w) (ymin b + ymin v * ymin x * h)
                      (xmax b + xmax v * xmax x * w) (ymax b + ymax v * ymax x * h))%Q
  else SErr.
(** DecodeBBoxes (611-630) *)
Definition decode_boxes (p : params) (bs vs xs : list corners) : sres (list corners) :=
  if negb (length bs =? length vs)%nat || negb (length bs =? length xs)%nat then SErr else
  traverse (fun t => decode p (fst (fst t)) (snd (fst t)) (snd t)) (combine (combine bs vs) xs).
(** DecodeBBoxesAll (632-661), one image.  A missing label is logged without
    eject (653), and then dereferenced *)
Definition decode_all (p : params) (bs vs : list corners) (locs : list (Z * list corners)) : sres (list (Z * list corners)) :=
  traverse (fun c => match lookup locs (label_of p c) with
                     | None => SUndef
                     | Some xs => bind2 (decode_boxes p bs vs xs) (fun ys => SOk (label_of p c, ys))
                     end)
           (filter (fun c => negb (label_of p c =? background p)) (upto (loc_classes p))).

(** GetMaxScoreIndex (1835-1852) *)
Fixpoint insert (s : Z -> Q) (i : Z) (l : list Z) : list Z :=
  match l with
  | [] => [i]
  | j :: r => if qlt (s j) (s i) then i :: l else j :: insert s i r
  end.
Definition stable_sort (s : Z -> Q) (l : list Z) : list Z := fold_left (fun acc i => insert s i acc) l [].
Definition score (scores : list Q) (i : Z) : Q := nth (Z.to_nat i) scores 0%Q.
Definition truncate_top (k : Z) (l : list Z) : list Z :=
  if (-1 <? k) && (k <? Z.of_nat (length l)) then firstn (Z.to_nat k) l else l.
Definition max_score_index (scores : list Q) (threshold : Q) (k : Z) : list Z :=
  truncate_top k (stable_sort (score scores) (filter (fun i => qlt threshold (score scores i)) (upto (Z.of_nat (length scores))))).
(** ApplyNMSFast (1994-2028); [t] is adaptive_threshold *)
Definition no_box : corners := Corners 0 0 0 0.
Definition box_of (boxes : list corners) (i : Z) : corners := nth (Z.to_nat i) boxes no_box.
Definition half : Q := 1 # 2.
Fixpoint nms_loop (p : params) (boxes : list corners) (t : Q) (kept l : list Z) : list Z :=
  match l with
  | [] => kept
  | i :: r =>
      let keep := forallb (fun k => Qle_bool (jaccard (box_of boxes i) (box_of boxes k)) t) kept in
      nms_loop p boxes (if keep && qlt (eta p) 1 && qlt half t then (t * eta p)%Q else t)
               (if keep then kept ++ [i] else kept) r
  end.
Definition nms_fast (p : params) (boxes : list corners) (scores : list Q) : sres (list Z) :=
  if negb (length boxes =? length scores)%nat then SErr
  else SOk (nms_loop p boxes (nms p) [] (max_score_index scores (confidence p) (top p))).

(** one image (detection_output.cpp 191-249): the indices kept for each label,
    and how many are counted *)
Definition select (p : params) (confs : list (Z * list Q)) (boxes : list (Z * list corners)) : sres (list (Z * list Z) * Z) :=
  bind2 (traverse (fun c =>
           match lookup confs c with
           | None => SErr
           | Some s => match lookup boxes (label_of p c) with
                       | None => SErr
                       | Some bs => bind2 (nms_fast p bs s) (fun l => SOk (c, l))
                       end
           end) (filter (fun c => negb (c =? background p)) (upto (classes p)))) (fun indices =>
  let count := Z.of_nat (length (flat_map snd indices)) in
  if (-1 <? keep_top p) && (keep_top p <? count) then
    bind2 (traverse (fun ci => match lookup confs (fst ci) with
                               | None => SErr
                               | Some s => if Z.of_nat (length s) <=? snd ci then SErr else SOk (score s (snd ci), ci)
                               end)
                    (flat_map (fun e => map (fun i => (fst e, i)) (snd e)) indices)) (fun pairs =>
    let best := firstn (Z.to_nat (keep_top p)) (sort pairs) in
    (* new_indices[label].push_back(idx), then in order of label *)
    SOk (map (fun c => (c, map (fun x => snd (snd x)) (filter (fun x => fst (snd x) =? c) best))) (upto (classes p)), keep_top p))
  else SOk (indices, count)).

(** the rows of one image (271-300) *)
Definition rows_of (p : params) (i : Z) (confs : list (Z * list Q)) (boxes : list (Z * list corners)) (indices : list (Z * list Z)) : sres (list (list Q)) :=
  bind2 (traverse (fun e =>
    let '(c, l) := e in
    if (length l =? 0)%nat then SOk [] else
    match lookup confs c with
    | None => SErr
    | Some s => match lookup boxes (label_of p c) with
                | None => SErr
                | Some bs => SOk (map (fun k => let b := box_of bs k in
                     [inject_Z i; inject_Z c; score s k; xmin b; ymin b; xmax b; ymax b]) l)
                end
    end) indices) (fun rs => SOk (concat rs)).

(** run (153-304): the shape of the answer and its rows.  [num] is
    bottom[0].size(0), [width] bottom[0].size(1), [scores] bottom[1].size(1),
    [images] bottom[1].size(0), [columns] bottom[2].size(2) *)
Definition infer_shape : list Z := [1; 1; 1; 7].
Definition run (p : params) (num images width scores columns : Z) (loc conf prior : list Q) : sres (list Z * list (list Q)) :=
  let priors := Z.quot columns 4 in
  if negb (num =? images) || negb (priors * loc_classes p * 4 =? width) || negb (priors * classes p =? scores) then SErr else
  bind2 (traverse (locations p loc priors) (upto num)) (fun all_locs =>
  bind2 (traverse (confidences p conf priors) (upto num)) (fun all_confs =>
  bind2 (prior_boxes prior priors) (fun bv =>
  bind2 (traverse (decode_all p (fst bv) (snd bv)) all_locs) (fun all_boxes =>
  bind2 (traverse (fun cb => select p (fst cb) (snd cb)) (combine all_confs all_boxes)) (fun chosen =>
  let num_kept := fold_right Z.add 0 (map snd chosen) in
  bind2 (traverse (fun t => rows_of p (fst t) (fst (fst (snd t))) (snd (fst (snd t))) (fst (snd (snd t))))
                  (combine (upto num) (combine (combine all_confs all_boxes) chosen))) (fun found =>
  let rows := concat found in
  (* the rows are written into a tensor of num_kept rows *)
  if negb (Z.of_nat (length rows) =? num_kept) then SUndef else
  if num_kept =? 0
  then SOk ([1; 1; num; 7], map (fun i => [inject_Z i; - 1; - 1; - 1; - 1; - 1; - 1]%Q) (upto num))
  else SOk ([1; 1; num_kept; 7], rows))))))).
End Detection.
