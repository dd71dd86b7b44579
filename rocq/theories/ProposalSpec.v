(** What region proposals are: independent of the code. *)
From Coq Require Import List ZArith Bool QArith Qminmax Permutation.
From Verif Require Import KernelBase DetectModel DetectSpec ProposalModel.
Import ListNotations.
Local Open Scope Z_scope.

(** *** Overlap in whole pixels: both ends of a side belong to the box *)
Definition pixels (b : corners) : Q := ((xmax b - xmin b + 1) * (ymax b - ymin b + 1))%Q.
Definition apart (a b : corners) : Prop := (xmax a < xmin b \/ xmax b < xmin a \/ ymax a < ymin b \/ ymax b < ymin a)%Q.
Definition shares (a b : corners) (o : Q) : Prop :=
  (apart a b /\ o == 0)%Q \/
  (~ apart a b /\ exists s, s == (Qmin (xmax a) (xmax b) - Qmax (xmin a) (xmin b) + 1) * (Qmin (ymax a) (ymax b) - Qmax (ymin a) (ymin b) + 1) /\
     0 < pixels a + pixels b - s /\ o * (pixels a + pixels b - s) == s)%Q.

(** *** Greedy choice of at most [keeps] boxes *)
Inductive picked (thresh : Q) (keeps : Z) : list corners -> list corners -> list corners -> Prop :=
| picked_end kept : picked thresh keeps kept [] kept
| picked_full kept l : Z.of_nat (length kept) = keeps -> picked thresh keeps kept l kept
| picked_keep kept b l r : Z.of_nat (length kept) < keeps ->
    (forall k, In k kept -> exists o, shares k b o /\ (o <= thresh)%Q) ->
    picked thresh keeps (kept ++ [b]) l r -> picked thresh keeps kept (b :: l) r
| picked_drop kept b l r : Z.of_nat (length kept) < keeps ->
    (exists k o, In k kept /\ shares k b o /\ (thresh < o)%Q) ->
    picked thresh keeps kept l r -> picked thresh keeps kept (b :: l) r.
(** the [top] best come first, best first *)
Definition best_first (top : Z) (l : list candidate) : Prop :=
  forall i j x y, (i < j)%nat -> Z.of_nat i < top -> nth_error l i = Some x -> nth_error l j = Some y -> (snd y <= snd x)%Q.
Definition survivors (top keeps : Z) (thresh : Q) (candidates : list candidate) (kept : list corners) : Prop :=
  exists order, Permutation candidates order /\ best_first top order /\
    picked thresh keeps [] (map fst (firstn (Z.to_nat top) order)) kept.

(** *** Anchors: centred on the cell, an integer size near the ratio, scaled *)
Definition rounded (v : Q) (n : Z) : Prop := (inject_Z n - (1 # 2) <= v < inject_Z n + (1 # 2))%Q.
Definition anchor (sqrtq : Q -> Q) (base : Z) (ratio scale : Q) (b : corners) : Prop :=
  exists w h, rounded (sqrtq (inject_Z (base * base) / ratio)%Q) w /\ rounded (inject_Z w * ratio)%Q h /\
    (xmax b - xmin b + 1 == inject_Z w * scale /\ ymax b - ymin b + 1 == inject_Z h * scale /\
     xmin b + xmax b == inject_Z base - 1 /\ ymin b + ymax b == inject_Z base - 1)%Q.

(** *** A proposal: an anchor at a cell, moved and stretched by the deltas and cut
    to the image.  The middle of a box [b] is [xmin b + (xmax b - xmin b + 1) / 2] *)
Definition proposed (expq : Q -> Q) (an : corners) (x y dx dy dlw dlh im_w im_h : Q) (r : corners) : Prop :=
  exists u, let w := (xmax an - xmin an + 1)%Q in let h := (ymax an - ymin an + 1)%Q in
    ((xmin u + xmax u) / 2 == x + xmin an + w / 2 + dx * w /\ (ymin u + ymax u) / 2 == y + ymin an + h / 2 + dy * h /\
     xmax u - xmin u == expq dlw * w /\ ymax u - ymin u == expq dlh * h /\
     xmin r == Qmax 0 (Qmin (xmin u) (im_w - 1)) /\ xmax r == Qmax 0 (Qmin (xmax u) (im_w - 1)) /\
     ymin r == Qmax 0 (Qmin (ymin u) (im_h - 1)) /\ ymax r == Qmax 0 (Qmin (ymax u) (im_h - 1)))%Q.
(** too small for the image: its score is 0 *)
Definition weighted (limit : Q) (b : corners) (s s' : Q) : Prop :=
  ((limit <= xmax b - xmin b + 1 /\ limit <= ymax b - ymin b + 1 /\ s' == s) \/
   ((xmax b - xmin b + 1 < limit \/ ymax b - ymin b + 1 < limit) /\ s' == 0))%Q.

(** *** One feature map: scores [1, A, fh, fw], deltas [1, A * 4, fh, fw]; ratio [i]
    and scale [j] make anchor [i * |scales| + j] *)
Definition cells (p : params) (fh fw : Z) : list (Z * Z * Z * Z) :=
  flat_map (fun h => flat_map (fun w => flat_map (fun i => map (fun j => (h, w, i, j)) (upto (Z.of_nat (length (scales p)))))
    (upto (Z.of_nat (length (ratios p))))) (upto fw)) (upto fh).
Definition candidate_at (expq sqrtq : Q -> Q) (p : params) (base fh fw : Z) (im_w im_h limit : Q) (scores deltas : list Q)
    (t : Z * Z * Z * Z) (c : candidate) : Prop :=
  let '(h, w, i, j) := t in
  let a := i * Z.of_nat (length (scales p)) + j in
  let d n := at_ deltas (((a * 4 + n) * fh + h) * fw + w) in
  exists an, anchor sqrtq base (at_ (ratios p) i) (at_ (scales p) j) an /\
    proposed expq an (inject_Z (w * base)) (inject_Z (h * base)) (d 0) (d 1) (d 2) (d 3) im_w im_h (fst c) /\
    weighted limit (fst c) (at_ scores ((a * fh + h) * fw + w)) (snd c).
(** *** Several feature maps: scores [1, total], deltas [1, 4, total]; the anchors of
    map [m] have the ratios and one scale *)
Definition places (p : params) (maps : list (Z * Z)) : list (nat * Z * Z * Z) :=
  flat_map (fun m => flat_map (fun i => flat_map (fun h => map (fun w => (m, i, h, w)) (upto (snd (nth m maps (0, 0)))))
    (upto (fst (nth m maps (0, 0))))) (upto (Z.of_nat (length (ratios p))))) (seq 0 (length maps)).
Definition candidate_of (expq sqrtq : Q -> Q) (p : params) (scale_of : nat -> Q) (total : Z) (im_w im_h limit : Q) (scores deltas : list Q)
    (t : Z * (nat * Z * Z * Z)) (c : candidate) : Prop :=
  let '(n, (m, i, h, w)) := t in
  let base := nth m (strides p) 0 in
  let d k := at_ deltas (k * total + n) in
  exists an, anchor sqrtq base (at_ (ratios p) i) (scale_of m) an /\
    proposed expq an (inject_Z (w * base)) (inject_Z (h * base)) (d 0) (d 1) (d 2) (d 3) im_w im_h (fst c) /\
    weighted limit (fst c) (at_ scores n) (snd c).
