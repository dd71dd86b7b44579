(** What non-maximum suppression should select. *)
From Coq Require Import List ZArith QArith Qminmax Permutation.
From Verif Require Import NmsModel.
Import ListNotations.

(** What the standard library promises of a priority queue. *)
Definition priority_queue (top : list candidate -> option (candidate * list candidate)) : Prop :=
  top [] = None /\
  forall q, q <> [] -> exists c q', top q = Some (c, q') /\ Permutation q (c :: q') /\ Forall (fun d => snd d <= snd c)%Q q'.

(** A rectangle: [y0, y1] x [x0, x1]. *)
Record rect := Rect { y0 : Q; x0 : Q; y1 : Q; x1 : Q }.

(** a box of four numbers: two opposite corners, or a corner and a size *)
Definition rect_of (xywh : bool) (b : Q * Q * Q * Q) : rect :=
  let '(a, b, c, d) := b in
  let '(c, d) := if xywh then (a + c, b + d)%Q else (c, d) in
  Rect (Qmin a c) (Qmin b d) (Qmax a c) (Qmax b d).

Definition area (r : rect) : Q := ((y1 r - y0 r) * (x1 r - x0 r))%Q.
(** how much of a line two segments share *)
Definition shared (a0 a1 b0 b1 : Q) : Q := Qmax (Qmin a1 b1 - Qmax a0 b0) 0.
Definition intersection (r s : rect) : Q := (shared (y0 r) (y1 r) (y0 s) (y1 s) * shared (x0 r) (x1 r) (x0 s) (x1 s))%Q.
Definition iou (r s : rect) : Q := (intersection r s / (area r + area s - intersection r s))%Q.

(** two boxes overlap too much *)
Definition overlap (threshold : Q) (r s : rect) : Prop := (0 < area r /\ 0 < area s /\ threshold < iou r s)%Q.

(** box [i] *)
Definition box_at (xywh : bool) (boxes : list Q) (i : Z) : rect :=
  let at_ k := nth (Z.to_nat (i * 4 + k)) boxes 0%Q in
  rect_of xywh (at_ 0%Z, at_ 1%Z, at_ 2%Z, at_ 3%Z).
Definition score_at (scores : list Q) (i : Z) : Q := nth (Z.to_nat i) scores 0%Q.

(** [sel] is a greedy selection *)
Record greedy (xywh : bool) (boxes scores : list Q) (iou_threshold score_threshold : Q) (max_output : Z) (sel : list Z) : Prop := {
  g_few : (Z.of_nat (length sel) <= max_output)%Z;
  g_distinct : NoDup sel;
  g_good : forall i, In i sel -> (0 <= i < Z.of_nat (length scores))%Z /\ (score_threshold < score_at scores i)%Q;
  g_sorted : forall a i b j c, sel = a ++ i :: b ++ j :: c -> (score_at scores j <= score_at scores i)%Q;
  g_apart : forall i j, In i sel -> In j sel -> i <> j -> ~ overlap iou_threshold (box_at xywh boxes i) (box_at xywh boxes j);
  (* a candidate that is not selected overlaps a better one that is, or all
     places are taken by better ones *)
  g_complete : forall i, (0 <= i < Z.of_nat (length scores))%Z -> (score_threshold < score_at scores i)%Q -> ~ In i sel ->
    (exists j, In j sel /\ overlap iou_threshold (box_at xywh boxes i) (box_at xywh boxes j) /\ (score_at scores i <= score_at scores j)%Q) \/
    (Z.of_nat (length sel) = max_output /\ forall j, In j sel -> (score_at scores i <= score_at scores j)%Q)
}.
