(** What the detection output is: independent of the code. *)
From Coq Require Import List ZArith Bool QArith Qminmax Sorting.Sorted Permutation.
From Verif Require Import KernelBase DetectModel.
Import ListNotations.
Local Open Scope Z_scope.

(** *** Overlap of two boxes: intersection over union *)
Definition area (b : corners) : Q := ((xmax b - xmin b) * (ymax b - ymin b))%Q.
Definition common_width (a b : corners) : Q := (Qmin (xmax a) (xmax b) - Qmax (xmin a) (xmin b))%Q.
Definition common_height (a b : corners) : Q := (Qmin (ymax a) (ymax b) - Qmax (ymin a) (ymin b))%Q.
Definition overlaps (a b : corners) (o : Q) : Prop :=
  let s := (common_width a b * common_height a b)%Q in
  ((0 < common_width a b)%Q /\ (0 < common_height a b)%Q /\ (0 < area a + area b - s)%Q /\ (o * (area a + area b - s) == s)%Q) \/
  (((common_width a b <= 0)%Q \/ (common_height a b <= 0)%Q) /\ o == 0)%Q.

(** *** Decoding: what box a prediction [x] means for the prior [b] with variances [v] *)
Definition scaled (p : params) (v x : Q) : Q := if in_target p then x else (v * x)%Q.
Definition width (b : corners) : Q := (xmax b - xmin b)%Q.
Definition height (b : corners) : Q := (ymax b - ymin b)%Q.
Definition centre_x (b : corners) : Q := ((xmin b + xmax b) / 2)%Q.
Definition centre_y (b : corners) : Q := ((ymin b + ymax b) / 2)%Q.
Definition decoded (expq : Q -> Q) (p : params) (b v x r : corners) : Prop :=
  ((code p = 1)%Z /\ xmin r == xmin b + scaled p (xmin v) (xmin x) /\ ymin r == ymin b + scaled p (ymin v) (ymin x) /\
                 xmax r == xmax b + scaled p (xmax v) (xmax x) /\ ymax r == ymax b + scaled p (ymax v) (ymax x))%Q \/
  ((code p = 2)%Z /\ centre_x r == centre_x b + scaled p (xmin v) (xmin x) * width b /\ centre_y r == centre_y b + scaled p (ymin v) (ymin x) * height b /\
                 width r == expq (scaled p (xmax v) (xmax x)) * width b /\ height r == expq (scaled p (ymax v) (ymax x)) * height b)%Q \/
  ((code p = 3)%Z /\ xmin r == xmin b + scaled p (xmin v) (xmin x) * width b /\ ymin r == ymin b + scaled p (ymin v) (ymin x) * height b /\
                 xmax r == xmax b + scaled p (xmax v) (xmax x) * width b /\ ymax r == ymax b + scaled p (ymax v) (ymax x) * height b)%Q.

(** *** Which predictions of one class are kept *)
(** ranked: those above the threshold, best first, ties by number, at most [k] of them *)
Definition ranked (n : Z) (s : Z -> Q) (threshold : Q) (k : Z) (l : list Z) : Prop :=
  exists full, (forall i, In i full <-> 0 <= i < n /\ (threshold < s i)%Q) /\
    StronglySorted (fun i j => (s j < s i)%Q \/ ((s i == s j)%Q /\ i < j)) full /\
    ((k < 0 /\ l = full) \/ (0 <= k /\ l = firstn (Z.to_nat k) full)).
(** the threshold after [n] boxes were kept: eta shrinks it while it is above one half *)
Inductive limit (p : params) : nat -> Q -> Prop :=
| limit_0 : limit p 0 (nms p)
| limit_shrink n t : limit p n t -> (eta p < 1)%Q -> (half < t)%Q -> limit p (S n) (t * eta p)%Q
| limit_same n t : limit p n t -> ~ ((eta p < 1)%Q /\ (half < t)%Q) -> limit p (S n) t.
(** greedy: a box is kept exactly when it overlaps none of those kept before it by more
    than the limit *)
Inductive greedy (p : params) (boxes : Z -> corners) : list Z -> list Z -> list Z -> Prop :=
| greedy_end kept : greedy p boxes kept [] kept
| greedy_keep kept i l r t : limit p (length kept) t ->
    (forall k, In k kept -> exists o, overlaps (boxes i) (boxes k) o /\ (o <= t)%Q) ->
    greedy p boxes (kept ++ [i]) l r -> greedy p boxes kept (i :: l) r
| greedy_drop kept i l r t : limit p (length kept) t ->
    (exists k o, In k kept /\ overlaps (boxes i) (boxes k) o /\ (t < o)%Q) ->
    greedy p boxes kept l r -> greedy p boxes kept (i :: l) r.
Definition survivors (p : params) (n : Z) (s : Z -> Q) (boxes : Z -> corners) (l : list Z) : Prop :=
  exists cand, ranked n s (confidence p) (top p) cand /\ greedy p boxes [] cand l.

(** *** Which detections of one image are reported *)
Definition reported (p : params) (n : Z) (s : Z -> Z -> Q) (boxes : Z -> Z -> corners) (sel : list (Z * Z)) : Prop :=
  exists kept : Z -> list Z,
    (forall c, 0 <= c < classes p -> c <> background p -> survivors p n (s c) (boxes c) (kept c)) /\
    (forall c, ~ (0 <= c < classes p /\ c <> background p) -> kept c = []) /\
    let all := flat_map (fun c => map (fun k => (c, k)) (kept c)) (upto (classes p)) in
    NoDup all /\ NoDup sel /\ StronglySorted (fun x y => fst x <= fst y) sel /\ incl sel all /\
    ((keep_top p < 0 \/ Z.of_nat (length all) <= keep_top p) -> sel = all) /\
    (0 <= keep_top p < Z.of_nat (length all) -> Z.of_nat (length sel) = keep_top p /\
       forall x y, In x sel -> In y all -> ~ In y sel -> (s (fst y) (snd y) <= s (fst x) (snd x))%Q).

(** *** The numbers of the three inputs *)
Definition at_ (l : list Q) (i : Z) : Q := nth (Z.to_nat i) l 0%Q.
Definition corners_at (l : list Q) (i : Z) : corners := Corners (at_ l i) (at_ l (i + 1)) (at_ l (i + 2)) (at_ l (i + 3)).
Definition slot (p : params) (c : Z) : Z := if share p then 0 else c.
Definition prediction (p : params) (loc : list Q) (priors i c k : Z) : corners :=
  corners_at loc (((i * priors + k) * loc_classes p + slot p c) * 4).
Definition confidence_at (p : params) (conf : list Q) (priors i c k : Z) : Q :=
  at_ conf ((i * priors + k) * classes p + c).
Definition prior_at (prior : list Q) (k : Z) : corners := corners_at prior (k * 4).
Definition variance_at (prior : list Q) (priors k : Z) : corners := corners_at prior ((priors + k) * 4).

(** any sort: a permutation in descending order of score *)
Definition sorting (sort : list (Q * (Z * Z)) -> list (Q * (Z * Z))) : Prop :=
  forall l, Permutation (sort l) l /\ StronglySorted (fun x y => (fst y <= fst x)%Q) (sort l).
