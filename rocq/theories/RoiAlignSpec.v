(** What aligning a region of interest means: independent of the code. *)
From Coq Require Import List ZArith QArith Qminmax.
From Verif Require Import KernelBase ResizeSpec.
Import ListNotations.

(** a map at a place: linear interpolation at the nearest place of the map, and
    nothing more than one cell outside it *)
Definition within (n : Z) (p : Q) : Prop := (-(1) <= p /\ p <= inject_Z n)%Q.
Definition held (n : Z) (p : Q) : Q := Qmax 0 (Qmin p (inject_Z (n - 1))).
Definition value_at (h w : Z) (v : Z -> Z -> Q) (y x : Q) (s : Q) : Prop :=
  (within h y /\ within w x /\ s == interpolate tent h w v (held h y) (held w x))%Q \/
  (~ (within h y /\ within w x) /\ s == 0)%Q.
(** the number of samples along one side of a bin: given, or one to a cell *)
Definition samples (ratio : Z) (bin : Q) (k : Z) : Prop :=
  ((0 < ratio)%Z /\ k = ratio) \/ ((ratio <= 0)%Z /\ (inject_Z k - 1 < bin /\ bin <= inject_Z k)%Q).
(** the side of a region, at least 1, and of one of its bins *)
Definition side (scale a b : Q) : Q := Qmax (b * scale - a * scale) 1.
(** sample [i] of [k] in bin [p]: the middle of the i-th of k equal parts of the bin *)
Definition place (start bin : Q) (p i k : Z) : Q := (start + bin * (inject_Z p + (inject_Z i + (1 # 2)) / inject_Z k))%Q.
(** the mean of the samples of bin (ph, pw) of the region (x1, y1, x2, y2) *)
Definition bin_mean (scale : Q) (ratio pool_h pool_w h w : Z) (v : Z -> Z -> Q) (x1 y1 x2 y2 : Q) (ph pw : Z) (m : Q) : Prop :=
  exists kh kw (s : Z -> Z -> Q),
    let bh := (side scale y1 y2 / inject_Z pool_h)%Q in let bw := (side scale x1 x2 / inject_Z pool_w)%Q in
    samples ratio bh kh /\ samples ratio bw kw /\ (0 < kh)%Z /\ (0 < kw)%Z /\
    (forall i j, (0 <= i < kh)%Z -> (0 <= j < kw)%Z -> value_at h w v (place (y1 * scale) bh ph i kh) (place (x1 * scale) bw pw j kw) (s i j)) /\
    (m * (inject_Z kh * inject_Z kw) == qsum kh (fun i => qsum kw (fun j => s i j)))%Q.
