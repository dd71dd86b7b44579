(** Where an affine sampling looks, and what truncation means. *)
From Coq Require Import ZArith QArith.
Local Open Scope Q_scope.

(** a row (a, b, c) of the matrix applied to the pixel in column [x] and row [y] *)
Definition image_of (a b c : Q) (y x : Z) : Q := a * inject_Z x + b * inject_Z y + c.
(** a pixel taken by cutting off the fraction, kept inside the axis *)
Definition cut_to (n : Z) (p : Q) (s : Z) : Prop :=
  (p < 1 -> s = 0%Z) /\ (inject_Z (n - 1) <= p -> s = (n - 1)%Z) /\ (0 <= p < inject_Z n -> inject_Z s <= p < inject_Z s + 1).
(** a location inside the image, its last row and column excluded *)
Definition well_inside (h w : Z) (py px : Q) : Prop := 0 <= py < inject_Z (h - 1) /\ 0 <= px < inject_Z (w - 1).
(** where cubic sampling does not touch the border *)
Definition cubic_inside (h w : Z) (py px : Q) : Prop := 1 <= py < inject_Z (h - 3) /\ 1 <= px < inject_Z (w - 3).
(** the shape of the largest picture of the proportions h : w that fits in h' : w' *)
Definition fit_scale (h w h' w' : Z) (s : Q) : Prop :=
  s * inject_Z h <= inject_Z h' /\ s * inject_Z w <= inject_Z w' /\ (s * inject_Z h == inject_Z h' \/ s * inject_Z w == inject_Z w').
