(** Patches around landmarks, independently of the loops. *)
From Coq Require Import List ZArith QArith.
From Verif Require Import ShapeSpec KernelBase KernelSpec.
Import ListNotations.

(** the nearest integer, halves upwards *)
Definition nearest_up (v : Q) (z : Z) : Prop := (inject_Z z - (1 # 2) <= v /\ v < inject_Z z + (1 # 2))%Q.
(** where a patch of [p] pixels centred at the relative position [v] of an axis of [len] pixels would start *)
Definition ideal_start (v : Q) (len p : Z) : Q := (v * inject_Z (len - 1) - inject_Z (p - 1) / 2)%Q.
(** the element of an image batch at a pixel; zero outside the image *)
Definition or_zero (x : tensor Q) (h w : Z) (n c i j : Z) (v : Q) : Prop :=
  ((0 <= i < h)%Z /\ (0 <= j < w)%Z /\ elt x [n; c; i; j] = Some v) \/ (~ ((0 <= i < h)%Z /\ (0 <= j < w)%Z) /\ v = 0%Q).
