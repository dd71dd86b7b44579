(** What convolution at displaced places means: independent of the code. *)
From Coq Require Import List ZArith QArith Qcanon.
From Verif Require Import KernelBase KernelSpec ResizeSpec.
Import ListNotations.

(** the number at a coordinate of a tensor *)
Definition at_ (t : tensor Qc) (c : list Z) : Q := match elt t c with Some v => this v | None => 0%Q end.

(** the number of places a window of [k] taps, [dil] apart, has on an axis of [n]
    cells with [pad] cells on either side *)
Definition places (n pad k stride dil p : Z) : Prop :=
  (0 < p /\ (p - 1) * stride + dil * (k - 1) + 1 <= n + 2 * pad < p * stride + dil * (k - 1) + 1)%Z.

(** tap (p, q) of the window at (i, j), for the maps of deformable group [g]: the
    map interpolated at the place of the tap displaced by the offsets, times the mask;
    the map is 0 outside its cells *)
Definition tap_value (x off mask : tensor Qc) (H W KH KW n c g i j p q si sj di dj pi pj : Z) : Q :=
  let t := (g * (KH * KW) + (p * KW + q))%Z in
  (interpolate tent H W (fun y x0 => at_ x [n; c; y; x0])
     (inject_Z (i * si + p * di - pi) + at_ off [n; 2 * t; i; j]%Z)
     (inject_Z (j * sj + q * dj - pj) + at_ off [n; 2 * t + 1; i; j]%Z) * at_ mask [n; t; i; j])%Q.
