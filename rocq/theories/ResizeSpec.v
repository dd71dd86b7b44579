(** What resizing an image means: positions, nearest pixels, interpolation. *)
From Coq Require Import List ZArith QArith Qabs Qround.
From Verif Require Import KernelBase.
Import ListNotations.
Local Open Scope Q_scope.

(** the centre of pixel [d] of [n'] in the coordinates of an axis of [n] pixels *)
Definition source_position (n n' d : Z) : Q := (inject_Z d + (1 # 2)) * (inject_Z n / inject_Z n') - (1 # 2).
(** a pixel of the axis at least as near as all others *)
Definition nearest_to (n : Z) (p : Q) (s : Z) : Prop :=
  (0 <= s < n)%Z /\ forall t, (0 <= t < n)%Z -> Qabs (inject_Z s - p) <= Qabs (inject_Z t - p).

Definition qsum (n : Z) (f : Z -> Q) : Q := fold_right (fun k s => f k + s) 0 (upto n).
(** interpolation with a kernel, along both axes *)
Definition interpolate (kernel : Q -> Q) (h w : Z) (v : Z -> Z -> Q) (py px : Q) : Q :=
  qsum h (fun y => qsum w (fun x => kernel (inject_Z y - py) * kernel (inject_Z x - px) * v y x)).
(** the kernel of linear interpolation *)
Definition tent (t : Q) : Q := if Qlt_le_dec (Qabs t) 1 then 1 - Qabs t else 0.
(** the kernel of cubic convolution (Keys) with parameter -3/4 *)
Definition keys (t : Q) : Q :=
  let a := - (3 # 4) in let u := Qabs t in
  if Qlt_le_dec u 1 then (a + 2) * u * u * u - (a + 3) * u * u + 1
  else if Qlt_le_dec u 2 then a * u * u * u - 5 * a * u * u + 8 * a * u - 4 * a else 0.

(** the position linear resizing samples at: [p] kept inside the axis, short of
    the last pixel by 1/100000 *)
Definition linear_sample (n : Z) (p q : Q) : Prop :=
  (p < 0 -> q == 0) /\ (0 <= p < inject_Z (n - 1) -> q == p) /\ (inject_Z (n - 1) <= p -> q == inject_Z (n - 1) - (1 # 100000)).
(** the position cubic resizing samples at: kept at least one pixel from the
    first and two from the last *)
Definition cubic_sample (n : Z) (p q : Q) : Prop :=
  (1 <= p < inject_Z (n - 3) -> q == p) /\ (p < 1 -> q == 1) /\ (inject_Z (n - 3) <= p -> q == inject_Z (n - 3)).

(** the size asked for on each axis: a negative entry keeps the axis *)
Definition asked (shape size : list Z) : list Z :=
  map (fun ab => if (snd ab <? 0)%Z then fst ab else snd ab) (combine shape size).
