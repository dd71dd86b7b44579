(** Rounding and saturating, independently of how the code does it. *)
From Coq Require Import ZArith QArith Qabs.
Local Open Scope Q_scope.

Definition nearest (v : Q) (z : Z) : Prop := Qabs (v - inject_Z z) <= 1 # 2.
(** the nearest integer, of two the one farther from zero *)
Definition nearest_away (v : Q) (z : Z) : Prop := nearest v z /\ (Qabs (v - inject_Z z) == 1 # 2 -> Qabs v <= Qabs (inject_Z z)).
(** the byte nearest to an integer *)
Definition byte_of (z r : Z) : Prop := ((-128 <= z <= 127 /\ r = z) \/ (127 < z /\ r = 127) \/ (z < -128 /\ r = -128))%Z.
