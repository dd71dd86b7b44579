(** IEEE 754 binary formats: what a bit pattern means. *)
From Coq Require Import ZArith.
Local Open Scope Z_scope.
From Verif Require Import HalfModel.

(** the bit pattern with these three fields *)
Definition pack (f : format) (s e m : Z) : Z := (s * 2 ^ exponent f + e) * 2 ^ fraction f + m.
Definition fields (f : format) (s e m : Z) : Prop :=
  (s = 0 \/ s = 1) /\ 0 <= e < 2 ^ exponent f /\ 0 <= m < 2 ^ fraction f.
Definition format_ok (f : format) : Prop := 2 <= exponent f /\ 1 <= fraction f.
(** a bit pattern, and one of a finite number *)
Definition pattern (f : format) (c : Z) : Prop := exists s e m, fields f s e m /\ c = pack f s e m.
Definition finite (f : format) (c : Z) : Prop := exists s e m, fields f s e m /\ e < 2 ^ exponent f - 1 /\ c = pack f s e m.

(** the exponent of the smallest positive number of the format *)
Definition ulp_min (f : format) : Z := 2 - 2 ^ (exponent f - 1) - fraction f.

(** [means f K c v]: the finite pattern [c] denotes the number [v * 2^-K];
    (-1)^s * m * 2^ulp_min if e = 0, (-1)^s * (2^fraction + m) * 2^(e-1) *
    2^ulp_min otherwise *)
Definition means (f : format) (K c v : Z) : Prop :=
  exists s e m, fields f s e m /\ e < 2 ^ exponent f - 1 /\ c = pack f s e m /\
    v = (1 - 2 * s) * (if e =? 0 then m else (2 ^ fraction f + m) * 2 ^ (e - 1)) * 2 ^ (K + ulp_min f).

(** the numbers the format represents with full precision: 2^(1-bias) <= |v| < 2^(bias+1) *)
Definition normal_range (f : format) (K v : Z) : Prop :=
  2 ^ (K + 2 - 2 ^ (exponent f - 1)) <= Z.abs v < 2 ^ (K + 2 ^ (exponent f - 1)).

(** zero or normal in a format *)
Definition full_precision (f : format) (K v : Z) : Prop := v = 0 \/ 2 ^ (K + 2 - 2 ^ (exponent f - 1)) <= Z.abs v.
