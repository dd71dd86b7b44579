(** How many windows of [k] pixels, [s] apart, there are over [n] pixels. *)
From Coq Require Import ZArith.
Local Open Scope Z_scope.

(** one window for every [s] pixels, the last one possibly incomplete: ceil(n / s) *)
Definition one_per_stride (n s q : Z) : Prop := (q - 1) * s < n <= q * s.
(** as many as fit *)
Definition as_fit (n k s q : Z) : Prop := (q - 1) * s + k <= n < q * s + k.
(** as many as it takes to cover all, the last one still starting inside *)
Definition as_cover (n k s q : Z) : Prop :=
  (q - 1) * s < n /\ (n <= (q - 1) * s + k \/ n <= q * s) /\ (2 <= q -> (q - 2) * s + k < n).
