(** What a fixed point word means. *)
From Coq Require Import ZArith.
Local Open Scope Z_scope.

(** [word w r x]: the [w]-bit word [x] is two's complement for [r]; as a
    fixed point number with [q] fractional bits it denotes r / 2^q *)
Definition word (w r x : Z) : Prop :=
  - 2 ^ (w - 1) <= r < 2 ^ (w - 1) /\ (0 <= r -> x = r) /\ (r < 0 -> x = r + 2 ^ w).
Definition representable (w r : Z) : Prop := - 2 ^ (w - 1) <= r < 2 ^ (w - 1).
Definition sink_width (w : Z) : Prop := w = 8 \/ w = 16 \/ w = 32.
