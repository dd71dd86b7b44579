(** What splitting a range means. *)
From Coq Require Import List ZArith.
Import ListNotations.
Local Open Scope Z_scope.

(** the integers from [b] up to, not including, [e] *)
Definition range (b e : Z) : list Z := map (fun i => b + Z.of_nat i) (seq 0 (Z.to_nat (e - b))).

(** the indices covered by a list of ranges, in order *)
Definition indices (l : list (Z * Z)) : list Z := concat (map (fun p => range (fst p) (snd p)) l).

(** the quotient rounded up *)
Definition ceil_div (a b : Z) : Z := (a + b - 1) / b.
