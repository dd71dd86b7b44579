(** Nested counting loops, shared by the models of the kernels that run over a
    fixed number of axes. *)
From Coq Require Import List ZArith.
From Verif Require Import ShapeModel KernelBase.
Import ListNotations.
Local Open Scope Z_scope.

(** for (a = 0; a < n0; ++a) for (b = 0; b < n1; ++b) ...: the values of the
    loop variables, in the order of execution *)
Fixpoint loops (sizes : list Z) : list (list Z) :=
  match sizes with
  | [] => [[]]
  | n :: rest => flat_map (fun i => map (cons i) (loops rest)) (upto n)
  end.

(** the same, with a counter starting at zero and incremented each time *)
Definition counted {A} (l : list A) : list (Z * A) := combine (upto (Z.of_nat (length l))) l.
