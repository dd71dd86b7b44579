(** Weighted sums of the channels of a pixel. *)
From Coq Require Import List ZArith.
Import ListNotations.
Local Open Scope Z_scope.

(** ((0 + w0*a0) + w1*a1) + ... *)
Fixpoint weighted {A S F} (mul : F -> A -> S) (add : S -> S -> S) (acc : S) (w : list F) (row : list A) : S :=
  match w, row with
  | s :: w', a :: row' => weighted mul add (add acc (mul s a)) w' row'
  | _, _ => acc
  end.
