(** What an LSTM layer computes (as ONNX defines it), without a stack.

    [w], [r] and [b] hold the four gates i, o, f, c one below the other: row
    g * hidden + j of [w] and [r] belongs to unit j of gate g; [b] holds the
    biases of [w] and then those of [r]. *)
From Coq Require Import List Arith.
Import ListNotations.

Section Spec.
Context {V : Type}.
Variables (zero : V) (add mul : V -> V -> V) (dot : list V -> list V -> V) (sigmoid tanh : V -> V).
Notation matrix := (list (list V)).

Definition grid (rows cols : nat) (f : nat -> nat -> V) : matrix := map (fun n => map (f n) (seq 0 cols)) (seq 0 rows).
Definition entry (m : matrix) (n j : nat) : V := nth j (nth n m []) zero.
Definition shaped (rows cols : nat) (m : matrix) : Prop := length m = rows /\ Forall (fun r => length r = cols) m.

Variables (batch hidden : nat) (w r : matrix) (b : list V).

Definition gate_value (act : V -> V) (g : nat) (x h : matrix) (n j : nat) : V :=
  act (add (add (dot (nth n x []) (nth (hidden * g + j) w [])) (nth (hidden * g + j) b zero))
           (add (dot (nth n h []) (nth (hidden * g + j) r [])) (nth (hidden * (4 + g) + j) b zero))).

(** the cell and the hidden state after one element of the sequence *)
Definition next_c (x h c : matrix) : matrix := grid batch hidden (fun n j =>
  add (mul (gate_value sigmoid 2 x h n j) (entry c n j)) (mul (gate_value sigmoid 0 x h n j) (gate_value tanh 3 x h n j))).
Definition next_h (x h c : matrix) : matrix := grid batch hidden (fun n j =>
  mul (gate_value sigmoid 1 x h n j) (tanh (entry (next_c x h c) n j))).

(** the states after each element *)
Fixpoint states (xs : list matrix) (h c : matrix) : list (matrix * matrix) :=
  match xs with
  | [] => []
  | x :: xs' => let h' := next_h x h c in let c' := next_c x h c in (h', c') :: states xs' h' c'
  end.
Definition final (xs : list matrix) (h c : matrix) : matrix * matrix := last (states xs h c) (h, c).
End Spec.
