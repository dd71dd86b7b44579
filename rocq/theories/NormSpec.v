(** What softmax, l2_norm and norm_image have to compute. *)
From Coq Require Import List ZArith.
From Verif Require Import ShapeModel ShapeSpec KernelBase KernelSpec LoopModel.
Import ListNotations.
Local Open Scope Z_scope.

Section Spec.
Context {R : Type} (rO rI : R) (radd rmul rsub rdiv : R -> R -> R) (fsqrt fexp : R -> R) (ofZ : Z -> R).

(** the sum of [f] over a list *)
Definition sum_over {X} (l : list X) (f : X -> R) : R := fold_right (fun k s => radd (f k) s) rO l.
(** the element at a coordinate *)
Definition val (x : tensor R) (c : list Z) : R := match elt x c with Some v => v | None => rO end.
(** the element at [c] with the index along [axis] replaced by [j] *)
Definition along (x : tensor R) (axis : nat) (c : list Z) (j : Z) : R := val x (at_axis axis (fun _ => j) c).
(** the sum of [f] of the elements in the row of [c] along [axis] *)
Definition row_sum (x : tensor R) (axis : nat) (c : list Z) (f : R -> R) : R :=
  sum_over (upto (nth axis (t_shape x) 0)) (fun j => f (along x axis c j)).

(** same type, same shape, [f c] at [c] *)
Definition tabulates (x : tensor R) (f : list Z -> R) (out : tensor R) : Prop :=
  wf out /\ t_dtype out = t_dtype x /\ t_shape out = t_shape x /\ forall c, inside (t_shape x) c -> elt out c = Some (f c).

Definition softmaxed (axis : nat) (x out : tensor R) : Prop :=
  tabulates x (fun c => rdiv (fexp (val x c)) (row_sum x axis c fexp)) out.
Definition normalised (axis : nat) (epsilon : R) (x out : tensor R) : Prop :=
  tabulates x (fun c => rdiv (val x c) (fsqrt (radd (row_sum x axis c (fun v => rmul v v)) epsilon))) out.

(** the sum of [f] over the elements of image [n]; [loops] lists all the
    coordinates of a shape *)
Definition image_sum (x : tensor R) (n : Z) (f : R -> R) : R :=
  sum_over (loops (tl (t_shape x))) (fun c => f (val x (n :: c))).
Definition mean (x : tensor R) (n : Z) : R := rdiv (image_sum x n (fun v => v)) (ofZ (elements (tl (t_shape x)))).
Definition deviation (x : tensor R) (n : Z) : R :=
  fsqrt (rdiv (image_sum x n (fun v => rmul (rsub v (mean x n)) (rsub v (mean x n)))) (ofZ (elements (tl (t_shape x))))).
Definition standardised (epsilon : R) (x out : tensor R) : Prop :=
  tabulates x (fun c => rmul (rsub (val x c) (mean x (hd 0 c))) (rdiv rI (radd (deviation x (hd 0 c)) epsilon))) out.

(** what is needed of the exponential: it is positive, turns differences into
    quotients, and sums of positive numbers are not zero *)
Definition exponential (positive : R -> Prop) : Prop :=
  (forall v, positive (fexp v)) /\ (forall a b, positive a -> positive b -> positive (radd a b)) /\ ~ positive rO /\
  forall a b, fexp (rsub a b) = rdiv (fexp a) (fexp b).
End Spec.
