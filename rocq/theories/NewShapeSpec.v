(** Shapes that hold the same elements, independently of the code. *)
From Coq Require Import List ZArith Bool.
From Verif Require Import ShapeSpec KernelBase.
Import ListNotations.
Local Open Scope Z_scope.

(** [y] is [x] with the shape [s]: the same elements in the same order *)
Definition with_shape {A} (x y : tensor A) (s : list Z) : Prop :=
  t_dtype y = t_dtype x /\ t_data y = t_data x /\ t_shape y = s.

(** [s] is what the request [target] makes of the shape [x]: a positive number
    is the size, 0 keeps the size of [x], a negative number stands for any size *)
Definition stands_for (target x s : list Z) : Prop :=
  length s = length target /\
  forall i t d, nth_error target i = Some t -> nth_error s i = Some d ->
    (0 < t -> d = t) /\ (t = 0 -> nth_error x i = Some d) /\ (t < 0 -> 0 <= d).

Definition wildcard (target : list Z) : Prop := exists t, In t target /\ t < 0.

Definition two_wildcards (target : list Z) : Prop :=
  exists a t b u c, target = a ++ t :: b ++ u :: c /\ t < 0 /\ u < 0.

(** the sizes whose number, counted from [k], is not in [axes] *)
Fixpoint drop (k : Z) (axes s : list Z) : list Z :=
  match s with
  | [] => []
  | d :: r => if existsb (Z.eqb k) axes then drop (k + 1) axes r else d :: drop (k + 1) axes r
  end.

(** increasing numbers, from [k] on *)
Fixpoint increasing (k : Z) (axes : list Z) : Prop :=
  match axes with [] => True | a :: r => k <= a /\ increasing (a + 1) r end.
