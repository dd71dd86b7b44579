(** What pooling is. *)
From Coq Require Import List ZArith Bool.
From Verif Require Import KernelBase.
Import ListNotations.
Local Open Scope Z_scope.

(** the positions of a [kh x kw] window with its corner at (a, b) that lie
    in an [h x w] image, row by row *)
Definition cells (h w a b kh kw : Z) : list (Z * Z) :=
  filter (fun p => (0 <=? fst p) && (fst p <? h) && ((0 <=? snd p) && (snd p <? w)))
    (list_prod (map (Z.add a) (upto kh)) (map (Z.add b) (upto kw))).

(** [v] is a greatest element of [l] *)
Definition greatest {T} (ltb : T -> T -> bool) (v : T) (l : list T) : Prop :=
  In v l /\ forall u, In u l -> ltb v u = false.

(** an order that may treat different elements alike: floats other than NaN *)
Definition weak_order {T} (ltb : T -> T -> bool) : Prop :=
  (forall a b, ltb a b = true -> ltb b a = false) /\ (forall a b c, ltb a c = true -> ltb a b = true \/ ltb b c = true).

(** every window meets the image along an axis: [x] elements, windows of
    [k] elements every [s], the first one beginning [before] outside *)
Definition all_meet (x before k s windows : Z) : Prop :=
  forall i, 0 <= i < windows -> exists y, 0 <= y < x /\ i * s - before <= y < i * s - before + k.

(** the number of windows of [k] elements every [s] that it takes to cover
    [size] elements *)
Definition covering (size k s windows : Z) : Prop :=
  1 <= windows /\ size <= (windows - 1) * s + k /\ (1 < windows -> (windows - 2) * s + k < size).
