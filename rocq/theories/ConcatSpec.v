(** What concatenation along an axis means. *)
From Coq Require Import List ZArith.
From Verif Require Import ShapeSpec KernelBase KernelSpec.
Import ListNotations.
Local Open Scope Z_scope.

(** the size of a tensor along an axis *)
Definition size_at {A} (axis : nat) (t : tensor A) : Z := nth axis (t_shape t) 0.

(** two shapes that agree except along one axis *)
Definition same_but (axis : nat) (s s' : list Z) : Prop :=
  length s = length s' /\ forall j, j <> axis -> nth j s 0 = nth j s' 0.

(** [xs] can be put together along [axis] *)
Definition joinable {A} (axis : nat) (xs : list (tensor A)) : Prop :=
  xs <> [] /\ forall x y, In x xs -> In y xs ->
    t_dtype x = t_dtype y /\ same_but axis (t_shape x) (t_shape y) /\ (axis < length (t_shape x))%nat.

(** where the [i]-th piece begins *)
Definition offset {A} (axis : nat) (xs : list (tensor A)) (i : nat) : Z :=
  total (map (size_at axis) (firstn i xs)).

(** [out] is [xs] put together along [axis] *)
Definition joined {A} (axis : nat) (xs : list (tensor A)) (out : tensor A) : Prop :=
  (forall x, In x xs -> t_dtype out = t_dtype x /\ same_but axis (t_shape out) (t_shape x)) /\
  size_at axis out = total (map (size_at axis) xs) /\
  forall i x c, nth_error xs i = Some x -> inside (t_shape x) c ->
    elt out (at_axis axis (fun k => offset axis xs i + k) c) = elt x c.
