(** Picking slices, stacking and cropping. *)
From Coq Require Import List ZArith.
From Verif Require Import ShapeSpec KernelBase KernelSpec.
Import ListNotations.
Local Open Scope Z_scope.

(** slice [k] of the result along [axis] is slice [shuffle k] of [x] *)
Definition shuffled {A} (axis : nat) (shuffle : list Z) (x out : tensor A) : Prop :=
  t_dtype out = t_dtype x /\
  t_shape out = at_axis axis (fun _ => Z.of_nat (length shuffle)) (t_shape x) /\
  forall c, inside (t_shape out) c ->
    elt out c = elt x (at_axis axis (fun k => nth (Z.to_nat k) shuffle 0) c).

(** one more axis *)
Definition insert_at (axis : nat) (v : Z) (l : list Z) : list Z := firstn axis l ++ v :: skipn axis l.

(** tensors of one type and shape *)
Definition alike {A} (xs : list (tensor A)) : Prop :=
  forall x y, In x xs -> In y xs -> t_dtype x = t_dtype y /\ t_shape x = t_shape y.

(** slice [i] of the result along the new axis is the [i]-th tensor *)
Definition stacked {A} (axis : nat) (xs : list (tensor A)) (out : tensor A) : Prop :=
  (forall x, In x xs -> t_dtype out = t_dtype x /\ t_shape out = insert_at axis (Z.of_nat (length xs)) (t_shape x)) /\
  forall i x c, nth_error xs i = Some x -> inside (t_shape x) c ->
    elt out (insert_at axis (Z.of_nat i) c) = elt x c.

(** the window of [x] that begins at [offset] and is as large as [y] from
    [axis] on; zero outside of [x] *)
Definition cropped {A} (axis : nat) (offset y_shape : list Z) (zero : A) (x out : tensor A) : Prop :=
  t_dtype out = t_dtype x /\
  t_shape out = firstn axis (t_shape x) ++ skipn axis y_shape /\
  forall c, inside (t_shape out) c ->
    let c' := firstn axis c ++ map (fun ko => fst ko + snd ko) (combine (skipn axis c) offset) in
    (inside (t_shape x) c' -> elt out c = elt x c') /\
    (~ inside (t_shape x) c' -> elt out c = Some zero).
