(** Padding and cropping. *)
From Coq Require Import List ZArith.
From Verif Require Import ShapeSpec KernelBase KernelSpec.
Import ListNotations.
Local Open Scope Z_scope.

(** a coordinate moved back by the leading paddings *)
Definition moved (pads : list (Z * Z)) (c : list Z) : list Z :=
  map (fun cp => fst cp - fst (snd cp)) (combine c pads).

Definition padded {A} (pads : list (Z * Z)) (value : A) (x out : tensor A) : Prop :=
  t_dtype out = t_dtype x /\
  t_shape out = map (fun sp => fst sp + fst (snd sp) + snd (snd sp)) (combine (t_shape x) pads) /\
  forall c, inside (t_shape out) c ->
    (inside (t_shape x) (moved pads c) -> elt out c = elt x (moved pads c)) /\
    (~ inside (t_shape x) (moved pads c) -> elt out c = Some value).
