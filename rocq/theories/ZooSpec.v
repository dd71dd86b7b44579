(** Windows of a tensor. *)
From Coq Require Import List ZArith.
From Verif Require Import ShapeSpec KernelBase KernelSpec.
Import ListNotations.
Local Open Scope Z_scope.

Definition shifted (starts c : list Z) : list Z := map (fun p => fst p + snd p) (combine starts c).
(** [out] is what is seen of [x] in a window of the shape [want] that starts at
    [starts] (which may lie outside of [x]), and [value] around [x] *)
Definition window {A} (value : A) (starts want : list Z) (x out : tensor A) : Prop :=
  t_dtype out = t_dtype x /\ t_shape out = want /\ length starts = length want /\
  forall c, inside want c ->
    (inside (t_shape x) (shifted starts c) -> elt out c = elt x (shifted starts c)) /\
    (~ inside (t_shape x) (shifted starts c) -> elt out c = Some value).
(** a window of [want] starting at [start] is in the middle of [size]: as much is
    left (or added) before as behind it, or one less *)
Definition central (size want start : Z) : Prop := let before := start in let behind := size - want - start in Z.abs (behind - before) <= 1.
(** the smallest multiple of [s] not below [y] *)
Definition least_multiple (s y z : Z) : Prop := (exists k, z = k * s) /\ y <= z < y + s.
