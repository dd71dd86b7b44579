(** What permuting the axes of a tensor means. *)
From Coq Require Import List ZArith Permutation.
From Verif Require Import ShapeSpec KernelBase KernelSpec.
Import ListNotations.
Local Open Scope Z_scope.

(** [perm] lists 0, ..., n-1 in some order *)
Definition is_permutation (perm : list Z) : Prop :=
  Permutation perm (map Z.of_nat (seq 0 (length perm))).

(** entry [i] of the result is entry [perm i] *)
Definition permuted (perm l : list Z) : list Z := map (fun p => nth (Z.to_nat p) l 0) perm.

(** [n] axes, the missing ones in front of size one *)
Definition with_rank {A} (n : nat) (x : tensor A) : tensor A :=
  Tn (t_dtype x) (repeat 1 (n - length (t_shape x)) ++ t_shape x) (t_data x).

(** [out] is [x] with its axes permuted *)
Definition transposed {A} (perm : list Z) (x out : tensor A) : Prop :=
  t_dtype out = t_dtype x /\ t_shape out = permuted perm (t_shape x) /\
  forall c, inside (t_shape x) c -> elt out (permuted perm c) = elt x c.

(** the permutation that exchanges the last two of [n] axes *)
Definition swap_last (n : nat) : list Z := map Z.of_nat (seq 0 (n - 2) ++ [n - 1; n - 2]%nat).
