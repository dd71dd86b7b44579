(** Broadcasting as numpy defines it. *)
From Coq Require Import List ZArith.
From Verif Require Import ShapeSpec KernelBase KernelSpec.
Import ListNotations.
Local Open Scope Z_scope.

(** [o] is the broadcast of two shapes of the same rank *)
Definition axis_broadcast (a b o : Z) : Prop := (a = b /\ o = a) \/ (a = 1 /\ o = b) \/ (b = 1 /\ o = a).

Inductive same_rank_broadcast : list Z -> list Z -> list Z -> Prop :=
| sb_nil : same_rank_broadcast [] [] []
| sb_cons a b o l r s : axis_broadcast a b o -> same_rank_broadcast l r s -> same_rank_broadcast (a :: l) (b :: r) (o :: s).

(** the shorter shape is extended by ones in front *)
Definition aligned (rank : nat) (s : list Z) : list Z := repeat 1 (rank - length s) ++ s.

Definition broadcast (l r o : list Z) : Prop :=
  same_rank_broadcast (aligned (Nat.max (length l) (length r)) l) (aligned (Nat.max (length l) (length r)) r) o.

(** the coordinate an operand of shape [s] shows at [c]: the last axes of
    [c], and zero along the axes of size one *)
Definition shown (s c : list Z) : list Z :=
  map (fun dk => if fst dk =? 1 then 0 else snd dk) (combine s (skipn (length c - length s) c)).

(** [out] combines the operands element by element *)
Definition combined {A} (op : A -> A -> A) (dtype : Z) (convert : Z -> A -> A) (l r out : tensor A) : Prop :=
  t_dtype out = dtype /\ broadcast (t_shape l) (t_shape r) (t_shape out) /\
  forall c, inside (t_shape out) c ->
    inside (t_shape l) (shown (t_shape l) c) /\ inside (t_shape r) (shown (t_shape r) c) /\
    exists a b, elt l (shown (t_shape l) c) = Some a /\ elt r (shown (t_shape r) c) = Some b /\
      elt out c = Some (op (convert (t_dtype l) a) (convert (t_dtype r) b)).
