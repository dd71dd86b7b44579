(** The contract of std::partial_sort, and what "the k greatest" means. *)
From Coq Require Import List ZArith Bool Permutation.
Import ListNotations.
Local Open Scope Z_scope.

(** a strict weak ordering of the elements of P: what the C++ standard asks of a comparison *)
Definition strict_weak {A} (P : A -> Prop) (lt : A -> A -> bool) : Prop :=
  (forall a, P a -> lt a a = false) /\
  (forall a b c, P a -> P b -> P c -> lt a b = true -> lt b c = true -> lt a c = true) /\
  (forall a b c, P a -> P b -> P c -> lt a b = false -> lt b c = false -> lt a c = false).

(** [alg.partial.sort]: a rearrangement whose first k elements are those that a
    sort would put there, in order *)
Definition partial_sort_contract (psort : nat -> (Z -> Z -> bool) -> list Z -> list Z) : Prop :=
  forall k cmp l, (k <= length l)%nat -> strict_weak (fun a => In a l) cmp ->
    Permutation l (psort k cmp l) /\
    forall i j, (i < j < length l)%nat -> (i < k)%nat -> cmp (nth j (psort k cmp l) 0) (nth i (psort k cmp l) 0) = false.

(** [sel] lists, greatest first, the positions of [k] of the greatest of the
    values [f 0 .. f (w-1)] *)
Definition greatest {A} (gt : A -> A -> bool) (w : Z) (f : Z -> A) (k : nat) (sel : list Z) : Prop :=
  length sel = k /\ NoDup sel /\ (forall i, In i sel -> 0 <= i < w) /\
  (forall p q, (p < q < k)%nat -> gt (f (nth q sel 0)) (f (nth p sel 0)) = false) /\
  (forall i j, In i sel -> 0 <= j < w -> ~ In j sel -> gt (f j) (f i) = false).
