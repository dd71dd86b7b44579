(** What the operations mean on lists (std::vector). *)
From Coq Require Import List Bool Arith.
From Verif Require Import OtlModel.
Import ListNotations.

Section Spec.
Context {T : Type}.
(** [None]: the caller breaks std::vector's own precondition *)
Definition list_op (l : list T) (o : op T) : option (list T) :=
  match o with
  | FromRange l' | FromList l' => Some l'
  | Fill n x => Some (repeat x n)
  | Resize n x => Some (firstn n l ++ repeat x (n - length l))
  | EraseAt i => if i <? length l then Some (firstn i l ++ skipn (S i) l) else None
  | Erase i j => if (i <=? j) && (j <=? length l) then Some (firstn i l ++ skipn j l) else None
  | Insert i x => if i <=? length l then Some (firstn i l ++ x :: skipn i l) else None
  | InsertRange i l' => if i <=? length l then Some (firstn i l ++ l' ++ skipn i l) else None
  | PushBack x => Some (l ++ [x])
  | PopBack => match l with [] => None | _ => Some (removelast l) end
  | Clear => Some []
  | Set_ i x => if i <? length l then Some (firstn i l ++ x :: skipn (S i) l) else None
  end.

(** the sequence of lists the operations go through stays within the capacity,
    and resize is only used on an empty vector *)
Fixpoint within (cap : nat) (l : list T) (ops : list (op T)) : Prop :=
  match ops with
  | [] => True
  | o :: r => match o with Resize _ _ => l = [] | _ => True end /\
              match list_op l o with
              | Some l' => length l' <= cap /\ within cap l' r
              | None => False
              end
  end.
Fixpoint list_ops (l : list T) (ops : list (op T)) : option (list T) :=
  match ops with
  | [] => Some l
  | o :: r => match list_op l o with Some l' => list_ops l' r | None => None end
  end.
End Spec.
