(** What an iteration denotes: a flat sequence of steps. *)
From Coq Require Import ZArith NArith List Bool.
From Verif Require Import ScanModel.
Import ListNotations.

Fixpoint unroll (it : iteration) : list Z :=
  match it with
  | Null => []
  | Step t s => repeat s (N.to_nat t)
  | Iters t l => concat (repeat (concat (map unroll l)) (N.to_nat t))
  end.

(** no null pointer inside *)
Fixpoint built (it : iteration) : Prop :=
  match it with
  | Null => False
  | Step _ _ => True
  | Iters _ l => (fix all l := match l with [] => True | c :: r => built c /\ all r end) l
  end.

(** the reference loop: the sequence and a position *)
Definition flat_step (st : list Z * nat) (o : lop) : option Z * (list Z * nat) :=
  let '(l, p) := st in
  match o with
  | Next => (Some (nth p l finish), (l, if p <? length l then S p else p)%nat)
  | Current => (Some (nth p l finish), st)
  | Rewind => (None, (l, O))
  | Bind it => (None, (unroll it, O))
  end.
Fixpoint flat_run (st : list Z * nat) (l : list lop) : list (option Z) :=
  match l with
  | [] => []
  | o :: r => fst (flat_step st o) :: flat_run (snd (flat_step st o)) r
  end.

Definition op_built (o : lop) : Prop := match o with Bind it => built it | _ => True end.

(** every iteration that is run at least once has something to run *)
Fixpoint no_empty_group (it : iteration) : Prop :=
  match it with
  | Null => True
  | Step _ _ => True
  | Iters t l => t = 0%N \/
      (concat (map unroll l) <> [] /\ (fix all l := match l with [] => True | c :: r => no_empty_group c /\ all r end) l)
  end.

(** nothing in it is run zero times *)
Fixpoint trimmed (it : iteration) : Prop :=
  match it with
  | Null => False
  | Step t _ => t <> 0%N
  | Iters t l => t <> 0%N /\ l <> [] /\ (fix all l := match l with [] => True | c :: r => trimmed c /\ all r end) l
  end.
