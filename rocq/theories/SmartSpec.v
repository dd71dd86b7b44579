(** Which variables keep an object alive. *)
From Coq Require Import List ZArith Bool.
From Verif Require Import SmartModel.
Import ListNotations.

(** does a variable own object [c] *)
Definition owns (c : nat) (v : option handle) : bool :=
  match v with Some (Handle SMART (Some d)) => Nat.eqb c d | _ => false end.
(** how many do *)
Fixpoint owners (c : nat) (l : list (option handle)) : nat :=
  match l with [] => 0 | v :: r => (if owns c v then 1 else 0) + owners c r end.

(** two lists of events interleaved, each in its own order *)
Inductive interleaving {A} : list A -> list A -> list A -> Prop :=
| Inil : interleaving [] [] []
| Ileft a x y z : interleaving x y z -> interleaving (a :: x) y (a :: z)
| Iright a x y z : interleaving x y z -> interleaving x (a :: y) (a :: z).

(** the operations that touch a variable that does not exist *)
Definition missing (s : state) (o : op) : Prop :=
  match o with
  | Make => False
  | Copy i | Move i | Destroy i | Dispose i | Weak i | Strong i | Use i => var s i = None
  | Assign i j | MoveAssign i j => var s i = None \/ var s j = None
  end.
(** a weak pointer to an object without owners is followed *)
Definition dangling (s : state) (o : op) : Prop :=
  exists i c, (o = Strong i \/ o = Use i) /\ var s i = Some (Handle MANUALLY (Some c)) /\ owners c (vars s) = 0%nat.

(** a history without an explicit dispose *)
Definition no_dispose (l : list op) : Prop := forall i, ~ In (Dispose i) l.
