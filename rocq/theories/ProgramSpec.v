(** What a user sees of a program, and when two programs are the same to him. *)
From Coq Require Import String List ZArith Bool.
From Verif Require Import ShapeModel OperatorModel ProgramModel.
Import ListNotations.

Section Spec.
Context {V : Type} (is_empty : V -> bool).

(** the same instruction, with an operator of the same kind and parameters *)
Definition same_instr (t : state (V := V)) (a b : instr) : Prop :=
  match a, b with
  | Other x, Other y => x = y
  | Operator i, Operator j => exists c o o', nth_error (ops t) i = Some (c, o) /\ nth_error (ops t) j = Some (c, o') /\ forall p, get o' p = get o p
  | _, _ => False
  end.
Definition both {A} (R : A -> A -> Prop) (a b : option A) : Prop :=
  match a, b with None, None => True | Some x, Some y => R x y | _, _ => False end.
(** alike down to [n] levels of filters; alike: for every [n] *)
Fixpoint alike (n : nat) (t : state (V := V)) (p q : nat) : Prop :=
  match n with
  | O => True
  | S n' => exists g h, nth_error (progs t) p = Some g /\ nth_error (progs t) q = Some h /\
      Forall2 (same_instr t) (instrs g) (instrs h) /\
      in_slots h = in_slots g /\ out_slots h = out_slots g /\ in_types h = in_types g /\ out_types h = out_types g /\ segment h = segment g /\
      Forall2 (both (alike n' t)) (filters g) (filters h)
  end.

(** [t] is [s] with more objects *)
Definition extends (s t : state (V := V)) : Prop := exists os ps, ops t = (ops s ++ os)%list /\ progs t = (progs s ++ ps)%list.

Definition operators_of (g : program) : list nat := flat_map (fun i => match i with Operator o => [o] | Other _ => [] end) (instrs g).
(** what belongs to a program alone *)
Definition own (s : state (V := V)) (p : nat) : option (program * list (option (nat * operator V))) :=
  option_map (fun g => (g, map (nth_error (ops s)) (operators_of g))) (nth_error (progs s) p).
(** the program an event changes *)
Definition changes (e : event (V := V)) (p : nat) : Prop :=
  match e with Set_ q _ _ _ | Bind q _ _ => q = p | _ => False end.

(** the first place where a name stands *)
Definition first_place (names : list string) (n : string) (i : nat) : Prop :=
  nth_error names i = Some n /\ forall j, j < i -> nth_error names j <> Some n.

(** every operator has its required parameters *)
Definition complete (s : state (V := V)) : Prop := forall i c o, nth_error (ops s) i = Some (c, o) -> init is_empty o = SOk o.
End Spec.
