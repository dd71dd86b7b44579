(** Model of the parameters of an operator: src/runtime/operator.cpp 20-137,
    178-198 (has, set, get, clear, clear_params, clear_fields, field,
    unsatisfied_fields, check_params, init), of creating an operator from the
    parameters of a node (src/runtime/workbench.cpp 270-288) and of copying one
    (src/runtime/instruction.cpp 90-104).

    Simplifications: a tensor is an abstract value of which only emptiness
    matters; a hash map is a list of pairs in the order it is iterated, a hash
    set a list; the text of error messages is left out; [init] is that of the
    base class, which every operator calls first. *)
From Coq Require Import Ascii String List Bool.
From Verif Require Import ShapeModel.
Import ListNotations.

Section Operator.
Context {V : Type} (is_empty : V -> bool).

Record operator := Op { params : list (string * V); optional : list string; required : list string; strict : bool }.
Definition fresh_operator : operator := Op [] [] [] true.

Inductive attr := OPTIONAL | REQUIRED.

(** std::unordered_map *)
Fixpoint find (p : string) (m : list (string * V)) : option V :=
  match m with [] => None | (q, v) :: r => if String.eqb q p then Some v else find p r end.
Definition erase (p : string) (m : list (string * V)) : list (string * V) := filter (fun e => negb (String.eqb (fst e) p)) m.
(** find, then insert or assign *)
Fixpoint assign (p : string) (v : V) (m : list (string * V)) : list (string * V) :=
  match m with
  | [] => [(p, v)]
  | (q, w) :: r => if String.eqb q p then (q, v) :: r else (q, w) :: assign p v r
  end.
(** std::unordered_set *)
Definition mem (p : string) (l : list string) : bool := existsb (String.eqb p) l.
Definition add (p : string) (l : list string) : list string := if mem p l then l else p :: l.

(** retention_param_sign *)
Definition retention (p : string) : bool := match p with String c _ => Ascii.eqb c "#"%char | EmptyString => false end.
Definition is_in_fields (o : operator) (p : string) : bool := mem p (optional o) || mem p (required o).

(** 22-24 *)
Definition has (o : operator) (p : string) : bool := match find p (params o) with Some _ => true | None => false end.
(** 26-38 *)
Definition set_ (o : operator) (p : string) (v : V) : sres operator :=
  if negb (retention p) && negb (is_in_fields o p) && strict o then SErr else
  SOk (Op (assign p v (params o)) (optional o) (required o) (strict o)).
(** 40-51 *)
Definition get (o : operator) (p : string) : sres V := match find p (params o) with Some v => SOk v | None => SErr end.
(** 53-60 *)
Definition clear (o : operator) (p : string) : sres operator :=
  match find p (params o) with
  | None => SErr
  | Some _ => SOk (Op (erase p (params o)) (optional o) (required o) (strict o))
  end.
(** 62-73 *)
Definition clear_params (o : operator) : operator :=
  Op (filter (fun e => retention (fst e)) (params o)) (optional o) (required o) (strict o).
(** 75-81 *)
Definition clear_fields (o : operator) : operator :=
  Op (fold_left (fun m p => erase p m) (required o) (params o)) [] [] (strict o).
(** 93-105 *)
Definition field (o : operator) (p : string) (a : attr) : operator :=
  match a with
  | OPTIONAL => Op (params o) (add p (optional o)) (required o) (strict o)
  | REQUIRED => Op (erase p (params o)) (optional o) (add p (required o)) (strict o)
  end.
(** 83-91 *)
Definition field_default (o : operator) (p : string) (a : attr) (v : V) : operator :=
  let o' := field o p a in Op (assign p v (params o')) (optional o') (required o') (strict o').
(** 107-116 *)
Definition unsatisfied_fields (o : operator) : list string :=
  filter (fun p => match find p (params o) with None => true | Some v => is_empty v end) (required o).
(** 118-127 *)
Definition check_params (o : operator) : bool :=
  negb (strict o) || forallb (fun p => match find p (params o) with None => false | Some v => negb (is_empty v) end) (required o).
(** 178-198 *)
Definition init (o : operator) : sres operator := if check_params o then SOk o else SErr.
(** 231-233 *)
Definition set_mode (o : operator) (m : bool) : operator := Op (params o) (optional o) (required o) m.

Fixpoint set_all (o : operator) (ps : list (string * V)) : sres operator :=
  match ps with
  | [] => SOk o
  | (p, v) :: r => match set_ o p v with SOk o' => set_all o' r | SErr => SErr | SUndef => SUndef end
  end.
(** workbench.cpp 277-283: [o] as its constructor leaves it *)
Definition create (o : operator) (ps : list (string * V)) : sres operator :=
  match set_all o ps with SOk o' => init o' | SErr => SErr | SUndef => SUndef end.
(** instruction.cpp 90-104: [made] is what the creator returns *)
Definition clone (made o : operator) : sres operator := create made (params o).

(** the declarations in a constructor *)
Definition declare (o : operator) (d : string * attr * option V) : operator :=
  match d with
  | (p, a, None) => field o p a
  | (p, a, Some v) => field_default o p a v
  end.
Definition constructed (ds : list (string * attr * option V)) : operator := fold_left declare ds fresh_operator.
End Operator.
Arguments operator : clear implicits.
