(** Model of compiled programs as objects: src/runtime/program.cpp 54-188
    (Compile, clone), 194-283, OperatorInstruction::clone
    (src/runtime/instruction.cpp 90-104) and the head of Workbench::run_hook
    (src/runtime/workbench.cpp 584-602).

    Simplifications: an operator is the record of OperatorModel, with the number
    of its creator ([decl] gives what the constructor declares); other
    instructions and the data segment are numbers; std::mutex objects are
    numbered; init is that of the base class. *)
From Coq Require Import String List ZArith Bool.
From Verif Require Import ShapeModel OperatorModel.
Import ListNotations.
Local Open Scope string_scope.

Section Program.
Context {V : Type} (is_empty : V -> bool) (text : V -> string) (decl : nat -> list (string * attr * option V)).

Inductive instr := Operator (o : nat) | Other (what : nat).
(** include/runtime/program.h 76-102 *)
Record program := Program {
  instrs : list instr;
  in_slots : list (string * nat); out_slots : list (string * nat);
  in_names : list string; out_names : list string;
  in_types : list Z; out_types : list Z;
  filters : list (option nat);
  segment : nat; lock : nat
}.
(** operator objects with their creators, programs, and how many locks there are *)
Record state := State { ops : list (nat * operator V); progs : list program; locks : nat }.

Fixpoint set_at {A} (n : nat) (a : A) (l : list A) : list A :=
  match l, n with [], _ => [] | _ :: t, O => a :: t | x :: t, S n' => x :: set_at n' a t end.

(** std::map::insert: a name that is there already keeps its slot *)
Definition has_name (m : list (string * nat)) (n : string) : bool := existsb (fun e => String.eqb (fst e) n) m.
Fixpoint slots_from (m : list (string * nat)) (i : nat) (names : list string) : list (string * nat) :=
  match names with
  | [] => m
  | n :: r => slots_from (if has_name m n then m else (m ++ [(n, i)])%list) (S i) r
  end.
Fixpoint slot_of (m : list (string * nat)) (n : string) : option nat :=
  match m with [] => None | (k, i) :: r => if String.eqb k n then Some i else slot_of r n end.
(** 208-224; [None]: throws *)
Definition input_slot (g : program) (n : string) : option nat := slot_of (in_slots g) n.
Definition output_slot (g : program) (n : string) : option nat := slot_of (out_slots g) n.
(** 226-232 *)
Definition input_count (g : program) : nat := length (in_types g).
Definition output_count (g : program) : nat := length (out_types g).

(** instructions and the operators made for them, the first with number [base];
    a source is an instruction of another kind, or a creator with parameters *)
Fixpoint build (base : nat) (src : list (nat + nat * list (string * V))) : sres (list instr * list (nat * operator V)) :=
  match src with
  | [] => SOk ([], [])
  | inl w :: r =>
      match build base r with SOk (is, os) => SOk (Other w :: is, os) | SErr => SErr | SUndef => SUndef end
  | inr (c, ps) :: r =>
      match create is_empty (constructed (decl c)) ps with
      | SOk o => match build (S base) r with SOk (is, os) => SOk (Operator base :: is, (c, o) :: os) | SErr => SErr | SUndef => SUndef end
      | SErr => SErr
      | SUndef => SUndef
      end
  end.
(** instruction.cpp 90-104: the creator and the present parameters *)
Fixpoint sources (s : state) (is : list instr) : option (list (nat + nat * list (string * V))) :=
  match is with
  | [] => Some []
  | Other w :: r => option_map (cons (inl w)) (sources s r)
  | Operator i :: r =>
      match nth_error (ops s) i with
      | Some (c, o) => option_map (cons (inr (c, params o))) (sources s r)
      | None => None
      end
  end.

Inductive result := Done (s : state) (p : nat) | Refused (s : state) | Hangs | Undef | NoFuel.

(** 54-143: inputs and outputs with their names and types *)
Definition compile (s : state) (src : list (nat + nat * list (string * V))) (ins outs : list (string * Z)) : result :=
  match build (length (ops s)) src with
  | SOk (is, os) =>
      Done (State (ops s ++ os)
                  (progs s ++ [Program is (slots_from [] 0 (map fst ins)) (slots_from [] 0 (map fst outs)) (map fst ins) (map fst outs)
                                       (map snd ins) (map snd outs) (repeat None (length ins)) (locks s) (locks s)])
                  (S (locks s))) (length (progs s))
  | SErr => Refused s
  | SUndef => Undef
  end.

(** 157-160 *)
Inductive copies := Copied (s : state) (l : list (option nat)) | Stopped (r : result).
Fixpoint each (f : state -> nat -> result) (s : state) (l : list (option nat)) : copies :=
  match l with
  | [] => Copied s []
  | None :: r => match each f s r with Copied s' l' => Copied s' (None :: l') | e => e end
  | Some q :: r =>
      match f s q with
      | Done s1 q' => match each f s1 r with Copied s2 l' => Copied s2 (Some q' :: l') | e => e end
      | e => Stopped e
      end
  end.
(** 145-176; [held]: the locks of the clones under way.  std::mutex is not
    recursive: taking it again hangs.  What a failing clone has made is given
    back. *)
Fixpoint clone_program (fuel : nat) (held : list nat) (s : state) (p : nat) : result :=
  match fuel with
  | O => NoFuel
  | S fuel' =>
      match nth_error (progs s) p with
      | None => Undef
      | Some g =>
          if existsb (Nat.eqb (lock g)) held then Hangs else
          match each (clone_program fuel' (lock g :: held)) s (filters g) with
          | Stopped (Refused _) => Refused s
          | Stopped r => r
          | Copied s1 fs =>
              match sources s1 (instrs g) with
              | None => Undef
              | Some src =>
                  match build (length (ops s1)) src with
                  | SOk (is, os) =>
                      Done (State (ops s1 ++ os)
                                  (progs s1 ++ [Program is (in_slots g) (out_slots g) [] [] (in_types g) (out_types g) fs (segment g) (lock g)])
                                  (locks s1)) (length (progs s1))
                  | SErr => Refused s
                  | SUndef => Undef
                  end
              end
          end
      end
  end.
Definition clone_of (s : state) (p : nat) : result := clone_program (S (locks s)) [] s p.

(** src/runtime/operator.cpp 214-217 *)
Definition name_of (o : operator V) : string := match find "#name" (params o) with Some v => text v | None => "" end.
(** 258-267: the operators afterwards, and whether nothing was thrown *)
Fixpoint set_param (os : list (nat * operator V)) (is : list instr) (node param : string) (v : V) : list (nat * operator V) * bool :=
  match is with
  | [] => (os, true)
  | Other _ :: r => set_param os r node param v
  | Operator i :: r =>
      match nth_error os i with
      | None => (os, false)
      | Some (c, o) =>
          if String.eqb (name_of o) node then
            match set_ o param v with
            | SOk o1 => match init is_empty o1 with
                        | SOk _ => set_param (set_at i (c, o1) os) r node param v
                        | _ => (set_at i (c, o1) os, false)
                        end
            | _ => (os, false)
            end
          else set_param os r node param v
      end
  end.

Inductive event :=
| Compile (src : list (nat + nat * list (string * V))) (ins outs : list (string * Z))
| Clone (p : nat)
| Set_ (p : nat) (node param : string) (v : V)
| Bind (p : nat) (slot : nat) (filter : option nat).

Definition with_filter (g : program) (slot : nat) (f : option nat) : program :=
  Program (instrs g) (in_slots g) (out_slots g) (in_names g) (out_names g) (in_types g) (out_types g) (set_at slot f (filters g)) (segment g) (lock g).

Definition step (s : state) (e : event) : result :=
  match e with
  | Compile src ins outs => compile s src ins outs
  | Clone p => clone_of s p
  | Set_ p node param v =>
      match nth_error (progs s) p with
      | None => Undef
      | Some g => let (os, fine) := set_param (ops s) (instrs g) node param v in
                  let s' := State os (progs s) (locks s) in if fine then Done s' p else Refused s'
      end
  | Bind p slot f =>                                   (* 246-256 *)
      match nth_error (progs s) p with
      | None => Undef
      | Some g =>
          if Nat.leb (input_count g) slot then Refused s else
          let bind := Done (State (ops s) (set_at p (with_filter g slot f) (progs s)) (locks s)) p in
          match f with
          | None => bind
          | Some q =>
              match nth_error (progs s) q with
              | None => Undef
              | Some h => if Nat.eqb (input_count h) 1 && Nat.eqb (output_count h) 1 then bind else Refused s
              end
          end
      end
  end.
Fixpoint history (s : state) (l : list event) : option state :=
  match l with
  | [] => Some s
  | e :: r => match step s e with Done s' _ | Refused s' => history s' r | _ => None end
  end.
Definition start : state := State [] [] 0.

(** workbench.cpp 589-602: the values of the inputs under their names *)
Fixpoint save (m : list (string * V)) (n : string) (v : V) : list (string * V) :=
  match m with [] => [(n, v)] | (k, w) :: r => if String.eqb k n then (k, v) :: r else (k, w) :: save r n v end.
Fixpoint hook_inputs (m : list (string * V)) (count : nat) (values : list V) (names : list string) : sres (list (string * V)) :=
  match count with
  | O => SOk m
  | S n => match values, names with
           | v :: vs, k :: ks => hook_inputs (save m k v) n vs ks
           | _, _ => SUndef                             (* out of range *)
           end
  end.
Definition run_hook_inputs (g : program) (values : list V) : sres (list (string * V)) := hook_inputs [] (input_count g) values (in_names g).
End Program.
