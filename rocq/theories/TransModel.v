(** Model of the graph rewriting passes: Translator::translate
    (src/compiler/translater.cpp 20-101) and Zipper::zip
    (src/compiler/zipper.cpp 22-82).

    Nodes are numbers; a new node gets the next number.  A rewriting option
    (TranslatorOption::translate, ZipperOption::zip) is an arbitrary function
    on the graph built so far; it answers whether it applies, the node it
    stored into its output argument (if any) and the graph it leaves. *)
From Coq Require Import List ZArith Bool Arith.
From Verif Require Import StackModel GraphSpec GraphModel.
Import ListNotations.

Section TransModel.
Context {V Opr : Type}.
Notation graph := (graph V Opr).

(** The graph and the number the next new node gets. *)
Record gstate := mkG { gg : graph; gn : node }.

Definition rule := gstate -> node -> bool -> bool * option node * gstate.

(** bubble::bubble: a new node with the given content (module/menu.cpp) *)
Definition gnew (s : gstate) (k : nkind V Opr) (is : list node) : gstate :=
  mkG {| kind := fun n => if Nat.eqb n (gn s) then k else kind (gg s) n;
         ins := fun n => if Nat.eqb n (gn s) then is else ins (gg s) n |} (S (gn s)).

(** Node::Link (include/module/graph.h 40-66), the effect on the inputs *)
Definition glink (s : gstate) (t : node) (is : list node) : gstate :=
  mkG {| kind := kind (gg s);
         ins := fun n => if Nat.eqb n t then is else ins (gg s) n |} (gn s).

(** translater.cpp 33-38, zipper.cpp 36-39: rules in order until one applies;
    [cur] is the node stored so far *)
Fixpoint try_rules (rules : list rule) (s : gstate) (n : node) (flag : bool) (cur : node)
  : node * gstate :=
  match rules with
  | [] => (cur, s)
  | r :: rest =>
      let '(applies, t, s1) := r s n flag in
      let cur' := match t with Some x => x | None => cur end in
      if applies then (cur', s1) else try_rules rest s1 n flag cur'
  end.

(** The graph and the memo table (ready_map). *)
Record tstate := mkT { tg : gstate; ready : list (node * node) }.

Inductive tres (A : Type) := TOk (a : A) | TFuel.
Arguments TOk {A} _.
Arguments TFuel {A}.

(** std::unordered_map::insert: an existing entry stays *)
Definition insert_new (m : list (node * node)) (k c : node) : list (node * node) :=
  match lookup m k with Some _ => m | None => (k, c) :: m end.

Section Inputs.
Variable rec : node -> tstate -> tres (node * tstate).
(** translater.cpp 40-45 *)
Fixpoint translate_list (is : list node) (st : tstate) : tres (list node * tstate) :=
  match is with
  | [] => TOk ([], st)
  | i :: rest =>
      match rec i st with
      | TFuel => TFuel
      | TOk (c, st1) =>
          match translate_list rest st1 with
          | TFuel => TFuel
          | TOk (cs, st2) => TOk (c :: cs, st2)
          end
      end
  end.
End Inputs.

Variable rules : list rule.

(** translater.cpp 20-56 *)
Fixpoint translate_node (fuel : nat) (flag : bool) (n : node) (st : tstate)
  : tres (node * tstate) :=
  match fuel with
  | O => TFuel
  | S fuel' =>
      match lookup (ready st) n with
      | Some c => TOk (c, st)
      | None =>
          let '(t, s1) := try_rules rules (tg st) n flag n in
          match translate_list (translate_node fuel' false) (ins (gg s1) t) (mkT s1 (ready st)) with
          | TFuel => TFuel
          | TOk (cs, st2) =>
              if Nat.eqb t n then
                let c := gn (tg st2) in
                TOk (c, mkT (gnew (tg st2) (kind (gg (tg st2)) n) cs) (insert_new (ready st2) n c))
              else
                TOk (t, mkT (glink (tg st2) t cs) (insert_new (ready st2) n t))
          end
      end
  end.

(** translater.cpp 58-101 without the module-level rules (74-77), which are
    not registered anywhere: the new outputs, the new inputs and the graph.
    Simplification: Module::Load and sort_inputs (98-99) are not repeated
    here; they are in ModuleModel.v. *)
Definition translate (fuel : nat) (g : graph) (fresh : node) (outputs inputs : list node)
  : tres (list node * list node * graph) :=
  match rules with
  | [] => TOk (outputs, inputs, g)
  | _ =>
      match translate_list (translate_node fuel true) outputs (mkT (mkG g fresh) []) with
      | TFuel => TFuel
      | TOk (outs, st1) =>
          match translate_list (translate_node fuel true) inputs st1 with
          | TFuel => TFuel
          | TOk (inps, st2) => TOk (outs, inps, gg (tg st2))
          end
      end
  end.

(** zipper.cpp 44-52: also remembers whether an input changed *)
Definition changed (is cs : list node) : bool :=
  negb (forallb (fun p => Nat.eqb (fst p) (snd p)) (combine is cs)).

(** zipper.cpp 22-61 *)
Fixpoint zip_node (fuel : nat) (n : node) (st : tstate) : tres (node * tstate) :=
  match fuel with
  | O => TFuel
  | S fuel' =>
      match lookup (ready st) n with
      | Some c => TOk (c, st)
      | None =>
          let '(t, s1) := try_rules rules (tg st) n false n in
          match translate_list (zip_node fuel') (ins (gg s1) t) (mkT s1 (ready st)) with
          | TFuel => TFuel
          | TOk (cs, st2) =>
              if changed (ins (gg s1) t) cs then
                let c := gn (tg st2) in
                TOk (c, mkT (gnew (tg st2) (kind (gg (tg st2)) t) cs) (insert_new (ready st2) n c))
              else
                TOk (t, mkT (tg st2) (insert_new (ready st2) n t))
          end
      end
  end.

(** zipper.cpp 63-82 *)
Definition zip (fuel : nat) (g : graph) (fresh : node) (nodes : list node)
  : tres (list node * graph) :=
  match rules with
  | [] => TOk (nodes, g)
  | _ =>
      match translate_list (zip_node fuel) nodes (mkT (mkG g fresh) []) with
      | TFuel => TFuel
      | TOk (outs, st) => TOk (outs, gg (tg st))
      end
  end.

End TransModel.

Arguments gstate V Opr : clear implicits.
Arguments rule V Opr : clear implicits.
Arguments tstate V Opr : clear implicits.
Arguments tres A : clear implicits.
Arguments TOk {A} _.
Arguments TFuel {A}.
