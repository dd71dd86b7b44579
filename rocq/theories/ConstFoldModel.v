(** Model of constant folding: run_const_node and Compiler::run_const_nodes
    (src/compiler/compiler.cpp 380-461). *)
From Coq Require Import List ZArith Bool.
From Verif Require Import StackModel GraphSpec GraphModel IntimeModel.
Import ListNotations.

Section ConstFoldModel.
Context {V Opr : Type}.
Notation graph := (graph V Opr).
Variable packV : list V -> V.
Variable oprun : Opr -> list V -> opres V.
(** OperatorCreator::Create succeeds (operator_factory.cpp 95-100) *)
Variable supported : Opr -> bool.
(** the stack of the workbench bound to the compiling thread *)
Variable bench : stack V.

(** The graph being extended (new nodes go to the temporary graph bound at
    compiler.cpp 108-109; here they are fresh numbers), and the two memo
    tables. *)
Record fstate := mkF {
  gr : graph;
  next : node;
  rconst : list (node * node);
  rnonconst : list (node * node)
}.

Inductive fres (A : Type) := FOk (a : A) | FErr | FFuel.
Arguments FOk {A} _.
Arguments FErr {A}.
Arguments FFuel {A}.

Definition add_const (st : fstate) (k c : node) : fstate :=
  mkF (gr st) (next st) ((k, c) :: rconst st) (rnonconst st).
Definition add_nonconst (st : fstate) (k c : node) : fstate :=
  mkF (gr st) (next st) (rconst st) ((k, c) :: rnonconst st).

(** ts::bubble::bubble + Node::Link (compiler.cpp 435-436), and
    ts::bubble::data (444) *)
Definition new_node (st : fstate) (k : nkind V Opr) (is : list node) : fstate :=
  let c := next st in
  mkF {| kind := fun n => if Nat.eqb n c then k else kind (gr st) n;
         ins := fun n => if Nat.eqb n c then is else ins (gr st) n |}
      (S c) (rconst st) (rnonconst st).

(** intime::run (compiler.cpp 443; frontend/intime.cpp 18-47).  `_field` and
    `_pack` are only registered as instruction creators
    (tensor_instruction.cpp 76-77), so creating them as operators throws. *)
Definition fold_value (k : nkind V Opr) (args : list V) : option V :=
  match k with
  | KOp o => if supported o then
               match intime_run packV (oprun o) args bench with
               | Done v _ => Some v
               | _ => None
               end
             else None
  | _ => None
  end.

Definition const_value (g : graph) (c : node) : option V :=
  match kind g c with KConst v => Some v | _ => None end.

(** compiler.cpp 415-429, the loop over the inputs *)
Section Inputs.
Variable rec : node -> fstate -> fres (node * bool * fstate).
Fixpoint fold_inputs (is : list node) (st : fstate) (cs : list V) (ns : list node)
    (all_const build_new : bool) : fres (list V * list node * bool * bool * fstate) :=
  match is with
  | [] => FOk (cs, ns, all_const, build_new, st)
  | i :: rest =>
      match rec i st with
      | FErr => FErr
      | FFuel => FFuel
      | FOk (c, isc, st1) =>
          let bn := build_new || negb (Nat.eqb c i) in
          if isc then
            match const_value (gr st1) c with
            | Some v => fold_inputs rest st1 (cs ++ [v]) (ns ++ [c]) all_const bn
            | None => FErr
            end
          else fold_inputs rest st1 cs (ns ++ [c]) false bn
      end
  end.
End Inputs.

(** compiler.cpp 386-450.  [alias] is true when the parameters [node] and
    [const_node] are the same variable, as in run_const_nodes (457-460): then
    the memo entry is made under the new node, not under the old one.
    Simplification: std::unordered_map::insert does not overwrite; here the
    key is never present already. *)
Fixpoint run_const_node (fuel : nat) (alias : bool) (n : node) (st : fstate)
  : fres (node * bool * fstate) :=
  match fuel with
  | O => FFuel
  | S fuel' =>
      match lookup (rnonconst st) n with
      | Some c => FOk (c, false, st)
      | None =>
          match lookup (rconst st) n with
          | Some c => FOk (c, true, st)
          | None =>
              match kind (gr st) n with
              | KVariable => FErr
              | KConst _ => FOk (n, true, add_const st n n)
              | KParam => FOk (n, false, add_nonconst st n n)
              | k =>
                  match fold_inputs (run_const_node fuel' false) (ins (gr st) n) st [] [] true false with
                  | FErr => FErr
                  | FFuel => FFuel
                  | FOk (cs, ns, all_const, build_new, st1) =>
                      if negb all_const then
                        if negb build_new then FOk (n, false, add_nonconst st1 n n)
                        else let c := next st1 in
                             FOk (c, false,
                                  add_nonconst (new_node st1 k ns) (if alias then c else n) c)
                      else
                        match fold_value k cs with
                        | None => FErr
                        | Some v =>
                            let c := next st1 in
                            FOk (c, true,
                                 add_const (new_node st1 (KConst v) []) (if alias then c else n) c)
                        end
                  end
              end
          end
      end
  end.

(** compiler.cpp 453-461 *)
Fixpoint run_const_nodes (fuel : nat) (nodes : list node) (st : fstate) (acc : list node)
  : fres (list node * fstate) :=
  match nodes with
  | [] => FOk (acc, st)
  | n :: rest =>
      match run_const_node fuel true n st with
      | FOk (c, _, st1) => run_const_nodes fuel rest st1 (acc ++ [c])
      | FErr => FErr
      | FFuel => FFuel
      end
  end.

Definition const_fold (fuel : nat) (g : graph) (fresh : node) (outputs : list node)
  : fres (list node * graph) :=
  match run_const_nodes fuel outputs (mkF g fresh [] []) [] with
  | FOk (outs, st) => FOk (outs, gr st)
  | FErr => FErr
  | FFuel => FFuel
  end.

End ConstFoldModel.

Arguments fres A : clear implicits.
Arguments FOk {A} _.
Arguments FErr {A}.
Arguments FFuel {A}.
Arguments fstate V Opr : clear implicits.
