(** Model of Compiler::compile from the construction of the instruction block
    on (src/compiler/compiler.cpp 143-378).  Constant folding (380-461)
    is in ConstFoldModel.v.  The device converter and the zipper steps that precede are
    modelled separately (they are graph rewrites). *)
From Coq Require Import List ZArith Bool.
From Verif Require Import StackModel GraphSpec GraphModel.
Import ListNotations.

Section CompilerModel.
Context {V Opr : Type}.
Notation graph := (graph V Opr).
Notation instr := (instr Opr).

(** OperatorCreator::Query (compiler.cpp 73-75): is the operator supported on
    the computing device; and the bubble's output_count (92-94). *)
Variable supported : Opr -> bool.
Variable output_count : Opr -> Z.

Definition is_param (g : graph) (n : node) : bool :=
  match kind g n with KParam => true | _ => false end.

(** compiler.cpp 65-96: convert_operator_instruction.  [None] = error. *)
Definition convert_op (g : graph) (n : node) : option (list instr) :=
  match kind g n with
  | KOp o => if supported o && (output_count o =? 1)%Z
             then Some [IOp o (Z.of_nat (length (ins g n))) (output_count o)]
             else None
  | KField off => if (length (ins g n) =? 1) && (0 <=? off)%Z
                  then Some [IField off] else None
  | KPack => Some [IPack (length (ins g n))]
  | _ => None
  end.

(** The local variables of [compile]: the simulated stack (bottom first),
    [working_nodes], [unsolved_node_count], the data segment with its
    node->index map, and the instructions in order of emission. *)
Record cstate := mkC {
  sim : list node;
  working : list (node * nat);
  unsolved : nat;
  datamap : list (node * nat);
  data : list V;
  insts : list instr
}.

Definition remove_key (m : list (node * nat)) (n : node) : list (node * nat) :=
  filter (fun p => negb (Nat.eqb n (fst p))) m.

(** compiler.cpp 188-201: simulator_push *)
Definition sim_push (g : graph) (st : cstate) (n : node) : cstate :=
  let i := length (sim st) in
  let w := match lookup (working st) n with
           | None => (n, i) :: working st
           | Some p => if i <? p then update (working st) n i else working st
           end in
  mkC (sim st ++ [n]) w
      (if is_param g n then unsolved st else S (unsolved st))
      (datamap st) (data st) (insts st).

(** compiler.cpp 206-219: simulator_pop *)
Definition sim_pop (g : graph) (st : cstate) : cstate :=
  match rev (sim st) with
  | [] => st
  | n :: _ =>
      let i := length (sim st) - 1 in
      let w := match lookup (working st) n with
               | Some p => if p =? i then remove_key (working st) n else working st
               | None => working st
               end in
      mkC (removelast (sim st)) w
          (if is_param g n then unsolved st else unsolved st - 1)
          (datamap st) (data st) (insts st)
  end.

(** compiler.cpp 227-247: simulator_swap, indices non-negative as in both
    call sites *)
Definition sim_swap (st : cstate) (i j : nat) : cstate :=
  let ni := nth i (sim st) 0 in
  let nj := nth j (sim st) 0 in
  let w1 := match lookup (working st) ni with
            | Some p => if p =? i then update (working st) ni j else working st
            | None => working st
            end in
  let w2 := match lookup w1 nj with
            | Some p => if p =? j then update w1 nj i else w1
            | None => w1
            end in
  mkC (set_nth (set_nth (sim st) i nj) j ni) w2 (unsolved st)
      (datamap st) (data st) (insts st).

(** compiler.cpp 253-279: the two downward searches.  [find_last p l] is the
    greatest index whose element satisfies [p]. *)
Fixpoint find_last_from (p : node -> bool) (l : list node) (i : nat) : option nat :=
  match i with
  | O => None
  | S i' => if p (nth i' l 0) then Some i' else find_last_from p l i'
  end.
Definition find_last (p : node -> bool) (l : list node) : option nat :=
  find_last_from p l (length l).

Definition emit (st : cstate) (is : list instr) : cstate :=
  mkC (sim st) (working st) (unsolved st) (datamap st) (data st) (insts st ++ is).

(** compiler.cpp 167-182: push_data_sagment; the device attribute only
    selects where the constant is stored *)
Definition push_data (st : cstate) (n : node) (v : V) : nat * cstate :=
  match lookup (datamap st) n with
  | Some k => (k, st)
  | None => let k := length (data st) in
            (k, mkC (sim st) (working st) (unsolved st)
                    ((n, k) :: datamap st) (data st ++ [v]) (insts st))
  end.

Definition memb (n : node) (l : list node) : bool := existsb (Nat.eqb n) l.

Inductive cres (A : Type) := COk (a : A) | CErr | CFuel.
Arguments COk {A} _.
Arguments CErr {A}.
Arguments CFuel {A}.

(** compiler.cpp 285-336: one iteration of the main loop.  [simulator.back()]
    of an empty deque is excluded because unsolved nodes are in it
    (invariant); an empty simulator is reported as an error here. *)
Definition step (g : graph) (refs : list (node * list node)) (st : cstate) : option cstate :=
  match rev (sim st) with
  | [] => None
  | n :: _ =>
      let i := length (sim st) - 1 in
      (* case 1 *)
      let dup := match lookup (working st) n with
                 | Some p => if p <? i then Some p else None
                 | None => None
                 end in
      match dup with
      | Some p => Some (sim_pop g (emit st [IPush (Z.of_nat p)]))
      | None =>
          match kind g n with
          | KConst v =>                                   (* case 2-0 *)
              let (k, st') := push_data st n v in
              Some (sim_pop g (emit st' [IData k]))
          | KVariable => None                             (* case 2-1 *)
          | KParam =>                                     (* case 2 *)
              match find_last (fun m => negb (is_param g m)) (sim st) with
              | Some j => Some (sim_swap (emit st [ISwap (Z.of_nat i) (Z.of_nat j)]) i j)
              | None => None
              end
          | _ =>
              match find_last (fun m => memb n (refs_of refs m)) (sim st) with
              | Some j =>                                 (* case 3 *)
                  Some (sim_swap (emit st [ISwap (Z.of_nat i) (Z.of_nat j)]) i j)
              | None =>                                   (* case 4 *)
                  match convert_op g n with
                  | None => None
                  | Some is =>
                      Some (fold_left (sim_push g) (ins g n)
                              (sim_pop g (emit st (rev is))))
                  end
              end
          end
      end
  end.

(** compiler.cpp 285: [while (unsolved_node_count)] *)
Fixpoint loop (fuel : nat) (g : graph) (refs : list (node * list node)) (st : cstate) : cres cstate :=
  match unsolved st with
  | O => COk st
  | S _ => match fuel with
           | O => CFuel
           | S fuel' => match step g refs st with
                        | Some st' => loop fuel' g refs st'
                        | None => CErr
                        end
           end
  end.

(** compiler.cpp 359-360: [working_input_nodes] maps each input to the number
    of distinct inputs before it. *)
Fixpoint input_index (inputs : list node) (m : list (node * nat)) : list (node * nat) :=
  match inputs with
  | [] => m
  | n :: t => input_index t (map_insert m n (length m))
  end.

Definition nodes_eqb (a b : list node) : bool :=
  if list_eq_dec Nat.eq_dec a b then true else false.

Record block := mkBlock {
  b_nargs : nat;
  b_nresults : nat;
  b_data : list V;
  b_insts : list instr
}.

(** compiler.cpp 338-378: input check, input prologue, reversal *)
Definition epilogue (inputs outputs : list node) (st : cstate) : cres block :=
  if forallb (fun n => memb n inputs) (sim st) then
    let fin :=
      if nodes_eqb (sim st) inputs then insts st
      else
        let idx := input_index inputs [] in
        insts st
        ++ [IErase 0 (- Z.of_nat (length (sim st)))]
        ++ map (fun n => IPush (Z.of_nat (match lookup idx n with Some k => k | None => 0 end)))
               (rev (sim st)) in
    COk (mkBlock (length inputs) (length outputs) (data st) (rev fin))
  else CErr.

Definition init_state (g : graph) (outputs : list node) : cstate :=
  fold_left (sim_push g) outputs (mkC [] [] 0 [] [] []).

(** compiler.cpp 143-378, after constant folding *)
Definition compile (fuel : nat) (g : graph) (inputs outputs : list node) : cres block :=
  match list_reference_nodes fuel g outputs with
  | None => CFuel
  | Some sched =>
      match loop fuel g (build_refs g sched []) (init_state g outputs) with
      | COk st => epilogue inputs outputs st
      | CErr => CErr
      | CFuel => CFuel
      end
  end.

End CompilerModel.

Arguments cres A : clear implicits.
Arguments COk {A} _.
Arguments CErr {A}.
Arguments CFuel {A}.
Arguments cstate V Opr : clear implicits.
Arguments block V Opr : clear implicits.
