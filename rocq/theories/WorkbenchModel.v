(** Model of launching programs on a workbench: Workbench::launch_online and
    launch_offline (src/runtime/workbench.cpp 410-530), and of the stateful
    interface on top of them: setup, input, run, output (124-134, 171-196,
    498-508).

    Simplifications: device contexts, profiling, hooks and the memory device of
    an argument are not modelled (push and clone_push coincide, see
    StackModel.v); the program environment stack is the call structure of
    [launch_online]; compiled programs contain no jumps. *)
From Coq Require Import List ZArith Bool.
From Verif Require Import StackModel IntimeModel.
Import ListNotations.

Section WorkbenchModel.
Context {V Opr : Type}.
Variable packV : list V -> V.
Variable fieldV : V -> Z -> option V.
Variable oprun : Opr -> list V -> opres V.
(** workbench.cpp 395-407: [adjust_nhwc]; [None] is its error *)
Variable adjust : V -> option V.
Notation stack := (stack V).

(** include/runtime/program.h: instructions, data segment, the number of
    inputs and outputs, and per input the optional filter program and the
    optional cast (what running the cast operator does to its frame). *)
Inductive program :=
| Program (insts : list (instr Opr)) (data : list V) (nin nout : nat)
          (cfg : list (option program * option (list V -> opres V))).

Definition p_insts (p : program) := let (i, _, _, _, _) := p in i.
Definition p_data (p : program) := let (_, d, _, _, _) := p in d.
Definition p_nin (p : program) := let (_, _, n, _, _) := p in n.
Definition p_nout (p : program) := let (_, _, _, n, _) := p in n.
Definition p_cfg (p : program) := let (_, _, _, _, c) := p in c.

(** the [need pop_base] guard *)
Definition base_guard {A} (r : outcome V A) : outcome V A :=
  match r with
  | Done a s => Done a (pop_base s)
  | Throw s => Throw (pop_base s)
  | Undef => Undef
  end.

(** workbench.cpp 334-349: [cast_tensor] *)
Definition cast_tensor (c : list V -> opres V) (s : stack) : outcome V unit :=
  match run_operator c 1 s with
  | Done k s1 => if (k =? 1)%Z then Done tt s1 else Throw s1
  | Throw s1 => Throw s1
  | Undef => Undef
  end.

(** workbench.cpp 442-465: the loop over the arguments.  [launch] is the
    recursive call that runs a filter.  An input without an entry in [cfg]
    would be an index outside m_input_filters (Program::Compile makes it as
    long as the inputs). *)
Section Prepare.
Variable launch : program -> nat -> stack -> outcome V Z.
Variable nargs : nat.

Definition run_filter (flt : option program) (arg : V) (s1 : stack) : outcome V unit :=
  match flt with
  | None => Done tt s1
  | Some q =>
      match adjust arg with
      | None => Throw s1
      | Some a =>
          match erase1 (push s1 a) (-2) with
          | Done _ s2 =>
              match launch q 1 s2 with
              | Done _ s3 => Done tt s3
              | Throw s3 => Throw s3
              | Undef => Undef
              end
          | Throw s2 => Throw s2
          | Undef => Undef
          end
      end
  end.

Definition run_cast (cst : option (list V -> opres V)) (s2 : stack) : outcome V unit :=
  match cst with None => Done tt s2 | Some c => cast_tensor c s2 end.

Fixpoint prepare (cfg : list (option program * option (list V -> opres V))) (todo : nat)
    (s : stack) {struct cfg} : outcome V unit :=
  match cfg, todo with
  | _, O => Done tt s
  | [], S _ => Undef
  | (flt, cst) :: cfg', S todo' =>
      match index s (- Z.of_nat nargs) with
      | None => Throw s
      | Some arg =>
          match run_filter flt arg (push s arg) with
          | Done _ s2 =>
              match run_cast cst s2 with
              | Done _ s3 => prepare cfg' todo' s3
              | Throw s3 => Throw s3
              | Undef => Undef
              end
          | Throw s2 => Throw s2
          | Undef => Undef
          end
      end
  end.
End Prepare.

(** workbench.cpp 466-495: drop the original arguments, run, check *)
Definition finish (insts : list (instr Opr)) (data : list V) (nout nargs : nat) (s1 : stack) : outcome V Z :=
  match erase s1 0 (Z.of_nat nargs) with
  | Done _ s2 =>
      match run_list packV fieldV oprun data insts s2 with
      | Done _ s3 =>
          if negb (size s3 =? Z.of_nat nout)%Z then Throw s3 else Done (size s3) s3
      | Throw s3 => Throw s3
      | Undef => Undef
      end
  | Throw s2 => Throw s2
  | Undef => Undef
  end.

(** workbench.cpp 410-496 *)
Fixpoint launch_online (p : program) (nargs : nat) (s : stack) {struct p} : outcome V Z :=
  match p with
  | Program insts data nin nout cfg =>
      if negb (Nat.eqb nin nargs) then Throw s
      else if (size s <? Z.of_nat nargs)%Z then Throw s
      else
        match push_base s (- Z.of_nat nargs) with
        | Done _ s0 =>
            base_guard
              (match prepare launch_online nargs cfg nargs s0 with
               | Done _ s1 => finish insts data nout nargs s1
               | Throw s1 => Throw s1
               | Undef => Undef
               end)
        | Throw s0 => Throw s0
        | Undef => Undef
        end
  end.

(** workbench.cpp 510-530 *)
Definition launch_offline (p : program) (args : list V) (s : stack) : outcome V (list V) :=
  match push_base s (size s) with
  | Done _ s1 =>
      guarded (match launch_online p (length args) (push_all s1 args) with
               | Done k s2 => Done (firstn (Z.to_nat k) (frame s2)) s2
               | Throw s2 => Throw s2
               | Undef => Undef
               end)
  | Throw s1 => Throw s1
  | Undef => Undef
  end.

(** *** The stateful interface.  An input or output that was never set is an
    empty tensor, [empty]. *)
Variable empty : V.

Record bench := mkBench {
  b_stack : stack;
  b_desktop : option program;
  b_inputs : list V;
  b_outputs : list V
}.

Inductive call :=
| CSetup (p : option program)      (* workbench.cpp 498-508 *)
| CInput (slot : Z) (v : V)        (* 171-176 *)
| CRun                             (* 124-134 *)
| COutput (slot : Z).              (* 178-183 *)

(** std::vector::resize *)
Definition resize (l : list V) (n : nat) : list V := firstn n l ++ repeat empty (n - length l).

Inductive reply := ROk | RErr | RVal (v : V) | RUndef.

Definition step (b : bench) (c : call) : bench * reply :=
  match c with
  | CSetup None => (mkBench (b_stack b) None [] [], ROk)
  | CSetup (Some p) =>
      (mkBench (b_stack b) (Some p) (resize (b_inputs b) (p_nin p)) (resize (b_outputs b) (p_nout p)), ROk)
  | CInput slot v =>
      if ((slot <? 0) || (Z.of_nat (length (b_inputs b)) <=? slot))%Z%bool then (b, RErr)
      else (mkBench (b_stack b) (b_desktop b) (set_nth (b_inputs b) (Z.to_nat slot) v) (b_outputs b), ROk)
  | CRun =>
      match b_desktop b with
      | None => (b, RErr)
      | Some p =>
          match launch_offline p (b_inputs b) (b_stack b) with
          | Done outs s => (mkBench s (b_desktop b) (b_inputs b) outs, ROk)
          | Throw s => (mkBench s (b_desktop b) (b_inputs b) (b_outputs b), RErr)
          | Undef => (b, RUndef)
          end
      end
  | COutput slot =>
      if ((slot <? 0) || (Z.of_nat (length (b_outputs b)) <=? slot))%Z%bool then (b, RErr)
      else match nth_error (b_outputs b) (Z.to_nat slot) with Some v => (b, RVal v) | None => (b, RErr) end
  end.

Definition steps (b : bench) (l : list call) : bench := fold_left (fun b c => fst (step b c)) l b.

End WorkbenchModel.

Arguments program V Opr : clear implicits.
Arguments bench V Opr : clear implicits.
Arguments call V Opr : clear implicits.
