(** Model of the tensor stack (src/runtime/stack.cpp, include/runtime/stack.h)
    and of the instructions that work on it (src/runtime/instruction.cpp,
    src/runtime/instruction/*.cpp).

    Simplifications: a tensor is an abstract value of type [V] (so [clone] and
    [push] coincide: cloning copies contents, and tensor contents are
    immutable here); memory devices are not modelled.  A stack index that
    falls outside the deque is [Throw] where the code uses [deque::at] and
    [Undef] where it computes an iterator. *)
From Coq Require Import List ZArith Lia Bool.
Import ListNotations.
Local Open Scope Z_scope.

Section StackModel.
Context {V : Type}.

(** include/runtime/stack.h 366-370: [m_stack] (bottom first), [m_base],
    [m_base_stack] (top first). *)
Record stack := mkStack { cells : list V; base : nat; bases : list nat }.

(** Result of a call: normal return, C++ exception (with the stack as it was
    when the exception left the call), or undefined behaviour. *)
Inductive outcome (A : Type) :=
| Done (a : A) (s : stack)
| Throw (s : stack)
| Undef.
Arguments Done {A} _ _.
Arguments Throw {A} _.
Arguments Undef {A}.

(** stack.cpp 10: [relative2absolute].  A negative result stands for a
    wrapped [size_t]. *)
Definition rel2abs (s : stack) (i : Z) : Z :=
  if 0 <=? i then Z.of_nat (base s) + i else Z.of_nat (length (cells s)) + i.

(** stack.cpp 80: [Stack::size] (an underflow, base above the top, is a huge
    [size_t] in the code; here it is a negative number, and every modelled
    caller compares it with non-negative bounds only after [push_base] has
    set a base not above the top). *)
Definition size (s : stack) : Z := Z.of_nat (length (cells s)) - Z.of_nat (base s).

(** stack.cpp 64: [Stack::index] uses [deque::at]. *)
Definition index (s : stack) (i : Z) : option V :=
  let a := rel2abs s i in
  if a <? 0 then None else nth_error (cells s) (Z.to_nat a).

Definition with_cells (s : stack) (c : list V) : stack :=
  mkStack c (base s) (bases s).

(** stack.cpp 49-54 *)
Definition push (s : stack) (v : V) : stack := with_cells s (cells s ++ [v]).

(** stack.h 192: [push(int)] *)
Definition push_at (s : stack) (i : Z) : outcome unit :=
  match index s i with
  | Some v => Done tt (push s v)
  | None => Throw s
  end.

(** stack.cpp 82-85: [erase(int)] *)
Definition erase1 (s : stack) (i : Z) : outcome unit :=
  let a := rel2abs s i in
  if (0 <=? a) && (a <? Z.of_nat (length (cells s))) then
    Done tt (with_cells s (firstn (Z.to_nat a) (cells s)
                           ++ skipn (S (Z.to_nat a)) (cells s)))
  else Undef.

(** stack.cpp 87-92: [erase(int, int)]; the range check is commented out in
    the source, so a reversed or out-of-range range is undefined. *)
Definition erase (s : stack) (b e : Z) : outcome unit :=
  let a := rel2abs s b in
  let z := rel2abs s e in
  if (0 <=? a) && (a <=? z) && (z <=? Z.of_nat (length (cells s))) then
    Done tt (with_cells s (firstn (Z.to_nat a) (cells s)
                           ++ skipn (Z.to_nat z) (cells s)))
  else Undef.

(** stack.h 315: [clear] *)
Definition clear (s : stack) : outcome unit := erase s 0 (size s).

(** stack.cpp 96-103: [push_base] *)
Definition push_base (s : stack) (i : Z) : outcome unit :=
  let a := rel2abs s i in
  if 0 <=? a then Done tt (mkStack (cells s) (Z.to_nat a) (base s :: bases s))
  else Undef.

(** stack.cpp 105-112: [pop_base] *)
Definition pop_base (s : stack) : stack :=
  match bases s with
  | [] => mkStack (cells s) 0 []
  | b :: bs => mkStack (cells s) b bs
  end.

(** instruction/stack_instruction.cpp 37-45: [swap] *)
Fixpoint set_nth (l : list V) (n : nat) (v : V) : list V :=
  match l, n with
  | [], _ => []
  | _ :: t, O => v :: t
  | h :: t, S n' => h :: set_nth t n' v
  end.

Definition swap (s : stack) (i j : Z) : outcome unit :=
  match index s i, index s j with
  | Some ti, Some tj =>
      let c1 := set_nth (cells s) (Z.to_nat (rel2abs s i)) tj in
      let c2 := set_nth c1 (Z.to_nat (rel2abs s j)) ti in
      Done tt (with_cells s c2)
  | _, _ => Throw s
  end.

(** instruction/stack_instruction.cpp 29-35 *)
Definition ring_shift_left (s : stack) : outcome unit :=
  match push_at s 0 with
  | Done _ s1 => erase1 s1 0
  | r => r
  end.

(** What one [Operator::run(stack)] call did to its frame (the cells above
    the base): the new frame and the returned count, or an exception.
    Simplification: an operator cannot reach below its base (operators in
    the code base index their frame with 0 <= i < size or -size <= i < 0). *)
Inductive opres :=
| ORet (frame : list V) (count : Z)
| OThrow (frame : list V).

Definition frame (s : stack) : list V := skipn (base s) (cells s).
Definition below (s : stack) : list V := firstn (base s) (cells s).

Definition apply_op (s : stack) (f : list V -> opres) : outcome Z :=
  match f (frame s) with
  | ORet fr k => Done k (with_cells s (below s ++ fr))
  | OThrow fr => Throw (with_cells s (below s ++ fr))
  end.

(** instruction.cpp 34-76: [OperatorInstruction::run].  The local
    [ts::need pop_base] runs on normal and exceptional exit. *)
Definition op_instruction (f : list V -> opres) (nargs nresults : Z) (s : stack)
  : outcome unit :=
  if size s <? nargs then Throw s else
  match push_base s (- nargs) with
  | Done _ s1 =>
      match apply_op s1 f with
      | Done k s2 =>
          if negb (k =? nresults) then Throw (pop_base s2)
          else if size s2 <? k then Throw (pop_base s2)
          else match erase s2 0 (- nresults) with
               | Done _ s3 => Done tt (pop_base s3)
               | Throw s3 => Throw (pop_base s3)
               | Undef => Undef
               end
      | Throw s2 => Throw (pop_base s2)
      | Undef => Undef
      end
  | Throw s1 => Throw s1
  | Undef => Undef
  end.

(** operator.cpp 262-278: [RunOperator]; like the instruction but the
    result count is whatever the operator returned. *)
Definition run_operator (f : list V -> opres) (nargs : Z) (s : stack) : outcome Z :=
  if size s <? nargs then Throw s else
  match push_base s (- nargs) with
  | Done _ s1 =>
      match apply_op s1 f with
      | Done k s2 =>
          if size s2 <? k then Throw (pop_base s2)
          else match erase s2 0 (- k) with
               | Done _ s3 => Done k (pop_base s3)
               | Throw s3 => Throw (pop_base s3)
               | Undef => Undef
               end
      | Throw s2 => Throw (pop_base s2)
      | Undef => Undef
      end
  | Throw s1 => Throw s1
  | Undef => Undef
  end.

(** stack.cpp 72-76: [pop(size_t)] *)
Definition popn (s : stack) (n : nat) : outcome unit :=
  if (length (cells s) <? n)%nat then Undef
  else Done tt (with_cells s (firstn (length (cells s) - n) (cells s))).

Variable packV : list V -> V.
Variable fieldV : V -> Z -> option V.

(** instruction/tensor_instruction.cpp 17-36: [Tensor::pack(size)]; reads
    index(-size) .. index(-1). *)
Definition pack_instruction (n : nat) (s : stack) : outcome unit :=
  if size s <? Z.of_nat n then Throw s else
  if (length (cells s) <? n)%nat then Throw s else
  let fields := skipn (length (cells s) - n) (cells s) in
  match popn s n with
  | Done _ s1 => Done tt (push s1 (packV fields))
  | r => r
  end.

(** instruction/tensor_instruction.cpp 38-45: [Tensor::field(index)];
    [top()] on an empty deque is undefined. *)
Definition field_instruction (i : Z) (s : stack) : outcome unit :=
  match rev (cells s) with
  | [] => Undef
  | t :: _ =>
      match fieldV t i with
      | None => Throw s
      | Some v => Done tt (with_cells s (removelast (cells s) ++ [v]))
      end
  end.

Context {Opr : Type}.
Variable oprun : Opr -> list V -> opres.

(** The instructions a compiled program is made of. *)
Inductive instr :=
| IPush (i : Z)                              (* stack_instruction.cpp 11-15 *)
| IErase1 (i : Z)                            (* 23-27 *)
| IRing                                      (* 29-35 *)
| ISwap (i j : Z)                            (* 37-45 *)
| IErase (b e : Z)                           (* 47-51 *)
| IData (k : nat)                            (* instruction.cpp 148-150 *)
| IOp (o : Opr) (nargs nresults : Z)         (* instruction.cpp 34-76 *)
| IPack (n : nat)                            (* tensor_instruction.cpp 17-36 *)
| IField (i : Z).                            (* tensor_instruction.cpp 38-45 *)

(** [data] is the program's data segment; program.cpp [data_segment(index)]
    indexes it with [Stack::index], base 0 (out of range throws). *)
Definition exec (data : list V) (i : instr) (s : stack) : outcome unit :=
  match i with
  | IPush i => push_at s i
  | IErase1 i => erase1 s i
  | IRing => ring_shift_left s
  | ISwap i j => swap s i j
  | IErase b e => erase s b e
  | IData k => match nth_error data k with
               | Some v => Done tt (push s v)
               | None => Throw s
               end
  | IOp o na nr => op_instruction (oprun o) na nr s
  | IPack n => pack_instruction n s
  | IField i => field_instruction i s
  end.

(** workbench.cpp 477-485: the run loop of [launch_online]; the compiler
    emits no jumps, so the pointer simply walks the list. *)
Fixpoint run_list (data : list V) (l : list instr) (s : stack) : outcome unit :=
  match l with
  | [] => Done tt s
  | i :: rest => match exec data i s with
                 | Done _ s' => run_list data rest s'
                 | r => r
                 end
  end.

End StackModel.

Arguments stack V : clear implicits.
Arguments outcome V A : clear implicits.
Arguments opres V : clear implicits.
Arguments instr Opr : clear implicits.
Arguments Done {V A} _ _.
Arguments Throw {V A} _.
Arguments Undef {V A}.
