(** What the compiler is expected to do, in terms of graphs, values and the
    stack machine only. *)
From Coq Require Import List ZArith.
From Verif Require Import StackModel GraphSpec.
Import ListNotations.

Section CompilerSpec.
Context {V Opr : Type}.
Notation graph := (graph V Opr).
Notation instr := (instr Opr).

(** An operator node, as opposed to a parameter, constant or variable. *)
Definition is_operator (g : graph) (n : node) : Prop :=
  match kind g n with KOp _ | KField _ | KPack => True | _ => False end.

(** Nodes some output depends on. *)
Definition used (g : graph) (outputs : list node) (n : node) : Prop :=
  exists o, In o outputs /\ reach g o n.

(** Parameters, constants and variables are leaves. *)
Definition leaves_ok (g : graph) : Prop :=
  forall n, ~ is_operator g n -> ins g n = [].

(** Ordinary operator nodes have at least one input (what constant folding
    leaves behind; see C05 for the operators with none). *)
Definition ops_have_inputs (g : graph) (outputs : list node) : Prop :=
  forall n o, used g outputs n -> kind g n = KOp o -> ins g n <> [].

(** The instruction that evaluates an operator node. *)
Definition evaluates (g : graph) (n : node) (i : instr) : Prop :=
  match kind g n with
  | KOp o => i = IOp o (Z.of_nat (length (ins g n))) 1%Z
  | KField off => i = IField off
  | KPack => i = IPack (length (ins g n))
  | _ => False
  end.

(** Instructions that compute something (the others shuffle the stack). *)
Definition computes (i : instr) : bool :=
  match i with IOp _ _ _ | IPack _ | IField _ => true | _ => false end.

(** A stack whose current frame is [fr]; [lo] and [bs] belong to callers. *)
Definition frame_stack (lo fr : list V) (bs : list nat) : stack V :=
  mkStack (lo ++ fr) (length lo) bs.

(** What the compiler must accept, and nothing else: every used parameter is
    among the given inputs, variables are not used, every used operator is
    available on the device and yields exactly one tensor, and every used
    field access has one operand and a non-negative index. *)
Definition acceptable (supported : Opr -> bool) (output_count : Opr -> Z)
    (g : graph) (inputs outputs : list node) : Prop :=
  forall n, used g outputs n ->
    match kind g n with
    | KParam => In n inputs
    | KConst _ => True
    | KVariable => False
    | KOp o => supported o = true /\ output_count o = 1%Z
    | KField off => length (ins g n) = 1 /\ (0 <= off)%Z
    | KPack => True
    end.

(** An order in which every node comes after the operators it depends on. *)
Definition dependency_order (g : graph) (order : list node) : Prop :=
  forall pre n post, order = pre ++ n :: post ->
    forall m, In m (ins g n) -> is_operator g m -> In m pre.

(** The last [m] elements of a list. *)
Definition last_values {A} (m : nat) (l : list A) : list A := skipn (length l - m) l.

End CompilerSpec.
