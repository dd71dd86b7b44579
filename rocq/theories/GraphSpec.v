(** What a computation graph means, independently of how it is compiled.

    A graph gives every node (a [nat] standing for the [Node] handle of
    include/module/graph.h) a kind and an ordered list of inputs.  The kinds
    are the endpoint kinds of include/module/bubble.h 27-29 ([<param>], [<const>],
    [<var>]) plus three sorts of operator nodes: ordinary operators (an
    abstract [Opr] stands for the bubble: operator name and parameters) and
    the two operators that become instructions of their own, [_field] and
    [_pack] (tensor_instruction.cpp). *)
From Coq Require Import List ZArith.
From Verif Require Import StackModel.
Import ListNotations.

Definition node := nat.

Section GraphSpec.
Context {V Opr : Type}.
Variable packV : list V -> V.
Variable fieldV : V -> Z -> option V.
Variable oprun : Opr -> list V -> opres V.

Inductive nkind :=
| KParam
| KConst (v : V)
| KVariable
| KOp (o : Opr)
| KField (off : Z)
| KPack.

Record graph := mkGraph { kind : node -> nkind; ins : node -> list node }.

(** Value an operator yields on given arguments: it must return exactly one
    result, which is the last value of its frame; anything else is an error. *)
Definition op_value (o : Opr) (args : list V) : option V :=
  match oprun o args with
  | ORet fr 1%Z => match rev fr with v :: _ => Some v | [] => None end
  | _ => None
  end.

Definition node_value (k : nkind) (args : list V) : option V :=
  match k with
  | KOp o => op_value o args
  | KField off => match args with [a] => fieldV a off | _ => None end
  | KPack => Some (packV args)
  | _ => None
  end.

(** [den g env n v]: node [n] denotes the value [v] when the parameters have
    the values given by [env]. *)
Inductive den (g : graph) (env : node -> option V) : node -> V -> Prop :=
| den_param n v : kind g n = KParam -> env n = Some v -> den g env n v
| den_const n v : kind g n = KConst v -> den g env n v
| den_op n vs v :
    (match kind g n with KOp _ | KField _ | KPack => True | _ => False end) ->
    dens g env (ins g n) vs ->
    node_value (kind g n) vs = Some v ->
    den g env n v
with dens (g : graph) (env : node -> option V) : list node -> list V -> Prop :=
| dens_nil : dens g env [] []
| dens_cons n ns v vs : den g env n v -> dens g env ns vs -> dens g env (n :: ns) (v :: vs).

(** [reach g a b]: [b] is [a] or a direct or indirect input of [a]. *)
Inductive reach (g : graph) : node -> node -> Prop :=
| reach_refl n : reach g n n
| reach_step a m b : In m (ins g a) -> reach g m b -> reach g a b.

(** Proper dependency: at least one edge. *)
Definition depends (g : graph) (a b : node) : Prop :=
  exists m, In m (ins g a) /\ reach g m b.

(** Acyclic: nodes can be ranked so that inputs have smaller rank. *)
Definition acyclic (g : graph) : Prop :=
  exists rank : node -> nat, forall n m, In m (ins g n) -> (rank m < rank n)%nat.

(** The environment binding input nodes to argument tensors by position. *)
Fixpoint bind (inputs : list node) (args : list V) (n : node) : option V :=
  match inputs, args with
  | i :: is, a :: rest => if Nat.eqb n i then Some a else bind is rest n
  | _, _ => None
  end.

End GraphSpec.

Arguments nkind V Opr : clear implicits.
Arguments graph V Opr : clear implicits.
Arguments KParam {V Opr}.
Arguments KVariable {V Opr}.
Arguments KPack {V Opr}.
Arguments KOp {V Opr} _.
Arguments KConst {V Opr} _.
Arguments KField {V Opr} _.
