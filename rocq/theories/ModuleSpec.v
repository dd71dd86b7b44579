(** What it means for a loaded module to be the same as the saved one. *)
From Coq Require Import List ZArith.
From Verif Require Import StackModel GraphSpec TensorModel SerialModel SerialSpec ModuleModel.
Import ListNotations.

(** [b] was built by a constructor and calls of [SerialSpec.call_ok]. *)
Definition built (b : bubble) : Prop :=
  exists op name shape calls,
    string_ok op /\ string_ok name /\ shape_ok shape /\ Forall call_ok calls /\
    (Z.of_nat (length calls) <= int_max)%Z /\ b = bbuild op name shape calls.

(** The nodes of a module: everything its outputs depend on, and its inputs. *)
Inductive reachable (g : mgraph) : node -> node -> Prop :=
| reachable_refl n : reachable g n n
| reachable_step a i b : In i (mg_ins g a) -> reachable g i b -> reachable g a b.

Definition part_of (m : module) (n : node) : Prop :=
  In n (m_inputs m) \/ exists o, In o (m_outputs m) /\ reachable (m_graph m) o n.

(** [m'] is [m] with its nodes renamed by [f]. *)
Record renamed (f : node -> node) (m m' : module) : Prop := {
  rn_inj : forall a b, part_of m a -> part_of m b -> f a = f b -> a = b;
  rn_onto : forall k, In k (mg_nodes (m_graph m')) <-> exists n, part_of m n /\ k = f n;
  rn_bub : forall n, part_of m n -> mg_bub (m_graph m') (f n) = mg_bub (m_graph m) n;
  rn_ins : forall n, part_of m n -> mg_ins (m_graph m') (f n) = map f (mg_ins (m_graph m) n);
  rn_inputs : m_inputs m' = map f (m_inputs m);
  rn_outputs : m_outputs m' = map f (m_outputs m)
}.

(** Edges lead back to earlier nodes. *)
Definition acyclic_graph (g : mgraph) : Prop :=
  exists rank : node -> nat, forall n i, In i (mg_ins g n) -> rank i < rank n.

(** The function a module computes: attributes are interpreted as in
    [GraphSpec]. *)
Definition meaning {V Opr} (interp : bubble -> nkind V Opr) (g : mgraph) : graph V Opr :=
  mkGraph (fun n => interp (mg_bub g n)) (mg_ins g).

(** The nodes evaluation visits: operators need their inputs; parameters and
    constants need nothing. *)
Definition is_param (g : mgraph) (n : node) : Prop := b_op (mg_bub g n) = op_param.
Definition is_const (g : mgraph) (n : node) : Prop := b_op (mg_bub g n) = op_const.
Definition is_operator (g : mgraph) (n : node) : Prop := ~ is_param g n /\ ~ is_const g n.

Inductive needs (g : mgraph) : node -> node -> Prop :=
| needs_self n : needs g n n
| needs_input a i b : is_operator g a -> In i (mg_ins g a) -> needs g i b -> needs g a b.

Definition needed (g : mgraph) (outputs : list node) (n : node) : Prop :=
  exists o, In o outputs /\ needs g o n.

(** A node that cannot be evaluated: not in the graph, or an operator without
    inputs. *)
Definition unusable (g : mgraph) (n : node) : Prop :=
  ~ In n (mg_nodes g) \/ (is_operator g n /\ mg_ins g n = []).

(** [n] is the only node of the graph with the name [k]. *)
Definition only_named (g : mgraph) (k : list Z) (n : node) : Prop :=
  In n (mg_nodes g) /\ b_name (mg_bub g n) = k /\
  forall n', In n' (mg_nodes g) -> b_name (mg_bub g n') = k -> n' = n.
