(** When a rewriting rule is meaning preserving, independently of the passes
    that apply it. *)
From Coq Require Import List ZArith Bool Arith.
From Verif Require Import StackModel GraphSpec TransModel.
Import ListNotations.

Section TransSpec.
Context {V Opr : Type}.
Variable packV : list V -> V.
Variable fieldV : V -> Z -> option V.
Variable oprun : Opr -> list V -> opres V.
Notation den := (den packV fieldV oprun).

(** All edges are between nodes that exist. *)
Definition closed (s : gstate V Opr) : Prop :=
  forall n i, In i (ins (gg s) n) -> n < gn s /\ i < gn s.

(** Nothing that existed changed. *)
Definition extends (s s' : gstate V Opr) : Prop :=
  gn s <= gn s' /\
  forall n, n < gn s -> kind (gg s') n = kind (gg s) n /\ ins (gg s') n = ins (gg s) n.

(** Parameters have no inputs. *)
Definition plain_params (g : graph V Opr) : Prop :=
  forall n, kind g n = KParam -> ins g n = [].

(** A rule is [sound] when, applied to an existing node,
    - it only adds nodes, and what it adds is wired to new nodes and to nodes
      the rewritten node depends on;
    - the node it proposes is the rewritten node itself or a new one, and has
      exactly the values of the rewritten node;
    - it replaces a parameter by a parameter and makes no parameter else. *)
Definition sound (r : rule V Opr) : Prop :=
  forall s n flag applies t s',
  closed s -> acyclic (gg s) -> n < gn s -> r s n flag = (applies, t, s') ->
  extends s s' /\ closed s' /\ acyclic (gg s') /\
  (forall m i, gn s <= m -> In i (ins (gg s') m) -> gn s <= i \/ reach (gg s) n i) /\
  (forall m, gn s <= m < gn s' -> kind (gg s') m = KParam ->
     kind (gg s) n = KParam /\ ins (gg s') m = []) /\
  (forall x, t = Some x ->
     (x = n \/ gn s <= x < gn s') /\
     (kind (gg s) n = KParam -> kind (gg s') x = KParam) /\
     (kind (gg s) n <> KParam -> forall env v, den (gg s') env x v <-> den (gg s') env n v)).

(** A rule is [inapplicable] when it never does anything. *)
Definition inapplicable (r : rule V Opr) : Prop :=
  forall s n flag, r s n flag = (false, None, s).

(** For the zipper, which never rewires existing nodes, less is needed. *)
Definition zip_sound (r : rule V Opr) : Prop :=
  forall s n flag applies t s',
  closed s -> acyclic (gg s) -> n < gn s -> r s n flag = (applies, t, s') ->
  extends s s' /\ closed s' /\ acyclic (gg s') /\
  (forall m, gn s <= m -> kind (gg s') m = KParam -> ins (gg s') m = []) /\
  (forall x, t = Some x -> x < gn s' /\ forall env v, den (gg s') env x v <-> den (gg s') env n v).

End TransSpec.
