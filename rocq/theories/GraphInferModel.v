(** Model of shape and value inference over a graph
    (src/runtime/inferer.cpp).

    A graph is a list of nodes; a node names its inputs by position.  The
    shape inference function of an operator ([shape_infer], None when there
    is none) sees the node, the prototypes and the known values of its inputs,
    and answers a prototype (None is VOID) and possibly a value it sets as
    "#value", in fresh memory.  [operate] is running the CPU operator on the
    values (None: no such operator, or an exception).  Exceptions from a shape
    inference function are not modelled. *)
From Coq Require Import List Bool Arith.
Import ListNotations.

Section Infer.
Context {Op P V : Type}.

(** [g_const]: the "value" parameter of a Const node; [g_endpoint]:
    Bubble::IsEndPoint of its operator; [g_param]: its operator is Parameter *)
Record gnode := GNode { g_op : Op; g_inputs : list nat; g_const : option V; g_endpoint : bool; g_param : bool }.

Variable shape_infer : gnode -> option (list P -> list (option V) -> option P * option V).
Variable operate : gnode -> list V -> option V.
Variable g : list gnode.

(** the attributes of the nodes and the cache of one inference; the latest
    entry for a node counts *)
Record istate := IState {
  cache : list (nat * option P);
  value : list (nat * V);            (* "#value" *)
  marks : list (nat * option P);     (* "#shape", "#dtype" *)
  calls : list nat }.                (* shape inference functions called *)

Fixpoint lookup {X} (l : list (nat * X)) (i : nat) : option X :=
  match l with
  | [] => None
  | (j, x) :: l' => if j =? i then Some x else lookup l' i
  end.

(** get_value (16-24) *)
Definition get_value (st : istate) (i : nat) : option V :=
  match nth_error g i with
  | Some nd => match g_const nd with Some v => Some v | None => lookup (value st) i end
  | None => None
  end.

Definition set_value (i : nat) (v : V) (st : istate) : istate := IState (cache st) ((i, v) :: value st) (marks st) (calls st).

Fixpoint all_some {X} (l : list (option X)) : option (list X) :=
  match l with
  | [] => Some []
  | None :: _ => None
  | Some x :: l' => match all_some l' with Some r => Some (x :: r) | None => None end
  end.

(** infer_value (40-86) *)
Definition infer_value (i : nat) (nd : gnode) (st : istate) : istate :=
  if g_endpoint nd then st else
  match all_some (map (get_value st) (g_inputs nd)) with
  | None => st
  | Some vs => match operate nd vs with None => st | Some v => set_value i v st end
  end.

(** update_cache (88-101) *)
Definition update_cache (i : nat) (nd : gnode) (p : option P) (st : istate) : option P * istate :=
  (p, IState ((i, p) :: cache st) (value st) (if g_param nd then marks st else (i, p) :: marks st) (calls st)).

(** 110-116: infer the inputs in turn, stop at the first VOID *)
Fixpoint infer_inputs (step : nat -> istate -> option (option P * istate)) (l : list nat) (st : istate) :
  option (option (list P) * istate) :=
  match l with
  | [] => Some (Some [], st)
  | j :: l' =>
      match step j st with
      | None => None
      | Some (None, st') => Some (None, st')
      | Some (Some p, st') =>
          match infer_inputs step l' st' with
          | None => None
          | Some (None, st'') => Some (None, st'')
          | Some (Some ps, st'') => Some (Some (p :: ps), st'')
          end
      end
  end.

(** infer (103-144); [fuel] bounds the depth of the recursion *)
Fixpoint infer (fuel : nat) (i : nat) (st : istate) : option (option P * istate) :=
  match fuel with
  | O => None
  | S fuel' =>
      match lookup (cache st) i with
      | Some p => Some (p, st)
      | None =>
          match nth_error g i with
          | None => None
          | Some nd =>
              match infer_inputs (infer fuel') (g_inputs nd) st with
              | None => None
              | Some (None, st1) => Some (update_cache i nd None st1)
              | Some (Some ps, st1) =>
                  match shape_infer nd with
                  | None => Some (update_cache i nd None st1)
                  | Some f =>
                      let '(p, nv) := f ps (map (get_value st1) (g_inputs nd)) in
                      let st2 := IState (cache st1) (value st1) (marks st1) (i :: calls st1) in
                      let st3 := match nv with Some v => set_value i v st2 | None => st2 end in
                      match p with
                      | None => Some (update_cache i nd None st3)
                      | Some p =>
                          (* 131-136: infer the value unless the function has just set one
                             (the value of a Const never changes) *)
                          let st4 := match nv, g_const nd with Some _, None => st3 | _, _ => infer_value i nd st3 end in
                          Some (update_cache i nd (Some p) st4)
                      end
                  end
              end
          end
      end
  end.

(** infer of several nodes with one cache (146-162) *)
Fixpoint infer_nodes (fuel : nat) (l : list nat) (st : istate) : option (list (option P) * istate) :=
  match l with
  | [] => Some ([], st)
  | i :: l' =>
      match infer fuel i st with
      | None => None
      | Some (p, st') => match infer_nodes fuel l' st' with None => None | Some (ps, st'') => Some (p :: ps, st'') end
      end
  end.
End Infer.
Arguments gnode : clear implicits.
Arguments istate : clear implicits.
