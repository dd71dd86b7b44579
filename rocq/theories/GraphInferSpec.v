(** What inference over a graph should find. *)
From Coq Require Import List Arith.
From Verif Require Import GraphInferModel.
Import ListNotations.

Section Spec.
Context {Op P V : Type}.
Variable shape_infer : gnode Op V -> option (list P -> list (option V) -> option P * option V).
Variable operate : gnode Op V -> list V -> option V.
Variable g : list (gnode Op V).

(** every input comes before its user: no cycles *)
Definition acyclic : Prop := forall i nd j, nth_error g i = Some nd -> In j (g_inputs nd) -> j < i.

(** [shape] and [val] give every node what its operator says about the shapes
    and values of its inputs (no shape: it cannot be inferred). *)
Definition meaning (shape : nat -> option P) (val : nat -> option V) : Prop :=
  forall i nd, nth_error g i = Some nd ->
  let found :=
    match all_some (map shape (g_inputs nd)) with
    | None => (None, None)                               (* an input has no shape *)
    | Some ps => match shape_infer nd with
                 | None => (None, None)                  (* nothing known about the operator *)
                 | Some f => f ps (map val (g_inputs nd))
                 end
    end in
  shape i = fst found /\
  val i = match g_const nd with
          | Some c => Some c                             (* a constant *)
          | None => match snd found with
                    | Some v => Some v                   (* told by the shape inference *)
                    | None =>                            (* computed from known inputs *)
                        match fst found, all_some (map val (g_inputs nd)) with
                        | Some _, Some vs => if g_endpoint nd then None else operate nd vs
                        | _, _ => None
                        end
                    end
          end.
End Spec.
