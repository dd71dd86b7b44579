(** What a user of a synchronised block sees: one content; updates replace it
    for everybody; an update through one handle disables all other handles
    ("this action may disable already exist view"). *)
From Coq Require Import List Bool Arith.
From Verif Require Import SyncModel.
Import ListNotations.

Section SyncSpec.
Context {V C : Type}.

(** What users do: read on a device, read the own value, make a view, or write
    through a handle's own device and broadcast. *)
Inductive use :=
| Read (h key : nat) | ReadOwn (h : nat) | View (h key : nat) | Update (h : nat) (own : nat) (v : V).

(** in terms of the block's operations *)
Definition ops_of (u : use) : list (op V) :=
  match u with
  | Read h k => [OSync h k]
  | ReadOwn h => [OValue h]
  | View h k => [OView h k]
  | Update h own v => [OWrite h own v; OBroadcast h]
  end.

(** the keys of the handles, which of them are valid, and the content *)
Record ideal := mkIdeal { keys : list nat; valid : list bool; content_now : C }.

Variable content : V -> C.

Definition handle_of (u : use) : nat :=
  match u with Read h _ | ReadOwn h | View h _ | Update h _ _ => h end.

Definition ideal_step (s : ideal) (u : use) : option (list (option C) * ideal) :=
  if negb (nth (handle_of u) (valid s) false) then None
  else match u with
  | Read _ _ | ReadOwn _ => Some ([Some (content_now s)], s)
  | View _ k => Some ([None], mkIdeal (keys s ++ [k]) (valid s ++ [true]) (content_now s))
  | Update h own v =>
      if own =? nth h (keys s) 0 then
        Some ([None; None],
              mkIdeal (keys s) (map (fun i => i =? h) (seq 0 (length (keys s)))) (content v))
      else None
  end.

Fixpoint ideal_steps (s : ideal) (l : list use) : option (list (option C) * ideal) :=
  match l with
  | [] => Some ([], s)
  | u :: r => match ideal_step s u with
              | None => None
              | Some (a, s1) => match ideal_steps s1 r with
                                | None => None
                                | Some (as_, s2) => Some (a ++ as_, s2)
                                end
              end
  end.

Definition seen (a : answer V) : option C :=
  match a with AValue v => Some (content v) | ANone => None end.
End SyncSpec.
Arguments use V : clear implicits.
Arguments ideal C : clear implicits.
