(** Model of linking the nodes of graphs: include/module/graph.h 40-99
    (LinkedValue::Link, ReplaceOutput), 174-194 (Node::Link, Node::ReplaceOutput)
    and 300-330 (Graph::make; a graph owns its nodes, nodes refer to each other
    by weak pointers).

    Simplifications: a node is a number, its bubble is left out; destroying a
    graph is destroying the nodes it owns. *)
From Coq Require Import List Arith Bool.
Import ListNotations.

(** [live]: weak_ptr::lock() succeeds; an empty weak pointer is None *)
Record heap := Heap { size : nat; live : nat -> bool; ins : nat -> list (option nat); outs : nat -> list nat }.
Definition upd {A} (f : nat -> A) (n : nat) (a : A) : nat -> A := fun m => if Nat.eqb m n then a else f m.
Definition with_ins (h : heap) (n : nat) (l : list (option nat)) : heap := Heap (size h) (live h) (upd (ins h) n l) (outs h).
Definition with_outs (h : heap) (n : nat) (l : list nat) : heap := Heap (size h) (live h) (ins h) (upd (outs h) n l).

(** how a call ends: NullPointerException leaves what was done before *)
Inductive result := Fine (h : heap) | Throws (h : heap) | Undef | Diverges.

(** 53-61: the loop over the outputs of one old input; an expired output makes
    it go round without advancing (None) *)
Fixpoint erase_output (h : heap) (n : nat) (l : list nat) : option (list nat) :=
  match l with
  | [] => Some []
  | t :: r =>
      if negb (live h t) then None else
      match erase_output h n r with
      | Some r' => Some (if Nat.eqb t n then r' else t :: r')
      | None => None
      end
  end.
(** 48-62 *)
Fixpoint unlink (h : heap) (n : nat) (bottoms : list (option nat)) : option heap :=
  match bottoms with
  | [] => Some h
  | Some b :: r =>
      if live h b then
        match erase_output h n (outs h b) with
        | Some l => unlink (with_outs h b l) n r
        | None => None
        end
      else unlink h n r
  | None :: r => unlink h n r
  end.
(** 65-71: [done] are the inputs linked so far *)
Fixpoint link_inputs (h : heap) (n : nat) (done : list (option nat)) (inputs : list nat) : result :=
  match inputs with
  | [] => Fine h
  | b :: r =>
      if live h b then
        let h1 := with_outs h b (outs h b ++ [n]) in
        link_inputs (with_ins h1 n (done ++ Some b :: repeat None (length r))) n (done ++ [Some b]) r
      else Throws h
  end.
(** 44-72 *)
Definition link (h : heap) (n : nat) (inputs : list nat) : result :=
  if negb (live h n) then Throws h else
  match unlink h n (ins h n) with
  | None => Diverges
  | Some h1 => link_inputs (with_ins h1 n (repeat None (length inputs))) n [] inputs
  end.

(** 82-86: the first input that is [old] *)
Fixpoint replace_first (old new : nat) (l : list (option nat)) : list (option nat) :=
  match l with
  | [] => []
  | Some b :: r => if Nat.eqb b old then Some new :: r else Some b :: replace_first old new r
  | None :: r => None :: replace_first old new r
  end.
(** 80-88: an expired output is dereferenced *)
Fixpoint replace_outputs (h : heap) (old new : nat) (todo : list nat) : option heap :=
  match todo with
  | [] => Some h
  | o :: r =>
      if negb (live h o) then None else
      let h1 := with_ins h o (replace_first old new (ins h o)) in
      replace_outputs (with_outs h1 new (outs h1 new ++ [o])) old new r
  end.
(** 75-90: with old = new the vector is appended to while it is iterated *)
Definition replace_output (h : heap) (old new : nat) : result :=
  if negb (live h old) then Throws h else
  if negb (live h new) then Throws h else
  match outs h old with
  | [] => Fine h
  | _ =>
      if Nat.eqb old new then Undef else
      match replace_outputs h old new (outs h old) with
      | Some h1 => Fine (with_outs h1 old [])
      | None => Undef
      end
  end.

(** Graph::make *)
Definition make (h : heap) : heap := Heap (S (size h)) (upd (live h) (size h) true) (ins h) (outs h).
(** ~Graph with the nodes it owns *)
Definition destroy (h : heap) (owned : list nat) : heap :=
  Heap (size h) (fun n => live h n && negb (existsb (Nat.eqb n) owned)) (ins h) (outs h).

Inductive action := Make | Link (n : nat) (inputs : list nat) | Replace (old new : nat) | Destroy (owned : list nat).
Definition act (h : heap) (a : action) : result :=
  match a with
  | Make => Fine (make h)
  | Link n inputs => link h n inputs
  | Replace old new => replace_output h old new
  | Destroy owned => Fine (destroy h owned)
  end.
(** a history; exceptions are caught and the next action goes on from there *)
Fixpoint play (h : heap) (l : list action) : result :=
  match l with
  | [] => Fine h
  | a :: r => match act h a with Fine h' | Throws h' => play h' r | e => e end
  end.
Definition nothing : heap := Heap 0 (fun _ => false) (fun _ => []) (fun _ => []).
