(** Model of Module::list_reference_nodes (src/module/module.cpp 200-237) and
    of build_node_refs (src/compiler/compiler.cpp 47-63).

    Simplifications: [unordered_map<Node,int>] is an association list in
    insertion order; [std::sort] (unstable) is a stable insertion sort: the
    theorems about refs are stated for every list that is a permutation of
    the map sorted by decreasing depth. *)
From Coq Require Import List ZArith Bool.
From Verif Require Import StackModel GraphSpec.
Import ListNotations.

Section GraphModel.
Context {V Opr : Type}.
Notation graph := (graph V Opr).

Fixpoint lookup {A} (m : list (node * A)) (n : node) : option A :=
  match m with
  | [] => None
  | (k, d) :: t => if Nat.eqb n k then Some d else lookup t n
  end.

Fixpoint update {A} (m : list (node * A)) (n : node) (d : A) : list (node * A) :=
  match m with
  | [] => []
  | (k, x) :: t => if Nat.eqb n k then (k, d) :: t else (k, x) :: update t n d
  end.

(** module.cpp 204-209 *)
Fixpoint lrn_init (nodes : list node) (m : list (node * nat)) (q : list node)
  : list (node * nat) * list node :=
  match nodes with
  | [] => (m, q)
  | n :: t => match lookup m n with
              | Some _ => lrn_init t m q
              | None => lrn_init t (m ++ [(n, 1)]) (q ++ [n])
              end
  end.

(** module.cpp 215-227: one popped node of depth [depth] *)
Fixpoint lrn_inputs (inputs : list node) (depth : nat) (m : list (node * nat)) (q : list node)
  : list (node * nat) * list node :=
  match inputs with
  | [] => (m, q)
  | i :: t =>
      match lookup m i with
      | None => lrn_inputs t depth (m ++ [(i, S depth)]) (q ++ [i])
      | Some d => if d <? S depth
                  then lrn_inputs t depth (update m i (S depth)) (q ++ [i])
                  else lrn_inputs t depth m q
      end
  end.

(** module.cpp 211-228; [None] = out of fuel *)
Fixpoint lrn_loop (fuel : nat) (g : graph) (m : list (node * nat)) (q : list node)
  : option (list (node * nat)) :=
  match q with
  | [] => Some m
  | n :: q' =>
      match fuel with
      | O => None
      | S fuel' =>
          let depth := match lookup m n with Some d => d | None => 0 end in
          let (m', q'') := lrn_inputs (ins g n) depth m q' in
          lrn_loop fuel' g m' q''
      end
  end.

(** module.cpp 230-234: sort by decreasing depth *)
Fixpoint insert_desc (p : node * nat) (l : list (node * nat)) : list (node * nat) :=
  match l with
  | [] => [p]
  | h :: t => if snd h <? snd p then p :: l else h :: insert_desc p t
  end.
Fixpoint sort_desc (l : list (node * nat)) : list (node * nat) :=
  match l with
  | [] => []
  | h :: t => insert_desc h (sort_desc t)
  end.

Definition list_reference_nodes (fuel : nat) (g : graph) (nodes : list node)
  : option (list (node * nat)) :=
  let (m, q) := lrn_init nodes [] [] in
  match lrn_loop fuel g m q with
  | Some m' => Some (sort_desc m')
  | None => None
  end.

(** compiler.cpp 50-62.  Sets are lists; [map_node_refs[input]] of a node not
    yet in the map inserts an empty set, and [insert] does not overwrite. *)
Definition refs_of (t : list (node * list node)) (n : node) : list node :=
  match lookup t n with Some r => r | None => [] end.

Definition map_insert {A} (t : list (node * A)) (n : node) (r : A) : list (node * A) :=
  match lookup t n with Some _ => t | None => (n, r) :: t end.

Fixpoint build_inputs (inputs : list node) (t : list (node * list node)) (refs : list node)
  : list (node * list node) * list node :=
  match inputs with
  | [] => (t, refs)
  | i :: rest =>
      let t' := map_insert t i [] in
      build_inputs rest t' (i :: refs_of t' i ++ refs)
  end.

Fixpoint build_refs (g : graph) (sched : list (node * nat)) (t : list (node * list node))
  : list (node * list node) :=
  match sched with
  | [] => t
  | (n, _) :: rest =>
      let (t', refs) := build_inputs (ins g n) t [] in
      build_refs g rest (map_insert t' n refs)
  end.
End GraphModel.
