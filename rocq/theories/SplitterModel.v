(** Model of the graph splitter (src/compiler/fence/splitter.cpp): which nodes
    are put together, with single_input off.

    Nodes are numbers; [inputs] and [outputs] are the links of the cloned
    graph with its fake::end nodes (540-562).  Colors are as in the code: -1
    none, 0 not in a group, i > 0 group i.  Building the modules of the groups
    (613-793) is not modelled. *)
From Coq Require Import List Bool Arith ZArith.
Import ListNotations.
Local Open Scope Z_scope.

Definition mem (n : nat) (l : list nat) : bool := existsb (Nat.eqb n) l.

(** RefCache (14-51): what every node depends on; the latest entry counts,
    inputs of the graph get an empty entry first *)
Section Ref.
Variable inputs : nat -> list nat.

Fixpoint lookup_refs (c : list (nat * list nat)) (n : nat) : option (list nat) :=
  match c with
  | [] => None
  | (m, r) :: c' => if Nat.eqb m n then Some r else lookup_refs c' n
  end.

(** cache_refs (37-50): the entry of [n] and the cache *)
Fixpoint cache_refs (fuel : nat) (n : nat) (c : list (nat * list nat)) : option (list nat * list (nat * list nat)) :=
  match fuel with
  | O => None
  | S fuel' =>
      match lookup_refs c n with
      | Some r => Some (r, c)
      | None =>
          match fold_left (fun acc b =>
                  match acc with
                  | None => None
                  | Some (refs, c) => match cache_refs fuel' b c with Some (r, c') => Some (refs ++ r ++ [b], c') | None => None end
                  end) (inputs n) (Some ([], c)) with
          | None => None
          | Some (refs, c') => Some (refs, (n, refs) :: c')
          end
      end
  end.

(** setup (25-32) *)
Definition setup (fuel : nat) (outs ins : list nat) : option (list (nat * list nat)) :=
  fold_left (fun acc n => match acc with None => None | Some c => match cache_refs fuel n c with Some (_, c') => Some c' | None => None end end)
    outs (Some (map (fun n => (n, [])) ins)).

(** ref (17-23) *)
Definition ref_of (c : list (nat * list nat)) (top bottom : nat) : bool :=
  match lookup_refs c top with None => false | Some r => mem bottom r end.
End Ref.

Section Split.
Variables (inputs outputs : nat -> list nat).
Variable ref : nat -> nat -> bool.
Variables (ok support : nat -> bool).     (* the rule: is_route_or_support, is_support *)
Variable single_output : bool.

(** top_it (206-219, 283-296): [better x t] is ref(x, t) for the queue that
    takes top nodes first and ref(t, x) for the other *)
Fixpoint scan (better : nat -> nat -> bool) (target : nat) (l : list nat) : nat :=
  match l with
  | [] => target
  | x :: l' => scan better (if better x target then x else target) l'
  end.
Fixpoint remove_first (n : nat) (l : list nat) : list nat :=
  match l with
  | [] => []
  | x :: l' => if Nat.eqb x n then l' else x :: remove_first n l'
  end.
Definition pop (better : nat -> nat -> bool) (l : list nat) : option (nat * list nat) :=
  match l with
  | [] => None
  | x :: l' => let n := scan better x l' in Some (n, remove_first n l)
  end.
Definition pop_top := pop (fun x t => ref x t).
Definition pop_bottom := pop (fun x t => ref t x).

Record xstate := XS { col : nat -> Z; top : list nat; bot : list nat; down : list nat; up : list nat }.

Section Explore.
Variable i : Z.

Definition paint (c : nat -> Z) (n : nat) (v : Z) : nat -> Z := fun m => if Nat.eqb m n then v else c m.
(** 341-361 *)
Definition in_graph (st : xstate) (n : nat) : bool := col st n =? i.
Definition ok_to_add (c : nat -> Z) (n : nat) : bool := (c n <? 0) && ok n.
(** 363-367 *)
Definition has_walked (st : xstate) (n : nat) : bool := mem n (top st) || mem n (bot st) || in_graph st n.
(** 403-420 *)
Definition my_precious (st : xstate) (n : nat) : bool :=
  ok_to_add (col st) n &&
  (if single_output then forallb (in_graph st) (outputs n) else true) &&
  forallb (fun t => negb (ref t n)) (bot st) && forallb (fun t => negb (ref n t)) (top st).
(** 363 and 370-385: add the node, look at its inputs and outputs *)
Definition add (st : xstate) (n : nat) : xstate :=
  let st1 := XS (paint (col st) n i) (top st) (bot st) (down st) (up st) in
  XS (col st1) (top st) (bot st)
    (down st ++ filter (fun t => negb (mem t (bot st)) && negb (in_graph st1 t)) (inputs n))
    (up st ++ filter (fun t => negb (mem t (top st)) && negb (in_graph st1 t)) (outputs n)).

(** the loop (422-452): one round of an inner loop, or its end *)
Fixpoint run (fuel : nat) (going_down : bool) (st : xstate) : option xstate :=
  match fuel with
  | O => None
  | S fuel' =>
      if going_down then
        match pop_top (down st) with
        | Some (n, rest) =>
            let st := XS (col st) (top st) (bot st) rest (up st) in
            run fuel' true
              (if has_walked st n then st
               else if my_precious st n then add st n
               else XS (col st) (top st) (n :: bot st) (down st) (up st))
        | None =>
            if single_output then Some st
            else match up st with [] => Some st | _ => run fuel' false st end
        end
      else
        match pop_bottom (up st) with
        | Some (n, rest) =>
            let st := XS (col st) (top st) (bot st) (down st) rest in
            run fuel' false
              (if has_walked st n then st
               else if my_precious st n then add st n
               else XS (col st) (n :: top st) (bot st) (down st) (up st))
        | None => match down st with [] => Some st | _ => run fuel' true st end
        end
  end.

(** what explore answers: the colors, and a group with its inputs and outputs,
    a group of routes only (recolored 0), or nothing *)
Inductive answer := NotGraph | Routes | Group (ins outs : list nat).

(** 330-536; [all] is every node of the graph *)
Definition explore (fuel : nat) (all : list nat) (c : nat -> Z) (s : nat) : option ((nat -> Z) * answer) :=
  if negb (ok_to_add c s) then Some (c, NotGraph) else
  let st0 := add (XS c [] [] [] []) s in
  match (match down st0 with [] => Some st0 | _ => run fuel true st0 end) with
  | None => None
  | Some st =>
      let tops := filter (fun t => in_graph st t && existsb (fun n => mem t (inputs n)) (top st)) all in
      let bottoms := filter (fun n => existsb (fun t => ref t n) tops) (bot st) in
      let members := filter (in_graph st) all in
      if existsb support members then Some (col st, Group bottoms tops)
      else Some (fun n => if in_graph st n then 0 else col st n, Routes)
  end.
End Explore.

Record group := Grp { g_color : Z; g_ins : list nat; g_outs : list nat }.

Definition uncolored (c : nat -> Z) (l : list nat) : list nat := filter (fun n => c n <? 0) l.

(** split (567-592) *)
Fixpoint split_loop (fuel xfuel : nat) (all queue : list nat) (c : nat -> Z) (groups : list group) : option ((nat -> Z) * list group) :=
  match fuel with
  | O => None
  | S fuel' =>
      match pop_top queue with
      | None => Some (c, groups)
      | Some (n, queue) =>
          if 0 <=? c n then split_loop fuel' xfuel all queue c groups else
          let i := Z.of_nat (length groups) + 1 in
          match explore i xfuel all c n with
          | None => None
          | Some (c', NotGraph) =>
              let c'' := paint c' n 0 in
              split_loop fuel' xfuel all (queue ++ uncolored c'' (inputs n)) c'' groups
          | Some (c', Routes) => split_loop fuel' xfuel all queue c' groups
          | Some (c', Group ins outs) =>
              split_loop fuel' xfuel all (queue ++ uncolored c' ins) c' (groups ++ [Grp i ins outs])
          end
      end
  end.

Definition split (fuel xfuel : nat) (all tops : list nat) : option ((nat -> Z) * list group) :=
  split_loop fuel xfuel all tops (fun _ => -1) [].
End Split.
