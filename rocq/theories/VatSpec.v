(** What a user of the pooled allocator sees. *)
From Coq Require Import ZArith List Bool Arith.
From Verif Require Import VatModel.
Import ListNotations.
Local Open Scope Z_scope.

Definition disjoint (a b : region) : Prop := fst a + snd a <= fst b \/ fst b + snd b <= fst a.

(** the blocks (address, requested size) handed out and not given back,
    according to the calls and their answers *)
Fixpoint outstanding (ops : list op) (replies : list reply) (l : list region) : list region :=
  match ops, replies with
  | o :: os, a :: as_ =>
      outstanding os as_
        (match o, a with
         | Malloc n _, Ptr p => if n =? 0 then l else (p, n) :: l
         | Free p, Done => filter (fun b => negb (fst b =? p)) l
         | Reset, _ | Dispose, _ => []
         | _, _ => l
         end)
  | _, _ => l
  end.

(** The system allocator is only assumed to be correct: a region it hands out
    does not overlap the live ones.  Requests have non-negative sizes. *)
Definition asks (w : world) (o : op) : Prop :=
  match o with
  | Malloc n sys => 0 <= n /\ match sys with
                              | Some a => 0 < a /\ forall r, In r (live w) -> disjoint (a, n) r
                              | None => True
                              end
  | _ => True
  end.
Fixpoint admissible (w : world) (ops : list op) : Prop :=
  match ops with
  | [] => True
  | o :: os => asks w o /\ match step w o with Some (_, w1) => admissible w1 os | None => True end
  end.

Fixpoint total (l : list region) : Z := match l with [] => 0 | r :: t => snd r + total t end.

(** smaller idle blocks first *)
Fixpoint ordered (l : list pot) : Prop :=
  match l with
  | p :: ((q :: _) as r) => cap p <= cap q /\ ordered r
  | _ => True
  end.
