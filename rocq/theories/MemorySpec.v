(** A memory on the pool whose other users behave. *)
From Coq Require Import ZArith List Bool Arith.
From Verif Require Import VatModel VatSpec MemoryModel.
Import ListNotations.
Local Open Scope Z_scope.

(** the system allocator answers, and correctly, when the memory asks (after
    its old block has gone back to the pool) *)
Definition answers (w : world) (h : hard) (n : Z) (sys : option Z) : Prop :=
  0 <= n /\ exists a, sys = Some a /\ forall r w1, step w (Free (h_data h)) = Some (r, w1) -> asks w1 (Malloc n (Some a)).

(** dispose() is not called, and nobody else frees the memory's block *)
Definition good_call (w : world) (h : hard) (o : mop) : Prop :=
  match o with
  | Memory (HResize n sys) | Memory (HExpect n sys) | Memory (HShrink n sys) => answers w h n sys
  | Memory HDispose => False
  | Other (Free p) => p <> h_data h \/ p = 0
  | Other Reset | Other Dispose => False
  | Other o => asks w o
  end.

Fixpoint good_history (w : world) (h : hard) (l : list mop) : Prop :=
  match l with
  | [] => True
  | o :: r => good_call w h o /\
              match mem_step w h o with Some (_, _, h1, w1) => good_history w1 h1 r | None => True end
  end.

