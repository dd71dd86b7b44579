(** Python's slices. *)
From Coq Require Import List ZArith Bool.
From Verif Require Import ShapeSpec KernelBase KernelSpec.
Import ListNotations.
Local Open Scope Z_scope.

(** a given bound, counted from the end when negative, and confined *)
Definition adjust (n lo hi b : Z) : Z := Z.max lo (Z.min hi (if b <? 0 then b + n else b)).

(** where slice(begin, end, step) starts and stops on a sequence of length
    [n]; [None] is an omitted bound *)
Definition py_begin (n step : Z) (b : option Z) : Z :=
  match b with
  | None => if 0 <? step then 0 else n - 1
  | Some b => if 0 <? step then adjust n 0 n b else adjust n (-1) (n - 1) b
  end.
Definition py_end (n step : Z) (e : option Z) : Z :=
  match e with
  | None => if 0 <? step then n else -1
  | Some e => if 0 <? step then adjust n 0 n e else adjust n (-1) (n - 1) e
  end.

(** [l] is the sequence start, start + step, ... as long as it stays before
    stop in the direction of [step] *)
Definition progression (start stop step : Z) (l : list Z) : Prop :=
  (forall k, (k < length l)%nat -> nth k l 0 = start + Z.of_nat k * step) /\
  (forall k, 0 <= k -> (k < Z.of_nat (length l) <-> if 0 <? step then start + k * step < stop else stop < start + k * step)).

Definition py_slice (n : Z) (b e : option Z) (step : Z) (l : list Z) : Prop :=
  progression (py_begin n step b) (py_end n step e) step l.

(** a masked bound is omitted *)
Definition unless (masked : bool) (b : Z) : option Z := if masked then None else Some b.

(** for every axis the indices that are kept, in order *)
Definition pick (sel : list (list Z)) (c : list Z) : list Z :=
  map (fun lc => nth (Z.to_nat (snd lc)) (fst lc) 0) (combine sel c).

Definition selected {A} (sel : list (list Z)) (x out : tensor A) : Prop :=
  t_dtype out = t_dtype x /\ t_shape out = map (fun l => Z.of_nat (length l)) sel /\
  forall c, inside (t_shape out) c -> inside (t_shape x) (pick sel c) /\ elt out c = elt x (pick sel c).
