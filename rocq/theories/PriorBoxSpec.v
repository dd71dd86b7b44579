(** What prior_box promises, without reference to its loops. *)
From Coq Require Import List ZArith Bool.
Import ListNotations.
Local Open Scope Z_scope.

Section Spec.
Variable R : Type.
Variables one two : R.
Variables add sub mul div : R -> R -> R.
Variable sqrt : R -> R.
Variable close : R -> R -> bool.

(** the given ratios that are not close to one seen before, each with its
    inverse if flipping is asked for *)
Fixpoint fresh_ratios (flip : bool) (seen given : list R) : list R :=
  match given with
  | [] => []
  | a :: rest =>
      if existsb (close a) seen then fresh_ratios flip seen rest
      else let new := a :: if flip then [div one a] else [] in new ++ fresh_ratios flip (seen ++ new) rest
  end.

(** width and height of the boxes of one minimum and, if there are any, its
    maximum *)
Definition boxes_of (others : list R) (m : R) (M : option R) : list (R * R) :=
  (m, m) :: match M with Some M => [(sqrt (mul m M), sqrt (mul m M))] | None => [] end ++
  map (fun a => (mul m (sqrt a), div m (sqrt a))) others.

Definition prior_sizes (others mins maxs : list R) : list (R * R) :=
  flat_map (fun p => boxes_of others (fst p) (snd p))
    (combine mins (match maxs with [] => map (fun _ => None) mins | _ => map Some maxs end)).

(** left, top, right and bottom of a box around (cx, cy), relative to the image *)
Definition coordinate (j : Z) (cx cy : R) (size : R * R) (iw ih : R) : R :=
  if j =? 0 then div (sub cx (div (fst size) two)) iw
  else if j =? 1 then div (sub cy (div (snd size) two)) ih
  else if j =? 2 then div (add cx (div (fst size) two)) iw
  else div (add cy (div (snd size) two)) ih.
End Spec.
