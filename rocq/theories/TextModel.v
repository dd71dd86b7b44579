(** Model of src/utils/box.cpp: FindDecollator, Split, Join, edit_distance.
    Strings are lists of characters. *)
From Coq Require Import List Bool Arith Ascii.
Import ListNotations.

Definition str := list ascii.

(** sep.find(c) != npos *)
Definition has (sep : str) (c : ascii) : bool := existsb (fun d => (d =? c)%char) sep.

(** 133-140: the loop over i from [off]; [None] is npos *)
Fixpoint find_from (s : str) (sep : str) (i : nat) : option nat :=
  match s with
  | [] => None
  | c :: r => if has sep c then Some i else find_from r sep (S i)
  end.
Definition find_decollator (s sep : str) (off : nat) : option nat := find_from (skipn off s) sep off.

(** str.substr(lft, n) *)
Definition substr (s : str) (lft : nat) (n : option nat) : str :=
  match n with None => skipn lft s | Some n => firstn n (skipn lft s) end.

(** 142-156 *)
Fixpoint split_loop (fuel : nat) (s sep : str) (lft : nat) : option (list str) :=
  match fuel with
  | O => None
  | S k =>
      match find_decollator s sep lft with
      | None => Some [substr s lft None]
      | Some rgt => option_map (cons (substr s lft (Some (rgt - lft)))) (split_loop k s sep (rgt + 1))
      end
  end.
Definition split (s sep : str) : option (list str) := split_loop (S (length s)) s sep 0.

(** 158-165 *)
Fixpoint join_loop (i : nat) (l : list str) (sep : str) : str :=
  match l with
  | [] => []
  | x :: r => (if i =? 0 then [] else sep) ++ x ++ join_loop (S i) r sep
  end.
Definition join (l : list str) (sep : str) : str := join_loop 0 l sep.

(** ** edit_distance (22-54): the table is filled row by row; a row is the list
    of its entries.  *)
Definition min3 (a b c : nat) : nat := Nat.min (Nat.min a b) c.

(** 42-51: one row, from the row above; [up] is the entry above, [diag] the
    one before it, [lft] the entry to the lft *)
Fixpoint next_row (x : ascii) (rhs : str) (above : list nat) (diag lft : nat) : list nat :=
  match rhs, above with
  | y :: rhs, up :: above =>
      let d := if (x =? y)%char then min3 up lft diag else min3 (up + 1) (lft + 1) (diag + 2) in
      d :: next_row x rhs above up d
  | _, _ => []
  end.
(** 38-40 and 42-51: the rows below *)
Fixpoint rows (lhs : str) (rhs : str) (above : list nat) : list nat :=
  match lhs with
  | [] => above
  | x :: lhs =>
      match rhs, above with
      | _ :: rhs', up :: above' =>
          rows lhs rhs ((up + 1) :: next_row x rhs' above' up (up + 1))
      | _, _ => above
      end
  end.
(** 35-37: the first row *)
Fixpoint first_row (rhs : str) (d : nat) : list nat :=
  match rhs with [] => [] | _ :: r => d :: first_row r (d + 1) end.
Definition edit_distance (lhs rhs : str) : nat :=
  match lhs, rhs with
  | [], _ => length rhs                                                   (* 26 *)
  | _, [] => length lhs                                                   (* 27 *)
  | x :: lhs', y :: rhs' =>
      let d0 := if (x =? y)%char then 0 else 2 in                         (* 31 *)
      last (rows lhs' rhs (first_row rhs d0)) 0                           (* 53 *)
  end.
