(** Options as the user declares them. *)
From Coq Require Import List Bool Arith Ascii.
From Verif Require Import TextModel TextSpec ArgModel.
Import ListNotations.

(** ArgParser::add(name :: aliases, negations, default) *)
Record decl := mkDecl { name : str; aliases : list str; negations : list str; by_default : bool }.
Definition spellings (d : decl) : list str := name d :: aliases d ++ negations d.

Fixpoint declare (p : parser) (ds : list decl) : option parser :=
  match ds with
  | [] => Some p
  | d :: r => match add p (name d :: aliases d) (negations d) (by_default d) with
              | Some p1 => declare p1 r
              | None => None
              end
  end.

Definition member (l : list str) (w : str) : bool := if in_dec (list_eq_dec ascii_dec) w l then true else false.

(** what one word says about an option; words of the form -v:..:.. are about
    devices *)
Definition says (d : decl) (w : str) : option bool :=
  match device_map w with
  | Some _ => None
  | None => if member (name d :: aliases d) w then Some true
            else if member (negations d) w then Some false
            else None
  end.
(** the last word that says something *)
Definition last_said (d : decl) (words : list str) : option bool :=
  fold_left (fun b w => match says d w with Some c => Some c | None => b end) words None.

(** following the device map from [d] ends at [e] *)
Inductive leads (m : list (str * str)) : str -> str -> Prop :=
| leads_end d : find m d = None -> leads m d d
| leads_on d d' e : find m d = Some d' -> leads m d' e -> leads m d e.
