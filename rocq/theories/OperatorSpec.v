(** The meaning of the parameters of an operator in terms of what has been done
    to it, latest first. *)
From Coq Require Import Ascii String List Bool.
From Verif Require Import ShapeModel OperatorModel.
Import ListNotations.

Section Spec.
Context {V : Type} (is_empty : V -> bool).

Inductive action :=
| Set_param (p : string) (v : V)
| Clear (p : string)
| Clear_params
| Clear_fields
| Field (p : string) (a : attr) (default : option V)
| Mode (strict : bool).

(** doing it *)
Definition perform (o : operator V) (a : action) : sres (operator V) :=
  match a with
  | Set_param p v => set_ o p v
  | Clear p => clear o p
  | Clear_params => SOk (clear_params o)
  | Clear_fields => SOk (clear_fields o)
  | Field p at_ None => SOk (field o p at_)
  | Field p at_ (Some d) => SOk (field_default o p at_ d)
  | Mode m => SOk (set_mode o m)
  end.
Fixpoint after (h : list action) : sres (operator V) :=
  match h with
  | [] => SOk fresh_operator
  | a :: h' => match after h' with SOk o => perform o a | SErr => SErr | SUndef => SUndef end
  end.

(** a name the library keeps for itself *)
Definition reserved (p : string) : Prop := exists rest, p = String "#"%char rest.

(** declared (as required) since the last time the fields were cleared *)
Fixpoint declared_as (want : attr) (h : list action) (p : string) : Prop :=
  match h with
  | [] => False
  | Field q a _ :: h' => (q = p /\ a = want) \/ declared_as want h' p
  | Clear_fields :: _ => False
  | _ :: h' => declared_as want h' p
  end.
Definition declared (h : list action) (p : string) : Prop := declared_as OPTIONAL h p \/ declared_as REQUIRED h p.
Fixpoint is_strict (h : list action) : bool :=
  match h with [] => true | Mode m :: _ => m | _ :: h' => is_strict h' end.

(** [value h p v]: the latest action that decides about [p] gave it [v] *)
Fixpoint value (h : list action) (p : string) (v : option V) : Prop :=
  match h with
  | [] => v = None
  | Set_param q w :: h' => (q = p /\ v = Some w) \/ (q <> p /\ value h' p v)
  | Clear q :: h' => (q = p /\ v = None) \/ (q <> p /\ value h' p v)
  | Clear_params :: h' => (~ reserved p /\ v = None) \/ (reserved p /\ value h' p v)
  | Clear_fields :: h' => (declared_as REQUIRED h' p /\ v = None) \/ (~ declared_as REQUIRED h' p /\ value h' p v)
  | Field q a (Some w) :: h' => (q = p /\ v = Some w) \/ (q <> p /\ value h' p v)
  | Field q REQUIRED None :: h' => (q = p /\ v = None) \/ (q <> p /\ value h' p v)
  | Field _ OPTIONAL None :: h' => value h' p v
  | Mode _ :: h' => value h' p v
  end.

(** the value a name gets from the last declaration of a list, given what it
    had before *)
Definition default_of (ds : list (string * attr * option V)) (p : string) (v : option V) : Prop :=
  value (rev (map (fun d => match d with (q, a, w) => Field q a w end) ds)) p v.
End Spec.
