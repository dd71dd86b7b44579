(** Cutting a text at separators. *)
From Coq Require Import List Bool Arith Ascii.
From Verif Require Import TextModel.
Import ListNotations.

(** pieces p0 .. pn with the separators d1 .. dn between them *)
Fixpoint weave (p : str) (rest : list (ascii * str)) : str :=
  match rest with
  | [] => p
  | (d, q) :: r => p ++ d :: weave q r
  end.
Definition free_of (sep p : str) : Prop := forall c, In c p -> ~ In c sep.

(** the pieces of [s] cut at the characters of [sep] *)
Definition cut (s sep : str) (pieces : list str) : Prop :=
  exists p rest, pieces = p :: map snd rest /\ s = weave p rest /\
    (forall d q, In (d, q) rest -> In d sep) /\ (forall q, In q pieces -> free_of sep q).
