(** A packed tensor as a user sees it: a non-empty list of plain tensors. *)
From Coq Require Import List ZArith.
Import ListNotations.

Section TensorSpec.
Context {S0 : Type}.
Variable empty : S0.

Inductive lcall :=
| LPack (l : list S0)            (* pack these tensors; packing none gives one empty tensor *)
| LSet (offset : Z) (v : S0)     (* assign one field; out of range is an error, without effect *)
| LRefield (n : nat).            (* change the number of fields; new ones are empty tensors *)

(** Index into a list of [n] elements, negative ones counting from the end. *)
Definition slot (n : nat) (offset : Z) : option nat :=
  let o := if (offset <? 0)%Z then (Z.of_nat n + offset)%Z else offset in
  if ((o <? 0) || (Z.of_nat n <=? o))%Z%bool then None else Some (Z.to_nat o).

Definition lstep (l : list S0) (c : lcall) : list S0 :=
  match c with
  | LPack [] => [empty]
  | LPack l' => l'
  | LSet o v => match slot (length l) o with
                | Some i => firstn i l ++ v :: skipn (S i) l
                | None => l
                end
  | LRefield 0 => [empty]
  | LRefield n => firstn n l ++ repeat empty (n - length l)
  end.

Definition lrun (l : list S0) (h : list lcall) : list S0 := fold_left lstep h l.
End TensorSpec.
Arguments lcall S0 : clear implicits.
