(** What "device handles are managed properly" means, on the calls the admin
    functions see. *)
From Coq Require Import String List Bool ZArith.
From Verif Require Import DeviceCtxModel.
Import ListNotations.

(** every handle is made once; before it is finalised, activated or
    synchronised it was made by the admin of the same type for the same device
    id, and it was not finalised yet *)
Definition proper (l : list event) : Prop :=
  forall before e after, l = before ++ e :: after ->
    match e_action e with
    | Initialization => forall e', In e' before -> e_handle e' <> e_handle e
    | _ => In (Event (e_type e) (e_id e) Initialization (e_handle e)) before /\
           forall e', In e' before -> e_action e' = Finalization -> e_handle e' <> e_handle e
    end.

(** made, and finalised *)
Definition made (l : list event) (t : string) (i : Z) (h : nat) : Prop := In (Event t i Initialization h) l.
Definition ended (l : list event) (h : nat) : Prop := exists e, In e l /\ e_action e = Finalization /\ e_handle e = h.

(** a context that has the use of a handle *)
Definition holds (w : world) (a : nat) (t : string) (i : Z) (h : nat) : Prop :=
  exists c, find w a = Some c /\ handle c = Some h /\ admin c = Some t /\ computing c = Some (t, i).

(** the way the library itself uses contexts: a context is only initialised when
    its handle is null or belongs to the very same device, and only moved onto a
    context that holds nothing *)
Definition careful (mapped : string -> string) (w : world) (x : call) : Prop :=
  match x with
  | Initialize a d => forall c, find w a = Some c -> handle c = None \/ (computing c = Some d /\ admin c = Some (fst d))
  | InitializeV2 a d => forall c, find w a = Some c -> handle c = None \/
      (computing c = Some (mapped (fst d), snd d) /\ admin c = Some (mapped (fst d)))
  | MoveTo a b => a = b \/ forall c, find w a = Some c -> handle c = None \/ admin c = None
  | _ => True
  end.

(** a history every call of which is careful *)
Inductive careful_history admins gives memory_of mapped keeps : world -> list call -> world -> Prop :=
| careful_nil w : careful_history admins gives memory_of mapped keeps w [] w
| careful_cons w x w' l w2 : careful mapped w x ->
    (step admins gives memory_of mapped keeps w x = Done w' \/ step admins gives memory_of mapped keeps w x = Threw w') ->
    careful_history admins gives memory_of mapped keeps w' l w2 ->
    careful_history admins gives memory_of mapped keeps w (x :: l) w2.
