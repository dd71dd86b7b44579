(** A queue of bytes: what is written is read once, in the order it was written. *)
From Coq Require Import List.
From Verif Require Import MemStreamModel.
Import ListNotations.

Section Queue.
Context {B : Type}.
(** the answers of a queue holding [q] to reads and writes *)
Fixpoint queue (q : list B) (ops : list (op B)) : list (result B) :=
  match ops with
  | [] => []
  | Read n :: ops' => Got (firstn n q) :: queue (skipn n q) ops'
  | Write l :: ops' => Wrote (length l) :: queue (q ++ l) ops'
  | _ :: ops' => Done :: queue q ops'
  end.
(** reads and writes only, and no read asks for more than there is *)
Fixpoint never_short (q : list B) (ops : list (op B)) : Prop :=
  match ops with
  | [] => True
  | Read n :: ops' => n <= length q /\ never_short (skipn n q) ops'
  | Write l :: ops' => never_short (q ++ l) ops'
  | _ :: ops' => False
  end.
Definition written (ops : list (op B)) : list B := concat (map (fun o => match o with Write l => l | _ => [] end) ops).
Definition got (rs : list (result B)) : list B := concat (map (fun r => match r with Got l => l | _ => [] end) rs).
End Queue.
