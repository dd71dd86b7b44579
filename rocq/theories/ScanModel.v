(** Model of include/core/scan.h: iterations, their interpreter (Loop) and
    update_iteration.

    An iteration is a tree; [Null] is a null pointer (what a moved-from
    descriptor leaves in a group).  Counts are naturals; the 64 bit product of
    update_iteration is reduced modulo 2^64.  Trees are values here: the model
    says nothing about who owns the nodes (see DESIGN.md), except that reading
    a node that was just deleted is the outcome [UseAfterFree]. *)
From Coq Require Import ZArith NArith List Bool.
Import ListNotations.

(** 16-76 *)
Inductive iteration :=
| Null
| Step (times : N) (step : Z)
| Iters (times : N) (iters : list iteration).

(** 20: LONG_MIN *)
Definition finish : Z := (- 2 ^ 63)%Z.

(** 115-137 *)
Fixpoint clone_iteration (it : iteration) : iteration :=
  match it with
  | Null => Null
  | Step t s => Step t s
  | Iters t l => Iters t (map clone_iteration l)
  end.

(** ** IterationInterpreter (304-389) *)

(** 312-329: Status; building one reads the iteration *)
Definition status : Type := iteration * N.
Definition new_status (it : iteration) : option status :=
  match it with
  | Null => None
  | Step t _ => Some (it, t)
  | Iters t _ => Some (it, t)
  end.
Fixpoint new_statuses (l : list iteration) : option (list status) :=
  match l with
  | [] => Some []
  | it :: r => match new_status it, new_statuses r with
               | Some s, Some ss => Some (s :: ss)
               | _, _ => None
               end
  end.

Inductive deployed := Deployed (st : list status) | NullRead | OutOfFuel.

(** 349-368; the top of the stack is the head of the list.  The children are
    pushed last first. *)
Fixpoint deploy (fuel : nat) (st : list status) : deployed :=
  match fuel with
  | O => OutOfFuel
  | S k =>
      match st with
      | [] => Deployed []
      | (it, count) :: r =>
          if (count =? 0)%N then deploy k r
          else match it with
               | Iters _ l =>
                   match new_statuses l with
                   | None => NullRead
                   | Some ss => deploy k (ss ++ (it, N.pred count) :: r)
                   end
               | _ => Deployed st
               end
      end
  end.

(** 386-388: m_proto, m_status *)
Record loop := mkLoop { proto : iteration; stack : list status }.

(** 341-346 *)
Definition rewind (fuel : nat) (lp : loop) : option loop :=
  match proto lp with
  | Null => Some (mkLoop Null [])
  | it => match new_status it with
          | None => None
          | Some s => match deploy fuel [s] with
                      | Deployed st => Some (mkLoop it st)
                      | _ => None
                      end
          end
  end.
(** 331-339 *)
Definition bind (fuel : nat) (it : iteration) : option loop := rewind fuel (mkLoop it []).

(** reinterpret_cast<const IterationStep *>(proto)->step (325); only asked of
    steps *)
Definition step_of (it : iteration) : option Z :=
  match it with Step _ s => Some s | _ => None end.

(** 379-384 *)
Definition cur (lp : loop) : option Z :=
  match stack lp with
  | [] => Some finish
  | (it, _) :: _ => step_of it
  end.

(** 371-378 *)
Definition next (fuel : nat) (lp : loop) : option (Z * loop) :=
  match stack lp with
  | [] => Some (finish, lp)
  | (it, count) :: r =>
      match step_of it with
      | None => None
      | Some s => match deploy fuel ((it, N.pred count) :: r) with
                  | Deployed st => Some (s, mkLoop (proto lp) st)
                  | _ => None
                  end
      end
  end.

(** the calls a user makes *)
Inductive lop := Next | Current | Rewind | Bind (it : iteration).
Definition lstep (fuel : nat) (lp : loop) (o : lop) : option (option Z * loop) :=
  match o with
  | Next => option_map (fun r => (Some (fst r), snd r)) (next fuel lp)
  | Current => option_map (fun s => (Some s, lp)) (cur lp)
  | Rewind => option_map (fun l => (None, l)) (rewind fuel lp)
  | Bind it => option_map (fun l => (None, l)) (bind fuel it)
  end.
Fixpoint lrun (fuel : nat) (lp : loop) (l : list lop) : option (list (option Z)) :=
  match l with
  | [] => Some []
  | o :: r => match lstep fuel lp o with
              | None => None
              | Some (a, lp1) => option_map (cons a) (lrun fuel lp1 r)
              end
  end.
Definition new_loop : loop := mkLoop Null [].

(** ** update_iteration (139-177) *)
Definition w64 (n : N) : N := (n mod 2 ^ 64)%N.

(** the returned count, and the iteration left; [Null] when it was deleted *)
Inductive updated := Updated (n : N) (it : iteration) | UseAfterFree.

Fixpoint update_iteration (it : iteration) : updated :=
  match it with
  | Null => Updated 0 Null
  | Step t s => if (t =? 0)%N then Updated 0 Null else Updated t it
  | Iters t l =>
      if (t =? 0)%N then Updated 0 Null
      else
        match (fix children l :=
                 match l with
                 | [] => Some (0%N, [])
                 | c :: r =>
                     match update_iteration c with
                     | UseAfterFree => None
                     | Updated n c' =>
                         match children r with
                         | None => None
                         | Some (times, r') => if (n =? 0)%N then Some (times, r')
                                               else Some (w64 (n + times), c' :: r')
                         end
                     end
                 end) l with
        | None => UseAfterFree
        | Some (times, l') =>
            (* 163-164: deleted, then read *)
            if (times =? 0)%N then UseAfterFree
            else Updated (w64 (t * times)) (Iters t l')
        end
  end.
(** 172-177, 262: Scan::update *)
Definition update (it : iteration) : updated :=
  match update_iteration it with
  | UseAfterFree => UseAfterFree
  | Updated n it' => Updated n (if (n =? 0)%N then Null else it')
  end.
