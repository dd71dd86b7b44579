(** Model of running one operator outside a program: RunOperator
    (src/runtime/operator.cpp 262-278), Workbench::online_run
    (src/runtime/workbench.cpp 359-372), Workbench::offline_run (290-312) and
    intime::run (src/frontend/intime.cpp 18-37).  The operator has been
    created already; [f] is what its [run] does to its frame. *)
From Coq Require Import List ZArith Bool.
From Verif Require Import StackModel.
Import ListNotations.

Section IntimeModel.
Context {V : Type}.
Notation stack := (stack V).

(** the [need clear_stack] / [need pop_base] guards: run on every exit, the
    one declared last first *)
Definition leave (s : stack) : outcome V unit :=
  match clear s with
  | Done _ s1 => Done tt (pop_base s1)
  | Throw s1 => Throw (pop_base s1)
  | Undef => Undef
  end.

Definition guarded {A} (r : outcome V A) : outcome V A :=
  match r with
  | Done a s => match leave s with Done _ s1 => Done a s1 | Throw s1 => Throw s1 | Undef => Undef end
  | Throw s => match leave s with Done _ s1 => Throw s1 | Throw s1 => Throw s1 | Undef => Undef end
  | Undef => Undef
  end.

Definition push_all (s : stack) (l : list V) : stack := fold_left push l s.

(** workbench.cpp 359-372: pushes the inputs and passes the size of the whole
    current frame as the number of arguments *)
Definition online_run (f : list V -> opres V) (input : list V) (s : stack) : outcome V Z :=
  let s1 := push_all s input in run_operator f (size s1) s1.

(** workbench.cpp 290-312 *)
Definition offline_run (f : list V -> opres V) (input : list V) (s : stack) : outcome V (list V) :=
  match push_base s (size s) with
  | Done _ s1 =>
      guarded (match run_operator f (Z.of_nat (length input)) (push_all s1 input) with
               | Done k s2 => if (k =? size s2)%Z
                              then Done (firstn (Z.to_nat k) (frame s2)) s2
                              else Throw s2
               | Throw s2 => Throw s2
               | Undef => Undef
               end)
  | Throw s1 => Throw s1
  | Undef => Undef
  end.

Variable packV : list V -> V.

(** intime.cpp 18-37 *)
Definition intime_run (f : list V -> opres V) (input : list V) (s : stack) : outcome V V :=
  match push_base s (size s) with
  | Done _ s1 =>
      guarded (match online_run f input s1 with
               | Done _ s2 =>
                   Done (match frame s2 with [v] => v | l => packV l end) s2
               | Throw s2 => Throw s2
               | Undef => Undef
               end)
  | Throw s1 => Throw s1
  | Undef => Undef
  end.

End IntimeModel.
