(** Model of the profiler: include/board/profiler.h 21-92, src/board/profiler.cpp
    18-82, include/board/board.h 22-155, and the label of an operator,
    src/runtime/instruction.cpp 23-32.

    A text is its characters.  snprintf is modelled for formats with %% and %04d:
    any other directive, or a second one, is undefined (it would read an argument
    that is not there, or print something else).  A duration is a rational and sums
    are exact.  The two hash tables are association lists.  A timer is recorded when
    it ends: a call here is that moment.  Statistics::max and min cannot be
    instantiated (they return an iterator) and are left out. *)
From Coq Require Import ZArith QArith Ascii String Bool List.
From Verif Require Import ShapeModel KernelBase.
Import ListNotations.
Local Open Scope Z_scope.

Definition text := list ascii.
Definition t (s : string) : text := list_ascii_of_string s.
Definition same (a b : text) : bool := if list_eq_dec ascii_dec a b then true else false.

(** %04d of a positive int *)
Definition digit (n : Z) : ascii := ascii_of_nat (48 + Z.to_nat n).
Fixpoint dec (fuel : nat) (n : Z) : text :=
  match fuel with
  | O => []
  | S f => if n <? 10 then [digit n] else dec f (n / 10) ++ [digit (n mod 10)]
  end.
Definition padded (n : Z) : text := let d := dec 10 n in repeat "0"%char (4 - List.length d) ++ d.
(** snprintf(buffer, ., format, arg): what is printed, before it is cut *)
Fixpoint print (format : text) (arg : option Z) : sres text :=
  let put c r := match r with SOk l => SOk (c ++ l) | SErr => SErr | SUndef => SUndef end in
  match format with
  | [] => SOk []
  | c :: f =>
      if negb (if ascii_dec c "%"%char then true else false) then put [c] (print f arg) else
      match f, arg with
      | d :: f', _ =>
          if ascii_dec d "%"%char then put ["%"%char] (print f' arg) else
          match f', arg with
          | z :: u :: f'', Some n => if list_eq_dec ascii_dec [d; z; u] ["0"; "4"; "d"]%char then put (padded n) (print f'' None) else SUndef
          | _, _ => SUndef
          end
      | [], _ => SUndef
      end
  end.

Record profiler := Profiler { board : list (text * list Q); serial : list (text * Z) }.
Definition empty : profiler := Profiler [] [].

(** profiler.cpp 18-24 *)
Definition serial_of (p : profiler) (name : text) : profiler * Z :=
  match find (fun e => same (fst e) name) (serial p) with
  | Some e => (p, snd e)
  | None => let n := Z.of_nat (List.length (serial p)) + 1 in (Profiler (board p) (serial p ++ [(name, n)]), n)
  end.
(** board.h 95-97, 31-33 *)
Fixpoint append (b : list (text * list Q)) (name : text) (d : Q) : list (text * list Q) :=
  match b with
  | [] => [(name, [d])]
  | (n, l) :: b' => if same n name then (n, l ++ [d]) :: b' else (n, l) :: append b' name d
  end.
(** board.h 149-153: a copy *)
Definition query (p : profiler) (name : text) : list Q :=
  match find (fun e => same (fst e) name) (board p) with Some e => snd e | None => [] end.
Definition sum (l : list Q) : Q := fold_left Qplus l 0%Q.
(** 49-51 *)
Definition avg (l : list Q) : Q := match l with [] => 0%Q | _ => (sum l / inject_Z (Z.of_nat (List.length l)))%Q end.

(** instruction.cpp 23-31 *)
Definition format_of (op name : text) : text := t "op(%04d):" ++ op ++ t ":" ++ name.

Inductive call :=
| Operator (op name : text) (d : Q)   (* an operator ran under the profiler *)
| Timer (name : text) (d : Q)         (* Profiler::timer *)
| BoardClear (name : text)            (* Board::clear *)
| BoardClean                          (* Board::clean *)
| Clean.                              (* Profiler::clean *)
Definition step (p : profiler) (c : call) : sres profiler :=
  match c with
  | Operator op name d => (* profiler.cpp 74-82 *)
      let f := format_of op name in
      let size := (2 * List.length f + 1)%nat in
      let '(p1, n) := serial_of p f in
      match print f (Some n) with
      | SOk s => SOk (Profiler (append (board p1) (firstn (size - 1) s) d) (serial p1))
      | SErr => SErr
      | SUndef => SUndef
      end
  | Timer name d => SOk (Profiler (append (board p) name d) (serial p)) (* 26-33 *)
  | BoardClear _ => SOk p (* board.h 99-101: clears the copy *)
  | BoardClean => SOk (Profiler [] (serial p))
  | Clean => SOk (Profiler (board p) []) (* profiler.h 60-62 *)
  end.
Fixpoint run (p : profiler) (cs : list call) : sres profiler :=
  match cs with
  | [] => SOk p
  | c :: cs' => match step p c with SOk p1 => run p1 cs' | SErr => SErr | SUndef => SUndef end
  end.
(** 55-63: the lines of the log, in some order *)
Definition log (p : profiler) : list (text * Q) := map (fun e => (fst e, avg (snd e))) (board p).
