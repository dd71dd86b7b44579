(** Model of src/compiler/argparse.cpp.  Strings are lists of characters; the
    three regular expressions are written out as functions.  towlower is the
    "C" locale's. *)
From Coq Require Import List Bool Arith Ascii NArith.
From Verif Require Import TextModel.
Import ListNotations.

Fixpoint str_eqb (a b : str) : bool :=
  match a, b with
  | [], [] => true
  | x :: a, y :: b => (x =? y)%char && str_eqb a b
  | _, _ => false
  end.

(** std::map with find, insert (an existing entry stays) and operator[] = *)
Fixpoint find {V} (m : list (str * V)) (k : str) : option V :=
  match m with [] => None | (k', v) :: r => if str_eqb k' k then Some v else find r k end.
Definition insert {V} (m : list (str * V)) (k : str) (v : V) : list (str * V) :=
  match find m k with Some _ => m | None => m ++ [(k, v)] end.
Fixpoint assign {V} (m : list (str * V)) (k : str) (v : V) : list (str * V) :=
  match m with
  | [] => [(k, v)]
  | (k', v') :: r => if str_eqb k' k then (k', v) :: r else (k', v') :: assign r k v
  end.

(** character classes *)
Definition is_space (c : ascii) : bool :=                                  (* \s *)
  existsb (fun n => (n =? N_of_ascii c)%N) [9; 10; 11; 12; 13; 32]%N.
Definition is_dash (c : ascii) : bool := (c =? "_")%char || (c =? "-")%char.   (* [_-] *)
Definition lower (c : ascii) : ascii :=
  let n := N_of_ascii c in
  if ((65 <=? n) && (n <=? 90))%N then ascii_of_N (n + 32)%N else c.

Fixpoint drop_while (p : ascii -> bool) (s : str) : str :=
  match s with [] => [] | c :: r => if p c then drop_while p r else s end.
Fixpoint take_while (p : ascii -> bool) (s : str) : str :=
  match s with [] => [] | c :: r => if p c then c :: take_while p r else [] end.
(** any number of [p], a group of others, any number of [p]: the group, when
    the whole string has that form *)
Definition stripped (p : ascii -> bool) (s : str) : option str :=
  let t := drop_while p s in
  let core := take_while (fun c => negb (p c)) t in
  match drop_while p (skipn (length core) t) with [] => Some core | _ => None end.

(** 14-25 *)
Definition stand1 (s : str) : str := map lower (match stripped is_space s with Some t => t | None => s end).
(** 27-35 *)
Definition stand2 (s : str) : str := match stripped is_dash s with Some t => t | None => s end.

Record parser := mkParser {
  true_names : list (str * str);        (* m_true_arg_names *)
  false_names : list (str * str);       (* m_false_arg_names *)
  values : list (str * bool);           (* m_arg_value *)
  devices : list (str * str) }.         (* m_map_device *)

Definition lit_cpu : str := ["c"; "p"; "u"]%char.
Definition lit_gpu : str := ["g"; "p"; "u"]%char.
Definition lit_cuda : str := ["c"; "u"; "d"; "a"]%char.
(** 37-40 *)
Definition new_parser : parser := mkParser [] [] [] (insert (insert [] [] lit_cpu) lit_cuda lit_gpu).

(** 42-60; [None]: throws *)
Definition add (p : parser) (arg neg : list str) (default_value : bool) : option parser :=
  match arg with
  | [] => None
  | name :: aliases =>
      Some (mkParser
        (fold_left (fun m a => insert m a name) aliases (insert (true_names p) name name))
        (fold_left (fun m a => insert m a name) neg (false_names p))
        (if default_value then insert (values p) name default_value else values p)
        (devices p))
  end.

(** 62-75 *)
Definition set (p : parser) (a : str) : bool * parser :=
  match find (true_names p) a with
  | Some n => (true, mkParser (true_names p) (false_names p) (assign (values p) n true) (devices p))
  | None =>
      match find (false_names p) a with
      | Some n => (true, mkParser (true_names p) (false_names p) (assign (values p) n false) (devices p))
      | None => (false, p)
      end
  end.

(** 77-83 *)
Definition get (p : parser) (a : str) : bool := match find (values p) a with Some b => b | None => false end.

(** 86: dash, v or V, colon, group, colon, group; no colon in the groups *)
Definition device_map (s : str) : option (str * str) :=
  match s with
  | d :: v :: c :: r =>
      if (d =? "-")%char && ((v =? "v")%char || (v =? "V")%char) && (c =? ":")%char then
        let a := take_while (fun c => negb (c =? ":")%char) r in
        match skipn (length a) r with
        | _ :: b => if existsb (fun c => (c =? ":")%char) b then None else Some (a, b)
        | [] => None
        end
      else None
  | _ => None
  end.

(** 85-101 *)
Definition blanks : str := map ascii_of_N [32; 9; 13; 10]%N.
Definition parse_one (p : parser) (param : str) : parser :=
  match param with
  | [] => p
  | _ =>
      match device_map param with
      | Some (a, b) => mkParser (true_names p) (false_names p) (values p) (assign (devices p) (stand1 a) (stand1 b))
      | None => snd (set p param)
      end
  end.
Definition parse (p : parser) (args : str) : option parser :=
  match TextModel.split args blanks with
  | Some params => Some (fold_left parse_one params p)
  | None => None
  end.

(** 103-113; [None]: it has not returned yet *)
Fixpoint map_loop (fuel : nat) (m : list (str * str)) (d : str) : option str :=
  match fuel with
  | O => None
  | S k => match find m d with
           | Some e => map_loop k m e
           | None => Some (stand2 d)
           end
  end.
Definition map_device (fuel : nat) (p : parser) (d : str) : option str := map_loop fuel (devices p) (stand1 d).
