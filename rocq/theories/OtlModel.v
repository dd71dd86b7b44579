(** Model of include/utils/otl.h: the fixed capacity vector (255-447) and the
    8 byte string with its integer comparisons (48-165).

    A vector is its buffer of [cap] cells and its size.  [OutOfBounds] is an
    access outside the buffer (or a size below zero), [Error] is the exception
    the library throws.  The size field is as wide as needed; elements are
    copied as values (the code uses memmove on them). *)
From Coq Require Import ZArith NArith List Bool Arith.
Import ListNotations.

Section Vector.
Context {T : Type}.
Variable cap : nat.          (* N *)
Variable junk : T.           (* what uninitialised cells hold *)

Record vector := mkVec { buf : list T; size : nat }.

Inductive outcome := Ok (v : vector) | Error | OutOfBounds.
Definition bind (o : outcome) (f : vector -> outcome) : outcome :=
  match o with Ok v => f v | Error => Error | OutOfBounds => OutOfBounds end.

Definition new_vector : vector := mkVec (repeat junk cap) 0.

(** m_buf[i] = x *)
Definition store (v : vector) (i : nat) (x : T) : outcome :=
  if i <? cap then Ok (mkVec (firstn i (buf v) ++ x :: skipn (S i) (buf v)) (size v)) else OutOfBounds.
Fixpoint stores (v : vector) (i : nat) (l : list T) : outcome :=
  match l with
  | [] => Ok v
  | x :: r => bind (store v i x) (fun v => stores v (S i) r)
  end.
(** memmove / memcpy of [l] to cell [i] *)
Definition put (v : vector) (i : nat) (l : list T) : outcome :=
  if i + length l <=? cap
  then Ok (mkVec (firstn i (buf v) ++ l ++ skipn (i + length l) (buf v)) (size v)) else OutOfBounds.
Definition cells (v : vector) (i n : nat) : list T := firstn n (skipn i (buf v)).
(** memmove(m_buf + to, m_buf + from, n) *)
Definition move (v : vector) (to from n : nat) : outcome :=
  if from + n <=? cap then put v to (cells v from n) else OutOfBounds.
Definition resized (n : nat) (v : vector) : vector := mkVec (buf v) n.

(** 296-307 *)
Fixpoint range_loop (v : vector) (n : nat) (l : list T) : outcome :=
  match l with
  | [] => Ok (resized n v)
  | x :: r => if cap <? n then Error else bind (store v n x) (fun v => range_loop v (S n) r)
  end.
Definition from_range (l : list T) : outcome := range_loop new_vector 0 l.

(** 313-323 *)
Definition from_list (l : list T) : outcome :=
  if cap <? length l then Error
  else bind (stores new_vector 0 l) (fun v => Ok (resized (length l) v)).

(** 284-292 *)
Definition fill (n : nat) (x : T) : outcome := bind (stores new_vector 0 (repeat x n)) (fun v => Ok (resized n v)).

(** 423-428 *)
Definition erase (v : vector) (i len : nat) : outcome :=
  let len := if size v <? len + i then size v - i else len in
  bind (move v i (i + len) (size v - i - len)) (fun v' => Ok (resized (size v - len) v')).
(** 430-437 *)
Definition insert1 (v : vector) (i : nat) (x : T) : outcome :=
  if cap <? i + 1 then Error
  else bind (move v (i + 1) i (size v - i)) (fun v' =>
       bind (store v' i x) (fun v'' => Ok (resized (size v + 1) v''))).
(** 439-447 *)
Definition insert (v : vector) (i : nat) (l : list T) : outcome :=
  if cap <? i + length l then Error
  else bind (move v (i + length l) i (size v - i)) (fun v' =>
       bind (put v' i l) (fun v'' => Ok (resized (size v + length l) v''))).

Inductive op :=
| FromRange (l : list T)               (* assignment from a range, 296-307 *)
| FromList (l : list T)                (* from an initializer list, 313-323 *)
| Fill (n : nat) (x : T)               (* 284-292 *)
| Resize (n : nat) (x : T)             (* 368-370 *)
| EraseAt (i : nat)                    (* 372-375 *)
| Erase (i j : nat)                    (* 377-383 *)
| Insert (i : nat) (x : T)             (* 385-388 *)
| InsertRange (i : nat) (l : list T)   (* 390-394 *)
| PushBack (x : T)                     (* 396-399 *)
| PopBack                              (* 401-403; below zero the size wraps *)
| Clear                                (* 411-413 *)
| Set_ (i : nat) (x : T).              (* 348-353 *)

Definition run1 (v : vector) (o : op) : outcome :=
  match o with
  | FromRange l => from_range l
  | FromList l => from_list l
  | Fill n x | Resize n x => fill n x
  | EraseAt i => erase v i 1
  | Erase i j => if j <? i then Ok v else erase v i (j - i)
  | Insert i x => insert1 v i x
  | InsertRange i l => bind (from_range l) (fun t => insert v i (firstn (size t) (buf t)))
  | PushBack x => bind (store v (size v) x) (fun v' => Ok (resized (S (size v)) v'))
  | PopBack => if size v =? 0 then OutOfBounds else Ok (resized (size v - 1) v)
  | Clear => Ok (resized 0 v)
  | Set_ i x => store v i x
  end.
Fixpoint run (v : vector) (l : list op) : outcome :=
  match l with
  | [] => Ok v
  | o :: r => bind (run1 v o) (fun v => run v r)
  end.

(** begin() .. end() *)
Definition contents (v : vector) : list T := firstn (size v) (buf v).
End Vector.
Arguments vector : clear implicits.
Arguments outcome : clear implicits.
Arguments op : clear implicits.

(** ** string<8> *)
(** 66-72: the text up to its first NUL, in a zeroed buffer; [None] when longer
    than CAPACITY = 7 *)
Fixpoint c_str (s : list N) : list N :=
  match s with [] => [] | c :: r => if (c =? 0)%N then [] else c :: c_str r end.
Definition string8 (s : list N) : option (list N) :=
  if 7 <? length s then None else let t := c_str s in Some (t ++ repeat 0%N (8 - length t)).
(** *reinterpret_cast<const uint64_t *> on a little endian machine *)
Fixpoint word (b : list N) : N := match b with [] => 0%N | c :: r => (c + 256 * word r)%N end.
(** 146-165 *)
Definition eq8 (a b : list N) : bool := (word a =? word b)%N.
Definition lt8 (a b : list N) : bool := (word a <? word b)%N.
