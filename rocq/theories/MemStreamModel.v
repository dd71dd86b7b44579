(** Model of the streams in memory: src/module/io/sstream.cpp 11-74,
    include/module/io/sstream.h, over the string streams of the C++ library.

    A std::stringstream is its characters, the places of the next character read
    and written, and its error flags ([istream.unformatted], [ostream.unformatted],
    [stringbuf]): read on a stream that is not good reads nothing; a read that
    finds fewer characters than asked sets eofbit and failbit; write on a stream
    that is not good writes nothing; setting the string puts both places at its
    start and leaves the flags.  Simplifications: eofbit and failbit are one flag,
    since read sets both; badbit is never set, since memory does not run out. *)
From Coq Require Import List Arith Bool.
Import ListNotations.

Section Streams.
Context {B : Type}.

Record stream := Stream { s_buf : list B; s_get : nat; s_put : nat; s_fail : bool }.
(** 65-66 and the like: std::stringstream(buffer) *)
Definition make (buffer : list B) : stream := Stream buffer 0 0 false.
(** std::istream::read, gcount *)
Definition std_read (s : stream) (n : nat) : stream * list B :=
  if s_fail s then (s, []) else
  let got := firstn n (skipn (s_get s) (s_buf s)) in
  (Stream (s_buf s) (s_get s + length got) (s_put s) (negb (length got =? n)), got).
(** std::ostream::write: characters from the place on are replaced, then appended *)
Definition std_write (s : stream) (l : list B) : stream :=
  if s_fail s then s else
  Stream (firstn (s_put s) (s_buf s) ++ l ++ skipn (s_put s + length l) (s_buf s)) (s_get s) (s_put s + length l) false.
Definition std_str (s : stream) (b : list B) : stream := Stream b 0 0 (s_fail s).

(** StringStream: 46-73 *)
Inductive op := Read (n : nat) | Write (l : list B) | SetStr (b : list B) | Clear.
Inductive result := Got (l : list B) | Wrote (n : nat) | Done.
Definition both (s : stream) (o : op) : stream * result :=
  match o with
  | Read n => let '(s', l) := std_read s n in (s', Got l)
  | Write l => (std_write s l, Wrote (length l)) (* 60-63: bad() ? 0 : size *)
  | SetStr b => (std_str s b, Done)
  | Clear => (std_str s [], Done) (* 50-52 *)
  end.
(** StringStreamReader: 11-28; it has no write *)
Definition reader (s : stream) (o : op) : stream * result := both s o.
(** StringStreamWriter: 30-48; it has no read, and str(buffer) calls m_stream.str() *)
Definition writer (s : stream) (o : op) : stream * result :=
  match o with SetStr b => (s, Done) | _ => both s o end.

Fixpoint run (f : stream -> op -> stream * result) (s : stream) (ops : list op) : stream * list result :=
  match ops with
  | [] => (s, [])
  | o :: ops' => let '(s1, r) := f s o in let '(s2, rs) := run f s1 ops' in (s2, r :: rs)
  end.
End Streams.
Arguments stream B : clear implicits.
Arguments op B : clear implicits.
Arguments result B : clear implicits.
