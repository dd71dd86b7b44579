(** Model of the encrypted file streams (src/encryption/aes_fstream.cpp).
    The underlying file is a list of bytes; it opens and never fails to be
    written.  [rk] are the round keys of the stream's context. *)
From Coq Require Import Init.Byte NArith ZArith List Bool Arith.
From Verif Require Import AesModel.
Import ListNotations.

(** ** Writing (129-197) *)
(** [pending] is m_master[0 .. m_master_datalen) *)
Record writer := mkWriter { pending : list byte; out : list byte }.

(** 163-172 *)
Definition new_writer : writer := mkWriter [] [].

(** 133-156: the loop; every second iteration at least consumes input *)
Fixpoint write_loop (fuel : nat) (rk : list byte) (w : writer) (buffer : list byte) : writer :=
  match fuel with
  | O => w
  | S k =>
      match buffer with
      | [] => w
      | _ =>
          if length buffer <=? 16 - length (pending w)
          then mkWriter (pending w ++ buffer) (out w)
          else let n := 16 - length (pending w) in
               let blk := AES_ECB_encrypt rk (pending w ++ firstn n buffer) in
               write_loop k rk (mkWriter [] (out w ++ blk)) (skipn n buffer)
      end
  end.
Definition write (rk : list byte) (w : writer) (buffer : list byte) : writer :=
  write_loop (length buffer + 2) rk w buffer.

(** 174-197: the file after close *)
Definition close (rk : list byte) (w : writer) : list byte :=
  let w := if length (pending w) =? 16
           then mkWriter [] (out w ++ AES_ECB_encrypt rk (pending w)) else w in
  let npadding := u8 (N.of_nat (16 - length (pending w))) in
  let buf := repeat npadding 16 in
  let buf := pending w ++ skipn (length (pending w)) buf in
  out w ++ AES_ECB_encrypt rk buf.

(** ** Reading (11-125) *)
Record reader := mkReader {
  rest : list byte;              (* of the file *)
  eof : bool;                    (* m_stream.eof() *)
  master : list byte;            (* m_master, 16 bytes *)
  datalen : Z;                   (* m_master_datalen *)
  offset : Z;                    (* m_master_offset *)
  second : option (list byte)    (* m_second, if m_second_datalen is not 0 *)
}.

(** 112-123 *)
Definition new_reader (file : list byte) : reader := mkReader file false (repeat x00 16) 0 0 None.

Inductive result :=
| Got (bytes : list byte)        (* the return value is their number *)
| Error                          (* an exception *)
| Undef.                         (* memory outside m_master is read *)

(** m_stream.read of a block and gcount(): a partial block is a format error
    (what then stays in m_second is never used: the stream is at eof) *)
Inductive fetched := Block (b : list byte) | Short | Nothing.
Definition fetch (r : reader) : fetched * reader :=
  let got := firstn 16 (rest r) in
  let r' := mkReader (skipn 16 (rest r)) (eof r || (length (rest r) <? 16)) (master r) (datalen r)
                     (offset r) (second r) in
  (if length got =? 16 then Block got else match got with [] => Nothing | _ => Short end, r').

Local Open Scope Z_scope.

(** conversion of an int to size_t in a comparison *)
Definition to_size (z : Z) : Z := z mod 18446744073709551616.

Definition with_second (r : reader) (s : option (list byte)) : reader :=
  mkReader (rest r) (eof r) (master r) (datalen r) (offset r) s.

(** [n] bytes from m_master + [from]; [None] when they are not in it *)
Definition copy_master (r : reader) (from n : Z) : option (list byte) :=
  if (from <? 0) || (16 <? from + n) then None
  else Some (firstn (Z.to_nat n) (skipn (Z.to_nat from) (master r))).

(** 42-106: the loop; [acc] is what has been put into the buffer.  Each
    iteration consumes a block of the file. *)
Fixpoint read_loop (fuel : nat) (rk : list byte) (r : reader) (acc : list byte) (size : Z)
  : result * reader :=
  match fuel with
  | O => (Got acc, r)
  | S k =>
      let have := Z.of_nat (length acc) in
      if size <=? have then (Got acc, r)
      else
        (* 43-60 *)
        let first := match second r with
                     | Some b => (Block b, r)
                     | None => match fetch r with
                               | (Block b, r1) => (Block (AES_ECB_decrypt rk b), r1)
                               | fr => fr
                               end
                     end in
        match first with
        | (Short, r1) => (Error, r1)
        | (Nothing, r1) => (Got acc, r1)                          (* 47-49 *)
        | (Block b, r1) =>
            (* 62-64: m_second is copied to m_master *)
            let r2 := mkReader (rest r1) (eof r1) b 16 0 None in
            (* 66-83 *)
            match fetch r2 with
            | (Short, r3) => (Error, r3)
            | (f, r3) =>
                let iseof := match f with Block _ => false | _ => true end in
                let r4 := with_second r3 (match f with Block c => Some (AES_ECB_decrypt rk c) | _ => None end) in
                (* 85-87 *)
                let len := if iseof then 16 - Z.of_N (byte_N (at_ (master r4) 15)) else 16 in
                if size <=? to_size (have + len) then
                  (* 90-94 *)
                  match copy_master r4 0 (size - have) with
                  | None => (Undef, r4)
                  | Some bs => (Got (acc ++ bs),
                      mkReader (rest r4) (eof r4) (master r4) len (size - have) (second r4))
                  end
                else
                  (* 95-100 *)
                  match copy_master r4 0 len with
                  | None => (Undef, r4)
                  | Some bs =>
                      let r5 := mkReader (rest r4) (eof r4) (master r4) 0 0 (second r4) in
                      if iseof then (Got (acc ++ bs), r5) else read_loop k rk r5 (acc ++ bs) size
                  end
            end
        end
  end.

(** 16-109 *)
Definition read (rk : list byte) (r : reader) (size : Z) : result * reader :=
  let avail := datalen r - offset r in
  if size <=? to_size avail then
    match copy_master r (offset r) size with
    | None => (Undef, r)
    | Some bs => (Got bs, mkReader (rest r) (eof r) (master r) (datalen r) (offset r + size) (second r))
    end
  else
    let '(acc, r1) := if 0 <? avail
                      then (firstn (Z.to_nat avail) (skipn (Z.to_nat (offset r)) (master r)),
                            mkReader (rest r) (eof r) (master r) 0 0 (second r))
                      else ([], r) in
    if eof r1 then
      match acc with [] => (Error, r1) | _ => (Got acc, r1) end
    else read_loop (S (length (rest r1)) + 1) rk r1 acc size.

(** several reads in a row *)
Fixpoint reads (rk : list byte) (r : reader) (sizes : list Z) : list result :=
  match sizes with
  | [] => []
  | n :: t => let (a, r') := read rk r n in
              match a with Undef => [Undef] | _ => a :: reads rk r' t end
  end.
