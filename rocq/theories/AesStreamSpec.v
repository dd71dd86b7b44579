(** What a user expects of the encrypted file streams. *)
From Coq Require Import Init.Byte NArith ZArith List Bool Arith.
From Verif Require Import AesModel AesStreamModel.
Import ListNotations.
Local Open Scope Z_scope.

(** Reading [data] in pieces of the given sizes: every read gives the next
    bytes, fewer than asked for only at the end; when nothing is left a read
    of at least one byte may also report an error, but gives no bytes. *)
Fixpoint delivers (data : list byte) (sizes : list Z) (results : list result) : Prop :=
  match sizes, results with
  | [], [] => True
  | n :: ns, Got bytes :: rs =>
      bytes = firstn (Z.to_nat n) data /\ delivers (skipn (Z.to_nat n) data) ns rs
  | n :: ns, Error :: rs => data = [] /\ 0 < n /\ delivers data ns rs
  | _, _ => False
  end.

(** the file a program leaves behind that opens a writer with [key], writes
    the given pieces and closes it *)
Definition written (key : list byte) (pieces : list (list byte)) : list byte :=
  let rk := AES_init_ctx key in
  close rk (fold_left (write rk) pieces new_writer).
(** the results of opening a reader on [file] with [key] and reading *)
Definition read_back (key : list byte) (file : list byte) (sizes : list Z) : list result :=
  reads (AES_init_ctx key) (new_reader file) sizes.

(** a size that fits in an int *)
Definition int_size (n : Z) : Prop := 0 <= n <= 2147483647.

(** PKCS#7 padding: [n] bytes of value [n], 1 to 16 of them *)
Definition pkcs7 (data : list byte) : list byte :=
  let n := (16 - length data mod 16)%nat in
  data ++ repeat (match Strings.Byte.of_N (N.of_nat n) with Some b => b | None => x00 end) n.
