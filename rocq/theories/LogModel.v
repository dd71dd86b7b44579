(** Model of raising errors through the log: include/utils/log.h 66-166
    (LogStream, eject), src/utils/log.cpp 11-22, TS_LOG, TS_CHECK
    (include/utils/assert.h 42-43); and of decoding what the infer function of a
    user's operator returns: src/api/operator.cpp 90-125 with the encoder of
    include/api/cpp/operator.h 69-87.

    Simplifications: what is streamed is text already; the level is read once for
    a statement (it is an atomic other threads may change); the output of the
    log is left out. *)
From Coq Require Import List ZArith Bool String.
From Verif Require Import ApiModel.
Import ListNotations.
Local Open Scope string_scope.
Local Open Scope Z_scope.

(** LogLevel, log.h 36-43 *)
Definition LOG_NONE := 0.
Definition LOG_INFO := 3.
Definition LOG_ERROR := 4.
Definition LOG_FATAL := 5.

Record stream := Stream { level : Z; buffer : string }.
(** 86-91, 100-106: something is done *)
Definition active (global : Z) (s : stream) : bool := negb (level s =? LOG_NONE) && (global <=? level s).
(** 84-97 *)
Definition put_text (global : Z) (s : stream) (t : string) : stream :=
  if active global s then Stream (level s) (buffer s ++ t) else s.
(** 99-107 with 161-165: what `<< eject` throws, if it does *)
Definition eject (global : Z) (s : stream) : option string := if active global s then Some (buffer s) else None.
(** TS_LOG(level)(...)...; [place] is [file:line], parts what follows *)
Definition log (global l : Z) (place : string) (parts : list string) : option string :=
  eject global (fold_left (put_text global) (["["; place; "]: "] ++ parts)%list (Stream l "")).
(** TS_CHECK(condition) << parts << eject; [text] is the condition as text *)
Definition check (global : Z) (condition : bool) (place text : string) (parts : list string) : option string :=
  log global (if condition then LOG_NONE else LOG_ERROR) place (["Check failed: ("; text; "). "] ++ parts)%list.

(** src/api/tensor.cpp 13-56 with data, at a level: after a `<< eject` that does
    not throw, `break` and the empty tensor *)
Definition new_tensor_at (global : Z) (place : string) (dtype made : Z) : code :=
  if supported_dtype dtype then Done (Value made) else
  match log global LOG_ERROR place ["Not support dtype: "] with
  | Some text => Done (Exc text)
  | None => Done (Value made)
  end.

(** ** Answers of infer functions *)
(** [Escapes]: std::length_error, of a negative number of dimensions *)
Inductive answer := Decoded (l : list (Z * list Z)) | Refused | Escapes.
Definition item (data : list Z) (i : Z) : Z := nth (Z.to_nat i) data 0.
(** operator.cpp 108-118: [n] rounds from [anchor] *)
Fixpoint decode_rounds (n : nat) (data : list Z) (anchor : Z) : answer :=
  match n with
  | O => Decoded []
  | S n' =>
      let size := Z.of_nat (List.length data) in
      if size - anchor <? 2 then Refused else
      let dtype := item data anchor in
      let dims := item data (anchor + 1) in
      let anchor := anchor + 2 in
      if size - anchor <? dims then Refused else
      if dims <? 0 then Escapes else
      match decode_rounds n' data (anchor + dims) with
      | Decoded l => Decoded ((dtype, firstn (Z.to_nat dims) (skipn (Z.to_nat anchor) data)) :: l)
      | a => a
      end
  end.
(** 98-125: as many rounds as there are numbers *)
Definition decode (data : list Z) : answer :=
  let size := Z.of_nat (List.length data) in
  if size <=? 0 then Refused else decode_rounds (Z.to_nat size) data 1.
(** include/api/cpp/operator.h 73-81 *)
Definition encode (l : list (Z * list Z)) : list Z :=
  Z.of_nat (List.length l) :: flat_map (fun p => fst p :: Z.of_nat (List.length (snd p)) :: snd p) l.
