(** Model of the pattern fill (src/core/memory.cpp 124-144) on one device.
    The destination is the list of its bytes. *)
From Coq Require Import List Bool Arith.
Import ListNotations.

Section Memset.
Context {byte : Type}.

(** the converter is memcpy: [n] bytes from the start of the destination to
    position [at_]; [None] when it leaves the destination or overlaps *)
Definition copy_within (d : list byte) (at_ n : nat) : option (list byte) :=
  if (at_ + n <=? length d) && (n <=? at_)
  then Some (firstn at_ d ++ firstn n d ++ skipn (at_ + n) d)
  else None.

Inductive outcome := Filled (d : list byte) | OutOfBounds | OutOfFuel.

(** 135-143 *)
Fixpoint fill_loop (fuel : nat) (d : list byte) (copy_anchor : nat) : outcome :=
  match fuel with
  | O => OutOfFuel
  | S k =>
      if copy_anchor <=? length d / 2 then
        match copy_within d copy_anchor copy_anchor with
        | None => OutOfBounds
        | Some d' => fill_loop k d' (2 * copy_anchor)
        end
      else if copy_anchor <? length d then
        match copy_within d copy_anchor (length d - copy_anchor) with
        | None => OutOfBounds
        | Some d' => Filled d'
        end
      else Filled d
  end.

(** 133-134 *)
Definition memset (fuel : nat) (dst src : list byte) : outcome :=
  let n := Nat.min (length dst) (length src) in
  fill_loop fuel (firstn n src ++ skipn n dst) (length src).
End Memset.
