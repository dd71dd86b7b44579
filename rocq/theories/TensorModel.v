(** Model of packed tensors (src/core/tensor.cpp 241-312, 441-457).  A plain
    tensor (memory and prototype) is an element of an abstract type; sharing
    of memory is not modelled.  A field of a packed tensor is itself a tensor
    and may be packed. *)
From Coq Require Import List ZArith Bool.
Import ListNotations.

Section TensorModel.
Context {S0 : Type}.
(** a default-constructed tensor (193-195) *)
Variable empty : S0.

Inductive tensor := T (head : S0) (fields : list tensor).

Definition t_head (t : tensor) := let (h, _) := t in h.
Definition t_fields (t : tensor) := let (_, f) := t in f.
Definition simple (h : S0) : tensor := T h [].
Definition default : tensor := simple empty.

(** 241-254.  With an empty list the memory and prototype are reset, but
    m_fields is left as it is. *)
Definition pack (this : tensor) (fields : list tensor) : tensor :=
  match fields with
  | [] => T empty (t_fields this)
  | f :: rest => T (t_head f) rest
  end.

(** 256-264 *)
Definition unpack (t : tensor) : list tensor := simple (t_head t) :: t_fields t.

(** 298-300 *)
Definition fields_count (t : tensor) : nat := S (length (t_fields t)).

(** 266-279: an [int] offset below zero counts from the end; if it is still
    negative it wraps to a huge size_t, which is out of range. *)
Definition field (t : tensor) (offset : Z) : option tensor :=
  let o := if (0 <=? offset)%Z then offset else (Z.of_nat (fields_count t) + offset)%Z in
  if (o =? 0)%Z then Some (simple (t_head t))
  else if (o <? 0)%Z then None
  else nth_error (t_fields t) (Z.to_nat o - 1).

Fixpoint update {A} (l : list A) (n : nat) (v : A) : list A :=
  match l, n with
  | [], _ => []
  | _ :: r, O => v :: r
  | x :: r, S n' => x :: update r n' v
  end.

(** 281-296 *)
Definition set_field (t : tensor) (offset : Z) (v : tensor) : option tensor :=
  let o := if (0 <=? offset)%Z then offset else (Z.of_nat (fields_count t) + offset)%Z in
  if (o =? 0)%Z then Some (T (t_head v) (t_fields t))
  else if (o <? 0)%Z then None
  else if Nat.ltb (Z.to_nat o - 1) (length (t_fields t))
       then Some (T (t_head t) (update (t_fields t) (Z.to_nat o - 1) v))
       else None.

(** 306-312 *)
Definition refield (t : tensor) (n : nat) : tensor :=
  match n with
  | O => default
  | S k => T (t_head t) (firstn k (t_fields t) ++ repeat default (k - length (t_fields t)))
  end.

(** Calls on one tensor object. *)
Inductive tcall :=
| TPack (fs : list tensor)
| TSet (offset : Z) (v : tensor)
| TRefield (n : nat).

Definition tstep (t : tensor) (c : tcall) : tensor :=
  match c with
  | TPack fs => pack t fs
  | TSet o v => match set_field t o v with Some t' => t' | None => t end
  | TRefield n => refield t n
  end.

Definition trun (t : tensor) (l : list tcall) : tensor := fold_left tstep l t.
End TensorModel.
Arguments tensor S0 : clear implicits.
Arguments tcall S0 : clear implicits.
