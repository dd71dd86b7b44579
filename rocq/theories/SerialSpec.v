(** What may be written to a file.  A tensor is well formed when its dtype is
    one of the enumerators (include/core/dtype.h), it has at most 7 sizes,
    none negative, no partial product of sizes exceeds [int], and its memory
    has exactly the bytes its dtype and sizes call for. *)
From Coq Require Import List Bool ZArith.
From Verif Require Import ShapeSpec TensorModel SerialModel.
Import ListNotations.
Local Open Scope Z_scope.

Definition int_max : Z := 2147483647.

(** the size of one element, by dtype code *)
Definition is_one_of (d : Z) (l : list Z) : bool := existsb (Z.eqb d) l.
Definition sizeof (d : Z) : Z :=
  if is_one_of d [1; 2; 13; 16; 21; 25; 26; 27; 28; 29; 30; 31; 32] then 1   (* int8 uint8 char8 unknown8 bool sink8qX *)
  else if is_one_of d [3; 4; 9; 14; 17] then 2                               (* int16 uint16 float16 char16 unknown16 *)
  else if is_one_of d [5; 6; 10; 15; 18; 22] then 4                          (* int32 uint32 float32 char32 unknown32 complex32 *)
  else if is_one_of d [7; 8; 11; 12; 19; 23] then 8                          (* int64 uint64 float64 ptr unknown64 complex64 *)
  else if is_one_of d [20; 24] then 16                                       (* unknown128 complex128 *)
  else 0.                                                                    (* void *)

Record well_formed (p : plain) : Prop := {
  wf_dtype : 0 <= p_dtype p <= 32;
  wf_dims : (length (p_sizes p) <= 7)%nat;
  wf_sizes : Forall (fun x => 0 <= x <= int_max) (p_sizes p);
  wf_products : forall k, elements (firstn k (p_sizes p)) <= int_max;
  wf_memory : Z.of_nat (length (p_data p)) = elements (p_sizes p) * sizeof (p_dtype p)
}.

(** a tensor whose fields are not packed themselves *)
Definition flat (t : tensor plain) : Prop := forall f, In f (t_fields t) -> t_fields f = [].

Definition well_formed_tensor (t : tensor plain) : Prop :=
  well_formed (t_head t) /\ (forall f, In f (t_fields t) -> well_formed (t_head f)) /\
  Z.of_nat (fields_count t) < 4294967296.

(** Calls on a node's attributes that do not touch the reserved parameters
    (those whose name starts with '#') directly, do not move the object, and
    whose arguments fit the file format. *)
Definition string_ok (s : list Z) : Prop := Z.of_nat (length s) <= int_max.
Definition shape_ok (s : list Z) : Prop :=
  (length s <= 7)%nat /\ Forall (fun x => -2147483648 <= x <= int_max) s.

Definition call_ok (c : bcall) : Prop :=
  match c with
  | BSet k v => is_retention k = false /\ string_ok k /\ well_formed_tensor v /\ flat v
  | BClear k => is_retention k = false
  | BClearParams => True
  | BOp s | BName s => string_ok s
  | BShape s => shape_ok s
  | BDtype d => 0 <= d <= 32
  | BMove => False
  end.
