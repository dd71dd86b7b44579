(** Model of memset with a pattern (src/core/memory.cpp 124-144) and of the CPU
    constant_of_shape operator (src/kernels/cpu/constant_of_shape.cpp).
    Memory is a list of bytes, [None] for one that has not been written.  The
    copies are those of the CPU (C memcpy).  Sizes are unbounded integers; the
    shape asked for has no negative size (its memory would be refused by the
    allocator). *)
From Coq Require Import List ZArith Bool.
From Verif Require Import ShapeModel KernelBase.
Import ListNotations.
Local Open Scope Z_scope.

Section Memset.
Context {A : Type}.

(** the first [n] bytes of [src] written at [at_] of [m]: undefined outside the buffers *)
Definition put (m : list (option A)) (at_ : Z) (src : list (option A)) (n : Z) : sres (list (option A)) :=
  if (at_ <? 0) || (n <? 0) || (Z.of_nat (length m) <? at_ + n) || (Z.of_nat (length src) <? n) then SUndef
  else SOk (firstn (Z.to_nat at_) m ++ firstn (Z.to_nat n) src ++ skipn (Z.to_nat (at_ + n)) m).

(** copying [n] bytes from the start to [at_]: undefined when they overlap *)
Definition copy_in (m : list (option A)) (at_ n : Z) : sres (list (option A)) := if at_ <? n then SUndef else put m at_ m n.

(** 134-138 with at most [fuel] rounds; [None]: not finished *)
Fixpoint doubling (fuel : nat) (m : list (option A)) (anchor size : Z) : option (sres (list (option A) * Z)) :=
  if anchor <=? Z.shiftr size 1 then
    match fuel with
    | O => None
    | S fuel' => match copy_in m anchor anchor with
                 | SOk m' => doubling fuel' m' (Z.shiftl anchor 1) size
                 | SErr => Some SErr
                 | SUndef => Some SUndef
                 end
    end
  else Some (SOk (m, anchor)).

(** 124-144 *)
Definition memset (fuel : nat) (m : list (option A)) (size : Z) (src : list A) (src_size : Z) : option (sres (list (option A))) :=
  match put m 0 (map Some src) (Z.min size src_size) with
  | SOk m1 => match doubling fuel m1 src_size size with
              | Some (SOk (m2, anchor)) => Some (if anchor <? size then copy_in m2 anchor (size - anchor) else SOk m2)
              | Some SErr => Some SErr
              | Some SUndef => Some SUndef
              | None => None
              end
  | SErr => Some SErr
  | SUndef => Some SUndef
  end.
End Memset.

(** the sizes of the types (core/dtype.h type_bytes) that constant_of_shape accepts (64-80) *)
Definition constant_bytes (dtype : Z) : option Z :=
  match dtype with
  | 21 | 1 | 2 => Some 1
  | 3 | 4 => Some 2
  | 5 | 6 | 10 => Some 4
  | 7 | 8 | 11 => Some 8
  | _ => None
  end.

(** ConstantOfShape::init (15-22): the value, or the float 0, one element *)
Definition the_value (value : option (tensor Z)) : tensor Z :=
  match value with Some v => v | None => Tn 10 [1] [0; 0; 0; 0] end.

(** infer (24-34), run (36-49), constant_of_shape (51-86); the data of a tensor
    are its bytes; [shape] is the input as integers *)
Definition constant_of_shape (fuel : nat) (value : option (tensor Z)) (shape : list Z) : option (sres (tensor (option Z))) :=
  let v := the_value value in
  match constant_bytes (t_dtype v) with
  | None => Some SErr
  | Some w =>
      match memset fuel (fresh (prod shape * w)) (prod shape * w) (t_data v) (prod (t_shape v) * w) with
      | Some (SOk m) => Some (SOk (Tn (t_dtype v) shape m))
      | Some SErr => Some SErr
      | Some SUndef => Some SUndef
      | None => None
      end
  end.
