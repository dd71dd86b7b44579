(** How the CPU kernels are modelled: a kernel is the list of the element
    stores its loops perform, in order.  A load outside its buffer, a store
    outside the output and a negative memcpy size are undefined behaviour
    ([SUndef]).  The output memory is fresh: an element that no store reaches
    stays uninitialised ([None]).

    Sizes and indices are unbounded integers: products are assumed to fit in
    [int].  The bytes of an element are one value (kernels move elements as
    units of type_bytes). *)
From Coq Require Import List ZArith Bool.
From Verif Require Import ShapeModel.
Import ListNotations.
Local Open Scope Z_scope.

(** for (int i = 0; i < n; ++i) *)
Definition upto (n : Z) : list Z := map Z.of_nat (seq 0 (Z.to_nat n)).

(** x[i] *)
Definition load {A} (m : list A) (i : Z) : sres A :=
  if i <? 0 then SUndef
  else match nth_error m (Z.to_nat i) with Some a => SOk a | None => SUndef end.

Fixpoint set_nth {A} (n : nat) (a : A) (l : list A) : list A :=
  match l, n with
  | [], _ => []
  | _ :: t, O => a :: t
  | x :: t, S n' => x :: set_nth n' a t
  end.

(** out[i] = a *)
Definition store {A} (m : list (option A)) (i : Z) (a : A) : sres (list (option A)) :=
  if (i <? 0) || (Z.of_nat (length m) <=? i) then SUndef
  else SOk (set_nth (Z.to_nat i) (Some a) m).

(** one executed store: the index, and the outcome of computing the value *)
Definition event (A : Type) := (Z * sres A)%type.

Fixpoint exec {A} (m : list (option A)) (tr : list (event A)) : sres (list (option A)) :=
  match tr with
  | [] => SOk m
  | (i, v) :: rest =>
      match v with
      | SOk a => match store m i a with
                 | SOk m' => exec m' rest
                 | SErr => SErr
                 | SUndef => SUndef
                 end
      | SErr => SErr
      | SUndef => SUndef
      end
  end.

(** memory for a tensor of [n] elements *)
Definition fresh {A} (n : Z) : list (option A) := repeat None (Z.to_nat n).

(** memcpy of [n] elements, to [dst] in the output from [src] in [x] *)
Definition memcpy {A} (dst : Z) (x : list A) (src n : Z) : list (event A) :=
  if n <? 0 then [(dst, SUndef)]
  else map (fun k => (dst + k, load x (src + k))) (upto n).

(** several output buffers *)
Fixpoint exec_many {A} (ms : list (list (option A))) (tr : list (nat * event A)) :
  sres (list (list (option A))) :=
  match tr with
  | [] => SOk ms
  | (b, (i, v)) :: rest =>
      match nth_error ms b, v with
      | Some m, SOk a =>
          match store m i a with
          | SOk m' => exec_many (set_nth b m' ms) rest
          | SErr => SErr
          | SUndef => SUndef
          end
      | _, _ => SUndef
      end
  end.

(** a tensor *)
Record tensor (A : Type) := Tn { t_dtype : Z; t_shape : list Z; t_data : list A }.
Arguments Tn {A} _ _ _.
Arguments t_dtype {A} _.
Arguments t_shape {A} _.
Arguments t_data {A} _.

(** a tensor whose memory a kernel has filled, possibly not completely *)
Definition raw_tensor (A : Type) := tensor (option A).
