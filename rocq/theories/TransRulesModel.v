(** Models of the two rewriting rules the translator installs:
    PackTranslatorOption (src/compiler/option/pack_translator_option.cpp) and
    Fp16TranslatorOption (src/compiler/option/fp16_translator_option.cpp). *)
From Coq Require Import List ZArith Bool Arith.
From Verif Require Import StackModel GraphSpec GraphModel TransModel.
Import ListNotations.

Section Rules.
Context {V Opr : Type}.
Notation gstate := (gstate V Opr).
Notation rule := (rule V Opr).

(** bubble::bubble(node.bubble()) linked to the same inputs *)
Definition copy_rule (s : gstate) (n : node) : bool * option node * gstate :=
  (true, Some (gn s), gnew s (kind (gg s) n) (ins (gg s) n)).

(** Bubble::set on the value of an existing constant *)
Definition set_const (s : gstate) (k : node) (v : V) : gstate :=
  mkG {| kind := fun n => if Nat.eqb n k then KConst v else kind (gg s) n; ins := ins (gg s) |} (gn s).

(** pack_translator_option.cpp 29-270.  [kernel o] is the position of the
    kernel among the inputs for conv2d and inner_prod (1) and conv2d_v2 (2)
    (135-142), [None] for every other operator and for operators the device
    defines itself (53-57); [pack o v] is the packed kernel (193-235) and
    [mark o] the operator with kernel_packed set (240-244).
    Simplifications: the rewriting of gemm (60-132) is not modelled; a
    missing kernel input, undefined behaviour in the code, is left alone; a
    kernel that is not float32, an error in the code, is not distinguished. *)
Variable kernel : Opr -> option nat.
Variable pack : Opr -> V -> V.
Variable mark : Opr -> Opr.

Definition pack_rule : rule := fun s n flag =>
  match kind (gg s) n with
  | KVariable => (true, None, s)
  | KParam => (true, Some (gn s), gnew s KParam [])
  | KConst v => (true, Some (gn s), gnew s (KConst v) [])
  | KOp o =>
      match kernel o with
      | None => copy_rule s n
      | Some i =>
          match nth_error (ins (gg s) n) i with
          | None => copy_rule s n
          | Some k =>
              match kind (gg s) k with
              | KConst v =>
                  (true, Some (gn s),
                   set_const (gnew s (KOp (mark o)) (firstn (S i) (ins (gg s) n))) k (pack o v))
              | _ => copy_rule s n
              end
          end
      end
  | _ => copy_rule s n
  end.

(** fp16_translator_option.cpp 13-137.  [half o]: the device has a half
    precision version of the operator; [cast_to o]: the target type if [o] is
    a cast; [is_to_float]; [mk_cast d]: the cast operator.
    Simplification: the special treatment of batch_norm (95-134) is not
    modelled. *)
Variable half : Opr -> bool.
Variable cast_to : Opr -> option Z.
Variable is_to_float : Opr -> bool.
Variable mk_cast : Z -> Opr.
Variable dtype : V -> Z.

Definition FLOAT16 : Z := 9.
Definition FLOAT32 : Z := 10.
Definition FLOAT64 : Z := 11.

(** 61-78: does the input carry half precision, and may constants still be
    converted *)
Definition stream (k : nkind V Opr) (ok : bool) : bool * bool :=
  match k with
  | KOp o => match cast_to o with
             | Some d => (Z.eqb d FLOAT16 && half o, ok)
             | None => (half o, ok)
             end
  | KConst v => (Z.eqb (dtype v) FLOAT16,
                 ok && (Z.eqb (dtype v) FLOAT16 || Z.eqb (dtype v) FLOAT32 || Z.eqb (dtype v) FLOAT64))
  | _ => (false, ok)
  end.

(** 56-97 *)
Fixpoint fp16_inputs (self : bool) (is : list node) (s : gstate) (ok : bool) : list node * gstate :=
  match is with
  | [] => ([], s)
  | i :: rest =>
      let (st, ok1) := stream (kind (gg s) i) ok in
      let '(x, s1) :=
        if negb st && self && ok1 then (gn s, gnew s (KOp (mk_cast FLOAT16)) [i])
        else if st && negb self then (gn s, gnew s (KOp (mk_cast FLOAT32)) [i])
        else (i, s) in
      let (xs, s2) := fp16_inputs self rest s1 ok1 in
      (x :: xs, s2)
  end.

Definition fp16_op (s : gstate) (n : node) (self : bool) : bool * option node * gstate :=
  let (xs, s1) := fp16_inputs self (ins (gg s) n) s true in
  (true, Some (gn s1), gnew s1 (kind (gg s1) n) xs).

Definition fp16_rule : rule := fun s n flag =>
  match kind (gg s) n with
  | KVariable => (true, None, s)
  | KParam => (true, Some (gn s), gnew s KParam [])
  | KConst v => (true, Some (gn s), gnew s (KConst v) [])
  | KOp o =>
      match cast_to o with
      | Some _ => copy_rule s n
      | None =>
          if is_to_float o then copy_rule s n
          else if flag && half o then (true, Some (gn s), gnew s (KOp (mk_cast FLOAT32)) [n])
          else fp16_op s n (half o)
      end
  | _ => fp16_op s n false
  end.
End Rules.
