(** Model of what the half precision translation does to a batch_norm after it has
    linked its inputs: the epsilon is added to the constant the variance comes from.
    src/compiler/option/fp16_translator_option.cpp 103-134 (the rest of the option is
    in TransRulesModel, C86; the operator in ActivationModel, C107).

    Simplifications: numbers are abstract, [conv t] makes a number one of type [t];
    an operator above the constant is what it computes from its first input, with
    its other inputs and attributes fixed; epsilon is a scalar. *)
From Coq Require Import List ZArith Bool.
From Verif Require Import ShapeModel KernelBase EltwiseModel ConvModel ActivationModel.
Import ListNotations.
Local Open Scope Z_scope.

(** the node the variance comes from *)
Inductive source (R : Type) :=
| Const (t : tensor R)
| Param                                                       (* an input of the graph, or a variable *)
| Op (f : tensor R -> sres (tensor R)) (first : source R)
| NoInputs.                                                   (* an operator without inputs *)
Arguments Const {R}. Arguments Param {R}. Arguments Op {R}. Arguments NoInputs {R}.

Section BnFold.
Context {R : Type} (rO : R) (radd : R -> R -> R).
Variable conv : Z -> R -> R.
Variable epsilon : R.

(** 121-129: what the constant holds afterwards *)
Definition raised (t : tensor R) : tensor R :=
  Tn (t_dtype t) (t_shape t) (map (fun v => conv (t_dtype t) (radd (conv 10 v) (conv 10 epsilon))) (t_data t)).

(** 108-114: down the first inputs; the source with its constant changed, and the
    constant's type; [SOk None]: there is no constant *)
Fixpoint raise_source (s : source R) : sres (option (source R * Z)) :=
  match s with
  | Const t => SOk (Some (Const (raised t), t_dtype t))
  | Param => SOk None
  | NoInputs => SUndef
  | Op f first => bind (raise_source first) (fun r => SOk (match r with Some (first', d) => Some (Op f first', d) | None => None end))
  end.
(** 103-134: the source and the epsilon after the rule.  A source that is an
    endpoint itself is left alone *)
Definition fold_epsilon (s : source R) : sres (source R * R) :=
  match s with
  | Op _ _ => bind (raise_source s) (fun r => SOk (match r with Some (s', d) => (s', conv d (conv 10 rO)) | None => (s, epsilon) end))
  | NoInputs => SUndef
  | _ => SOk (s, epsilon)
  end.

(** the value a source gives, [input] being that of the graph's input *)
Fixpoint eval (input : tensor R) (s : source R) : sres (tensor R) :=
  match s with
  | Const t => SOk t
  | Param => SOk input
  | Op f first => bind (eval input first) f
  | NoInputs => SErr
  end.
End BnFold.

(** the batch_norm whose variance comes from a source *)
Definition batch_norm_of {R} (rI : R) (radd rmul rsub rdiv : R -> R -> R) (conv : Z -> R -> R) (fsqrt : R -> R)
    (dim : Z) (epsilon : R) (x mean : tensor R) (input : tensor R) (s : source R) : sres (raw_tensor R) :=
  bind (eval input s) (fun variance => batch_norm rI radd rmul rsub rdiv conv fsqrt dim epsilon x mean variance).
