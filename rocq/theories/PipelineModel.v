(** Model of the body of Compiler::compile (src/compiler/compiler.cpp 99-378):
    constant folding of the outputs (131-136) followed by the compilation of
    what it leaves.  Not included: the graph conversion of devices that
    register a converter (113-123) and the zip pass (125-129, see C31). *)
From Coq Require Import List ZArith Bool.
From Verif Require Import StackModel GraphSpec GraphModel IntimeModel ConstFoldModel CompilerModel.
Import ListNotations.

Section PipelineModel.
Context {V Opr : Type}.
Variable packV : list V -> V.
Variable oprun : Opr -> list V -> opres V.
Variable supported : Opr -> bool.
Variable bench : stack V.
Variable g : graph V Opr.
Variable fresh : node.
Variable outputs : list node.

Definition fold_compile (output_count : Opr -> Z) (fuel : nat) (inputs : list node) : cres (block V Opr) :=
  match const_fold packV oprun supported bench fuel g fresh outputs with
  | FOk (outs, g') => compile supported output_count fuel g' inputs outs
  | FErr => CErr
  | FFuel => CFuel
  end.

End PipelineModel.
