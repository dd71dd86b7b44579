(** What launching a program must do, independently of the stack. *)
From Coq Require Import List ZArith.
From Verif Require Import StackModel CompilerSpec WorkbenchModel.
Import ListNotations.

Section WorkbenchSpec.
Context {V Opr : Type}.
Variable packV : list V -> V.
Variable fieldV : V -> Z -> option V.
Variable oprun : Opr -> list V -> opres V.
Variable adjust : V -> option V.
Notation program := (program V Opr).

(** The instructions turn the arguments into the outputs, above whatever the
    caller has on the stack. *)
Definition body (p : program) (args outs : list V) : Prop :=
  forall lo bs, run_list packV fieldV oprun (p_data p) (p_insts p) (frame_stack lo args bs)
                = Done tt (frame_stack lo outs bs).

(** The instructions stop with an error on these arguments. *)
Definition body_fails (p : program) (args : list V) : Prop :=
  forall lo bs, exists fr, run_list packV fieldV oprun (p_data p) (p_insts p) (frame_stack lo args bs)
                = Throw (frame_stack lo fr bs).

Definition casted (c : option (list V -> opres V)) (v w : V) : Prop :=
  match c with
  | None => w = v
  | Some c => exists fr, c [v] = ORet (fr ++ [w]) 1%Z
  end.

(** [launches p args outs]: every argument goes through its filter and its
    cast, and the instructions turn the results into [outs]. *)
Inductive launches : program -> list V -> list V -> Prop :=
| launches_intro p args ready outs :
    length args = p_nin p -> prepared (p_cfg p) args ready ->
    body p ready outs -> length outs = p_nout p ->
    launches p args outs
with prepared : list (option program * option (list V -> opres V)) -> list V -> list V -> Prop :=
| prepared_nil : prepared [] [] []
| prepared_cons flt cst cfg v w x vs xs :
    filtered flt v w -> casted cst w x -> prepared cfg vs xs ->
    prepared ((flt, cst) :: cfg) (v :: vs) (x :: xs)
with filtered : option program -> V -> V -> Prop :=
| filtered_none v : filtered None v v
| filtered_some q v a w : adjust v = Some a -> launches q [a] [w] -> filtered (Some q) v w.

(** Programs as Program::Compile and Program::bind_filter make them. *)
Inductive well_formed : program -> Prop :=
| wf_intro p :
    length (p_cfg p) = p_nin p ->
    (forall args, length args = p_nin p ->
       (exists outs, body p args outs) \/ body_fails p args) ->
    (forall flt c, In (flt, Some c) (p_cfg p) -> forall v fr k, c [v] = ORet fr k -> k = 1%Z) ->
    (forall q c, In (Some q, c) (p_cfg p) -> p_nin q = 1 /\ p_nout q = 1 /\ well_formed q) ->
    well_formed p.

End WorkbenchSpec.
