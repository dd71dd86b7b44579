(** Vocabulary for the claims about the C API. *)
From Coq Require Import List ZArith Bool String.
From Verif Require Import ApiModel.
Import ListNotations.
Local Open Scope string_scope.

(** Code that neither sets the message nor calls API functions: what a body does
    when no operator of the user is involved. *)
Inductive plain : code -> Prop :=
| plain_done o : plain (Done o)
| plain_message k : (forall m, plain (k m)) -> plain (Message k).

(** [s] is the end of [t]. *)
Definition ends_with (t s : string) : Prop := exists pre, t = pre ++ s.

(** [n] steps of a thread by itself *)
Fixpoint alone (n : nat) (s : control * string) : control * string :=
  match n with O => s | S k => alone k (tick (fst s) (snd s)) end.

(** the functions that use a pointer without checking it, although null is not a documented value *)
Definition careless : list string :=
  ["ts_Tensor_reshape"; "ts_Module_LoadFromStreamV2"; "ts_intime_memcpy"; "ts_Operator_Register"; "ts_OperatorParams_get";
   "ts_Operator_ThrowV2"; "ts_Operator_RegisterEx"; "ts_plugin_flush_creator"; "ts_plugin_free_creator_map";
   "ts_plugin_initial_device_context"; "ts_plugin_bind_device_context"; "ts_set_error_message"].
