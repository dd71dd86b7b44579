(** Model of the error reporting of the C API: src/api/declaration.h 30-47
    (TRY_HEAD, RETURN_OR_CATCH, TRY_TAIL), src/api/errno.h 10-25 and errno.cpp 7
    (the thread_local message), src/api/common.cpp 11-17, the checks of pointers
    at the head of every function of src/api, the calls of user functions of
    APIPluginOperator (src/api/operator.cpp 21-88) and the head of ts_new_Tensor
    (src/api/tensor.cpp 13-40).

    What a function does besides (its body) is a parameter: a [code], that may
    itself run functions of the user (operators registered with
    ts_Operator_Register), which in turn call the API.

    Simplifications: a pointer or handle is a number, 0 being null; a void
    function returns 0; every failure value (nullptr, 0, false, TS_VOID) is 0. *)
From Coq Require Import List ZArith Bool String Ascii.
Import ListNotations.
Local Open Scope string_scope.

(** How a piece of code ends: [Exc] is ts::Exception (or derived from it) with
    its what(), [Alien] any other exception, [Undefined] undefined behaviour. *)
Inductive outcome := Value (v : Z) | Exc (what : string) | Alien | Undefined.

(** RETURN_OR_CATCH and TRY_TAIL; [Bare] functions have neither TRY_HEAD nor these *)
Inductive wrapper := Returns | Silent | Bare.

(** [SetMessage] is api::SetLEM, [Message] api::GetLEM *)
Inductive code :=
| Done (o : outcome)
| SetMessage (s : string) (k : code)
| Message (k : string -> code)
| Call (w : wrapper) (inner : code) (k : Z -> code).

(** declaration.h 34-47: the end of a function, from the outcome of what is
    between TRY_HEAD and RETURN_OR_CATCH or TRY_TAIL and the message then *)
Definition leave (w : wrapper) (r : outcome * string) : outcome * string :=
  match r, w with
  | (Exc e, _), Returns => (Value 0, e)
  | (Exc _, m), Silent => (Value 0, m)
  | _, _ => r
  end.
(** declaration.h 30-32: ClearLEM *)
Definition enter (w : wrapper) (m : string) : string := match w with Bare => m | _ => "" end.

(** The outcome and the message of the thread afterwards *)
Fixpoint run (c : code) (m : string) : outcome * string :=
  match c with
  | Done o => (o, m)
  | SetMessage s k => run k s
  | Message k => run (k m) m
  | Call w inner k =>
      match leave w (run inner (enter w m)) with
      | (Value v, m') => run (k v) m'
      | r => r
      end
  end.
(** one call of an API function with this body *)
Definition call (w : wrapper) (body : code) (m : string) : outcome * string := leave w (run body (enter w m)).

(** [c], then [k] with the value it returned *)
Fixpoint seq (c : code) (k : Z -> code) : code :=
  match c with
  | Done (Value v) => k v
  | Done o => Done o
  | SetMessage s c' => SetMessage s (seq c' k)
  | Message f => Message (fun m => seq (f m) k)
  | Call w inner f => Call w inner (fun v => seq (f v) k)
  end.

(** ** Pointers *)
(** A function: its end, which parameters are pointers (counted from 1), the
    checks in order as (parameter, number in the message), and which pointers may be
    null. Number 0 is the message of ts_Operator_Register. *)
Record function := Fn { fn_name : string; fn_wrapper : wrapper; fn_pointers : list nat; fn_checks : list (nat * nat); fn_optional : list nat }.

(** every function of src/api, with file and line *)
Definition functions : list function := [
  Fn "ts_new_Tensor" Returns [1; 4] [] [1; 4]; (* tensor.cpp 13 *)
  Fn "ts_free_Tensor" Silent [1] [] [1]; (* tensor.cpp 58 *)
  Fn "ts_Tensor_shape" Returns [1] [(1, 1)] []; (* tensor.cpp 64 *)
  Fn "ts_Tensor_shape_size" Returns [1] [(1, 1)] []; (* tensor.cpp 71 *)
  Fn "ts_Tensor_dtype" Returns [1] [(1, 1)] []; (* tensor.cpp 78 *)
  Fn "ts_Tensor_data" Returns [1] [(1, 1)] []; (* tensor.cpp 85 *)
  Fn "ts_Tensor_clone" Returns [1] [(1, 1)] []; (* tensor.cpp 92 *)
  Fn "ts_Tensor_sync_cpu" Returns [1] [(1, 1)] []; (* tensor.cpp 99 *)
  Fn "ts_Tensor_cast" Returns [1] [(1, 1)] []; (* tensor.cpp 106 *)
  Fn "ts_Tensor_reshape" Returns [1; 2] [(1, 1)] []; (* tensor.cpp 113 *)
  Fn "ts_Tensor_view_in_flow" Returns [1] [(1, 1)] []; (* tensor.cpp 120 *)
  Fn "ts_new_Tensor_in_flow" Returns [2; 5] [] [2; 5]; (* tensor.cpp 128 *)
  Fn "ts_Tensor_field" Returns [1] [(1, 1)] []; (* tensor.cpp 144 *)
  Fn "ts_Tensor_packed" Returns [1] [(1, 1)] []; (* tensor.cpp 151 *)
  Fn "ts_Tensor_fields_count" Returns [1] [(1, 1)] []; (* tensor.cpp 158 *)
  Fn "ts_Tensor_pack" Returns [1] [(1, 1)] []; (* tensor.cpp 165 *)
  Fn "ts_Tensor_slice" Returns [1] [(1, 1)] []; (* tensor.cpp 178 *)
  Fn "ts_Tensor_slice_v2" Returns [1] [(1, 1)] []; (* tensor.cpp 187 *)
  Fn "ts_Tensor_save" Returns [1; 2] [(1, 1); (2, 2)] []; (* tensor.cpp 196 *)
  Fn "ts_Tensor_load" Returns [1] [(1, 1)] []; (* tensor.cpp 204 *)
  Fn "ts_Module_Load" Returns [1] [(1, 1)] []; (* module.cpp 11 *)
  Fn "ts_Module_LoadV2" Returns [1; 2] [(1, 1); (2, 2)] []; (* module.cpp 19 *)
  Fn "ts_free_Module" Silent [1] [] [1]; (* module.cpp 30 *)
  Fn "ts_Module_LoadFromStream" Returns [1; 2] [(1, 1); (2, 2)] []; (* module.cpp 71 *)
  Fn "ts_Module_LoadFromStreamV2" Returns [1; 2; 3; 4] [(1, 1); (2, 2); (3, 3)] []; (* module.cpp 81 *)
  Fn "ts_Module_translate" Returns [1; 2; 3] [(1, 1); (2, 2); (3, 3)] []; (* module.cpp 93 *)
  Fn "ts_Module_Fusion" Returns [1; 3] [(1, 1); (3, 2)] []; (* module.cpp 104 *)
  Fn "ts_Program_Compile" Returns [1; 2] [(1, 1); (2, 2)] []; (* program.cpp 13 *)
  Fn "ts_free_Program" Silent [1] [] [1]; (* program.cpp 22 *)
  Fn "ts_Program_clone" Returns [1] [(1, 1)] []; (* program.cpp 28 *)
  Fn "ts_Program_input_count" Returns [1] [(1, 1)] []; (* program.cpp 35 *)
  Fn "ts_Program_output_count" Returns [1] [(1, 1)] []; (* program.cpp 42 *)
  Fn "ts_Program_Compile_v2" Returns [1; 2; 3] [(1, 1); (2, 2); (3, 3)] []; (* program.cpp 49 *)
  Fn "ts_Program_set_operator_param" Returns [1; 2; 3; 4] [(1, 1); (2, 2); (3, 3); (4, 4)] []; (* program.cpp 61 *)
  Fn "ts_Workbench_Load" Returns [1; 2] [(1, 1); (2, 2)] []; (* workbench.cpp 15 *)
  Fn "ts_free_Workbench" Silent [1] [] [1]; (* workbench.cpp 24 *)
  Fn "ts_Workbench_clone" Returns [1] [(1, 1)] []; (* workbench.cpp 30 *)
  Fn "ts_Workbench_input" Returns [1; 3] [(1, 1); (3, 3)] []; (* workbench.cpp 37 *)
  Fn "ts_Workbench_input_by_name" Returns [1; 2; 3] [(1, 1); (2, 2); (3, 3)] []; (* workbench.cpp 45 *)
  Fn "ts_Workbench_run" Returns [1] [(1, 1)] []; (* workbench.cpp 54 *)
  Fn "ts_Workbench_output" Returns [1; 3] [(1, 1); (3, 3)] []; (* workbench.cpp 61 *)
  Fn "ts_Workbench_output_by_name" Returns [1; 2; 3] [(1, 1); (2, 2); (3, 3)] []; (* workbench.cpp 69 *)
  Fn "ts_Workbench_set_computing_thread_number" Returns [1] [(1, 1)] []; (* workbench.cpp 78 *)
  Fn "ts_Workbench_bind_filter" Returns [1; 3] [(1, 1); (3, 3)] []; (* workbench.cpp 85 *)
  Fn "ts_Workbench_bind_filter_by_name" Returns [1; 2; 3] [(1, 1); (2, 2); (3, 3)] []; (* workbench.cpp 93 *)
  Fn "ts_new_Workbench" Returns [1] [] [1]; (* workbench.cpp 102 *)
  Fn "ts_Workbench_setup_context" Returns [1] [(1, 1)] []; (* workbench.cpp 113 *)
  Fn "ts_Workbench_setup" Returns [1; 2] [(1, 1); (2, 2)] []; (* workbench.cpp 120 *)
  Fn "ts_Workbench_compile" Returns [1; 2] [(1, 1); (2, 2)] []; (* workbench.cpp 128 *)
  Fn "ts_Workbench_setup_device" Returns [1] [(1, 1)] []; (* workbench.cpp 137 *)
  Fn "ts_Workbench_setup_runtime" Returns [1] [(1, 1)] []; (* workbench.cpp 144 *)
  Fn "ts_Workbench_input_count" Returns [1] [(1, 1)] []; (* workbench.cpp 151 *)
  Fn "ts_Workbench_output_count" Returns [1] [(1, 1)] []; (* workbench.cpp 158 *)
  Fn "ts_Workbench_Load_v2" Returns [1; 2; 3] [(1, 1); (2, 2); (3, 3)] []; (* workbench.cpp 165 *)
  Fn "ts_Workbench_compile_v2" Returns [1; 2; 3] [(1, 1); (2, 2); (3, 3)] []; (* workbench.cpp 176 *)
  Fn "ts_Workbench_run_hook" Returns [1; 2] [(1, 1); (2, 2)] []; (* workbench.cpp 187 *)
  Fn "ts_Workbench_set_operator_param" Returns [1; 2; 3; 4] [(1, 1); (2, 2); (3, 3); (4, 4)] []; (* workbench.cpp 195 *)
  Fn "ts_Workbench_summary" Returns [1] [(1, 1)] []; (* workbench.cpp 206 *)
  Fn "ts_Workbench_set_cpu_mode" Returns [1] [(1, 1)] []; (* workbench.cpp 213 *)
  Fn "ts_new_ImageFilter" Returns [1] [] [1]; (* image_filter.cpp 13 *)
  Fn "ts_free_ImageFilter" Silent [1] [] [1]; (* image_filter.cpp 24 *)
  Fn "ts_ImageFilter_clear" Returns [1] [(1, 1)] []; (* image_filter.cpp 30 *)
  Fn "ts_ImageFilter_compile" Returns [1] [(1, 1)] []; (* image_filter.cpp 37 *)
  Fn "ts_ImageFilter_to_float" Returns [1] [(1, 1)] []; (* image_filter.cpp 44 *)
  Fn "ts_ImageFilter_scale" Returns [1] [(1, 1)] []; (* image_filter.cpp 51 *)
  Fn "ts_ImageFilter_sub_mean" Returns [1; 2] [(1, 1); (2, 2)] []; (* image_filter.cpp 58 *)
  Fn "ts_ImageFilter_div_std" Returns [1; 2] [(1, 1); (2, 2)] []; (* image_filter.cpp 66 *)
  Fn "ts_ImageFilter_resize" Returns [1] [(1, 1)] []; (* image_filter.cpp 74 *)
  Fn "ts_ImageFilter_resize_scalar" Returns [1] [(1, 1)] []; (* image_filter.cpp 81 *)
  Fn "ts_ImageFilter_center_crop" Returns [1] [(1, 1)] []; (* image_filter.cpp 88 *)
  Fn "ts_ImageFilter_channel_swap" Returns [1; 2] [(1, 1); (2, 2)] []; (* image_filter.cpp 95 *)
  Fn "ts_ImageFilter_to_chw" Returns [1] [(1, 1)] []; (* image_filter.cpp 103 *)
  Fn "ts_ImageFilter_prewhiten" Returns [1] [(1, 1)] []; (* image_filter.cpp 110 *)
  Fn "ts_ImageFilter_run" Returns [1; 2] [(1, 1); (2, 2)] []; (* image_filter.cpp 117 *)
  Fn "ts_ImageFilter_letterbox" Returns [1] [(1, 1)] []; (* image_filter.cpp 127 *)
  Fn "ts_ImageFilter_divided" Returns [1] [(1, 1)] []; (* image_filter.cpp 134 *)
  Fn "ts_ImageFilter_resize_v2" Returns [1] [(1, 1)] []; (* image_filter.cpp 141 *)
  Fn "ts_ImageFilter_resize_scalar_v2" Returns [1] [(1, 1)] []; (* image_filter.cpp 149 *)
  Fn "ts_ImageFilter_letterbox_v2" Returns [1] [(1, 1)] []; (* image_filter.cpp 157 *)
  Fn "ts_ImageFilter_force_color" Returns [1] [(1, 1)] []; (* image_filter.cpp 165 *)
  Fn "ts_ImageFilter_force_gray" Returns [1] [(1, 1)] []; (* image_filter.cpp 172 *)
  Fn "ts_ImageFilter_force_gray_v2" Returns [1; 2] [(1, 1); (2, 2)] []; (* image_filter.cpp 179 *)
  Fn "ts_ImageFilter_norm_image" Returns [1] [(1, 1)] []; (* image_filter.cpp 187 *)
  Fn "ts_ImageFilter_module" Returns [1] [(1, 1)] []; (* image_filter.cpp 194 *)
  Fn "ts_intime_transpose" Returns [1; 2] [(1, 1); (2, 2)] []; (* intime.cpp 13 *)
  Fn "ts_intime_sigmoid" Returns [1] [(1, 1)] []; (* intime.cpp 23 *)
  Fn "ts_intime_gather" Returns [1; 2] [(1, 1); (2, 2)] []; (* intime.cpp 32 *)
  Fn "ts_intime_concat" Returns [1] [(1, 1)] []; (* intime.cpp 42 *)
  Fn "ts_intime_softmax" Returns [1] [(1, 1)] []; (* intime.cpp 56 *)
  Fn "ts_intime_pad" Returns [1; 2] [(1, 1); (2, 2)] []; (* intime.cpp 65 *)
  Fn "ts_intime_cast" Returns [1] [(1, 1)] []; (* intime.cpp 75 *)
  Fn "ts_intime_resize2d" Returns [1; 2] [(1, 1); (2, 2)] []; (* intime.cpp 84 *)
  Fn "ts_intime_affine_sample2d" Returns [1; 2; 3] [(1, 1); (2, 2); (3, 3)] []; (* intime.cpp 94 *)
  Fn "ts_intime_affine_on_sample2d" Returns [1; 2; 3] [(1, 1); (2, 2); (3, 3)] []; (* intime.cpp 106 *)
  Fn "ts_intime_memcpy" Returns [1; 2; 4; 5] [(1, 1); (4, 2)] []; (* intime.cpp 118 *)
  Fn "ts_intime_matmul" Returns [1; 2] [(1, 1); (2, 2)] []; (* intime.cpp 132 *)
  Fn "ts_Operator_Register" Silent [1; 2; 3; 4; 5; 6; 7] [(3, 0); (4, 0); (5, 0); (7, 0)] [6]; (* operator.cpp 143 *)
  Fn "ts_OperatorParams_get" Returns [1; 2] [] []; (* operator.cpp 161 *)
  Fn "ts_Operator_Throw" Bare [1] [] [1]; (* operator.cpp 171 *)
  Fn "ts_Operator_ThrowV2" Bare [1; 2] [] [1]; (* operator.cpp 179 *)
  Fn "ts_Operator_RegisterEx" Silent [1; 2; 3; 4; 5; 6; 7] [(3, 0); (4, 0); (5, 0); (7, 0)] [6]; (* operator.cpp 187 *)
  Fn "ts_plugin_get_creator_map" Returns [] [] []; (* plugin.cpp 30 *)
  Fn "ts_plugin_flush_creator" Silent [1] [] []; (* plugin.cpp 37 *)
  Fn "ts_plugin_free_creator_map" Silent [1] [] []; (* plugin.cpp 43 *)
  Fn "ts_plugin_initial_device_context" Returns [1] [] []; (* plugin.cpp 50 *)
  Fn "ts_plugin_free_device_context" Silent [1] [] [1]; (* plugin.cpp 59 *)
  Fn "ts_plugin_bind_device_context" Silent [1] [] []; (* plugin.cpp 65 *)
  Fn "ts_setup" Returns [] [] []; (* setup.cpp 12 *)
  Fn "ts_last_error_message" Bare [] [] []; (* common.cpp 11 *)
  Fn "ts_set_error_message" Bare [1] [] [] (* common.cpp 15 *)
]%nat.

Definition null_text (n : nat) : string :=
  if Nat.eqb n 0 then "f_new, f_free, f_init and f_run can't be nullptr"
  else "NullPointerException: @param: " ++ String (ascii_of_nat (48 + n)) "".
(** the code of a function called with the pointers [null] being null *)
Definition guarded (f : function) (null : nat -> bool) (body : code) : code :=
  match find (fun c => null (fst c)) (fn_checks f) with
  | Some (_, n) => Done (Exc (null_text n))
  | None => if existsb (fun p => null p && negb (existsb (Nat.eqb p) (fn_optional f))) (fn_pointers f) then Done Undefined else body
  end.
Definition invoke (f : function) (null : nat -> bool) (body : code) (m : string) : outcome * string :=
  call (fn_wrapper f) (guarded f null body) m.

(** ** Operators of the user: src/api/operator.cpp *)
(** 50-53, 64-67, 78-81 and the prefix of TS_LOG, [at_] *)
Definition failed_text (at_ head device op m : string) : string :=
  at_ ++ head ++ device ++ " for " ++ op ++ "." ++ (if String.eqb m "" then "" else String (ascii_of_nat 10) "With: " ++ m).
(** ts_free_Tensor (tensor.cpp 58-62), the deleter of the result, called for null as well *)
Definition free_tensor (k : code) : code := Call Silent (Done (Value 0)) (fun _ => k).
(** 57-69, 84-88; [rest] takes the result to the stack *)
Definition plugin_run (at_ device op : string) (f : code) (rest : Z -> code) : code :=
  SetMessage "" (seq f (fun p =>
    if Z.eqb p 0 then Message (fun m => free_tensor (Done (Exc (failed_text at_ "Call ts_Operator_run failed (return null) on " device op m))))
    else seq (rest p) (fun r => free_tensor (Done (Value r))))).
(** 42-55 *)
Definition plugin_init (f : code) : code := seq f (fun _ => Done (Value 0)).
Definition plugin_init_ex (at_ device op : string) (f : code) : code :=
  SetMessage "" (seq f (fun b =>
    if Z.eqb b 0 then Message (fun m => Done (Exc (failed_text at_ "Call ts_Operator_init failed on " device op m))) else Done (Value 0))).

(** ** Many threads *)
(** What a thread has still to do: the code and the calls it is in *)
Inductive control :=
| Running (c : code) (stack : list (wrapper * (Z -> code)))
| Halted (o : outcome).
(** one step; the message is that of the thread *)
Definition tick (s : control) (m : string) : control * string :=
  match s with
  | Halted o => (s, m)
  | Running (SetMessage t k) st => (Running k st, t)
  | Running (Message k) st => (Running (k m) st, m)
  | Running (Call w inner k) st => (Running inner ((w, k) :: st), enter w m)
  | Running (Done o) [] => (Halted o, m)
  | Running (Done o) ((w, k) :: st) =>
      match leave w (o, m) with
      | (Value v, m') => (Running (k v) st, m')
      | (o', m') => (Running (Done o') st, m')
      end
  end.
(** errno.cpp 7: one message for each thread *)
Record world := World { controls : nat -> control; messages : nat -> string }.
Definition put {A} (f : nat -> A) (t : nat) (a : A) : nat -> A := fun u => if Nat.eqb u t then a else f u.
Definition step (w : world) (t : nat) : world :=
  let '(c, m) := tick (controls w t) (messages w t) in World (put (controls w) t c) (put (messages w) t m).
(** any schedule: which thread makes the next step *)
Definition execute (w : world) (schedule : list nat) : world := fold_left step schedule w.

(** ** src/api/tensor.cpp 13-56, up to the tensors made *)
Definition supported_dtype (t : Z) : bool := existsb (Z.eqb t) [1; 2; 3; 4; 5; 6; 7; 8; 10; 11; 13]%Z.
(** Shape(shape, shape + shape_len) of a negative length throws std::length_error *)
Definition new_tensor (at_ : string) (shape_null : bool) (shape_len dtype : Z) (data_null : bool) (made : Z) : code :=
  let len := if shape_null then 0%Z else shape_len in
  if data_null then (if (len <? 0)%Z then Done Alien else Done (Value made)) else
  if negb (supported_dtype dtype) then Done (Exc (at_ ++ "Not support dtype: ")) else
  if (len <? 0)%Z then Done Alien else Done (Value made).
