(** Model of the image filter: src/runtime/image_filter.cpp, with the small part
    of src/module/menu.cpp, include/module/graph.h and src/module/module.cpp it
    relies on. *)
From Coq Require Import ZArith List Bool String Ascii Lia.
Import ListNotations.
Open Scope Z_scope.

(** Constant tensors a filter stores, either as constant nodes or as attributes
    of a node: tensor::build and tensor::from with FLOAT32 or INT32 elements
    (include/core/tensor_builder.h).  Simplification: the element type is the
    constructor, the element values are kept as they are. *)
Inductive ctensor (F : Type) :=
| FloatT (shape : list Z) (data : list F)
| IntT (shape : list Z) (data : list Z).
Arguments FloatT {F}.
Arguments IntT {F}.

(** Nodes of the filter's graph.  [POp name attrs inputs] is a node made by
    bubble::op and linked to [inputs], which are positions in the node list
    (src/module/menu.cpp 14-64; include/module/graph.h 174-184). *)
Inductive pnode (F : Type) :=
| PParam
| PConst (t : ctensor F)
| POp (name : string) (attrs : list (string * ctensor F)) (inputs : list nat).
Arguments PParam {F}.
Arguments PConst {F}.
Arguments POp {F}.

(** The calls that append a step to the filter (image_filter.h 35-75).
    [method] is ResizeMethod as an int32. *)
Inductive call (F : Type) :=
| ToFloat
| Scale (f : F)
| SubMean (mean : list F)
| DivStd (std : list F)
| Resize (width height method : Z)
| ResizeShort (side method : Z)
| ChannelSwap (shuffle : list Z)
| ToChw
| CenterCrop (width height : Z)
| CenterCropSide (side : Z)
| Prewhiten
| Letterbox (width height : Z) (outer : F) (method : Z)
| Divided (width height : Z) (padding : F)
| ForceColor
| ForceGray
| ForceGrayScale (scale : list F)
| NormImage (epsilon : F).
Arguments ToFloat {F}.
Arguments Scale {F}.
Arguments SubMean {F}.
Arguments DivStd {F}.
Arguments Resize {F}.
Arguments ResizeShort {F}.
Arguments ChannelSwap {F}.
Arguments ToChw {F}.
Arguments CenterCrop {F}.
Arguments CenterCropSide {F}.
Arguments Prewhiten {F}.
Arguments Letterbox {F}.
Arguments Divided {F}.
Arguments ForceColor {F}.
Arguments ForceGray {F}.
Arguments ForceGrayScale {F}.
Arguments NormImage {F}.

Section Model.
Context {F V : Type}.
(** [recip x] is 1.0f / x. *)
Variable recip : F -> F.
(** Tensors of the run: sizes(), reshape() (None: the exception of
    src/core/tensor.cpp when the counts differ), a constant tensor as a value,
    and the result of one layer on its inputs (None: the operator throws). *)
Variable sizes : V -> list Z.
Variable reshape : V -> list Z -> option V.
Variable constant : ctensor F -> V.
Variable layer : string -> list (string * ctensor F) -> list V -> option V.

Definition graph := list (pnode F).

(** nodes().back(): the position of the last node. *)
Definition back (g : graph) : nat := Nat.pred (List.length g).

Definition vec_f (l : list F) : ctensor F :=
  FloatT [1; 1; 1; Z.of_nat (List.length l)] l.
Definition vec_i (l : list Z) : ctensor F := IntT [Z.of_nat (List.length l)] l.
Definition scalar_f (f : F) : ctensor F := FloatT [1] [f].
Definition scalar_i (i : Z) : ctensor F := IntT [1] [i].

(** A node with one input: image_filter.cpp 107-113, 177-227, 243-289. *)
Definition unary (g : graph) (name : string) (attrs : list (string * ctensor F))
  : graph :=
  let x := back g in g ++ [POp name attrs [x]].

(** A constant and a node with two inputs: image_filter.cpp 115-162.  [lhs] is
    taken before the constant is appended. *)
Definition binary (g : graph) (name : string) (rhs : ctensor F)
  (attrs : list (string * ctensor F)) : graph :=
  let lhs := back g in
  let g1 := g ++ [PConst rhs] in
  let r := back g1 in
  g1 ++ [POp name attrs [lhs; r]].

(** image_filter.cpp 107-289: what each call appends to the graph. *)
Definition append (g : graph) (c : call F) : graph :=
  match c with
  | ToFloat => unary g "to_float" []
  | Scale f => binary g "mul" (scalar_f f) []
  | SubMean mean => binary g "sub" (vec_f mean) []
  | DivStd std => binary g "mul" (vec_f (map recip std)) []
  | Resize w h m =>
      binary g "_resize2d" (vec_i [-1; h; w; -1]) [("type"%string, scalar_i m)]
  | ResizeShort s m =>
      unary g "_nhwc_scale_resize2d"
            [("size"%string, vec_i [s]); ("type"%string, scalar_i m)]
  | ChannelSwap sh =>
      unary g "_dimshuffle"
            [("dim"%string, vec_i [3]); ("shuffle"%string, vec_i sh)]
  | ToChw => unary g "_transpose" [("permute"%string, vec_i [0; 3; 1; 2])]
  | CenterCrop w h => unary g "_nhwc_center_crop2d" [("size"%string, vec_i [w; h])]
  | CenterCropSide s => unary g "_nhwc_center_crop2d" [("size"%string, vec_i [s; s])]
  | Prewhiten => unary g "prewhiten" []
  | Letterbox w h v m =>
      unary g "_nhwc_letterbox"
            [("size"%string, vec_i [w; h]); ("type"%string, scalar_i m);
             ("outer_value"%string, scalar_f v)]
  | Divided w h v =>
      unary g "divided"
            [("size"%string, vec_i [1; h; w; 1]); ("padding_value"%string, scalar_f v)]
  | ForceColor => unary g "force_color" []
  | ForceGray => unary g "force_gray" []
  | ForceGrayScale l =>
      unary g "force_gray"
            [("scale"%string, FloatT [Z.of_nat (List.length l)] l)]
  | NormImage e => unary g "norm_image" [("epsilon"%string, scalar_f e)]
  end.

(** Nodes some other node is linked to have outputs (graph.h 40-80). *)
Definition consumed (g : graph) (i : nat) : bool :=
  existsb (fun n => match n with
                    | POp _ _ ins => existsb (Nat.eqb i) ins
                    | _ => false
                    end) g.

(** Module::load(Graph) (module.cpp 30-39): the outputs of the module are the
    nodes without outputs, in node order. *)
Definition module_outputs (g : graph) : list nat :=
  filter (fun i => negb (consumed g i)) (List.seq 0 (List.length g)).

(** A compiled program.  Simplification: the program is the graph it was compiled
    from together with the module outputs; that compiling preserves the meaning
    of the graph is C01-C07 and not repeated here. *)
Record program := Program { code : graph; results : list nat }.

(** The value of a node when the program's input is [x] (Workbench::launch_offline,
    workbench.cpp 510-530).  [fuel] bounds the depth; a node's inputs come earlier
    in the list so [List.length g] suffices. *)
Fixpoint value (fuel : nat) (g : graph) (x : V) (i : nat) : option V :=
  match fuel with
  | O => None
  | S k =>
      match nth_error g i with
      | None => None
      | Some PParam => Some x
      | Some (PConst t) => Some (constant t)
      | Some (POp name attrs ins) =>
          let fix all (l : list nat) : option (list V) :=
              match l with
              | [] => Some []
              | j :: r =>
                  match value k g x j, all r with
                  | Some a, Some b => Some (a :: b)
                  | _, _ => None
                  end
              end in
          match all ins with
          | Some args => layer name attrs args
          | None => None
          end
      end
  end.

(** ImageFilter::Implement (image_filter.cpp 20-27), without the device. *)
Record state := State { the_graph : graph; the_program : option program; compiled : bool }.

(** image_filter.cpp 37-43 *)
Definition clear : state := State [PParam] None false.

(** image_filter.cpp 45-53.  [ok] says whether Program::Compile, if it is called,
    returns; when it throws nothing is assigned.  The boolean of the result says
    whether compile() returned. *)
Definition compile (s : state) (ok : bool) : state * bool :=
  if compiled s then (s, true)
  else if (1 <? List.length (the_graph s))%nat then
    if ok then
      (State (the_graph s)
             (Some (Program (the_graph s) (module_outputs (the_graph s)))) true, true)
    else (s, false)
  else (State (the_graph s) (the_program s) true, true).

(** ShapeTransformer::before (image_filter.cpp 55-77); None: the exception. *)
Definition before (shape : list Z) : option (list Z) :=
  match shape with
  | [] => None
  | [a] => Some [1; a; 1; 1]
  | [a; b] => Some [1; a; b; 1]
  | [a; b; c] => Some [1; a; b; c]
  | [a; b; c; d] => Some [a; b; c; d]
  | a :: b :: c :: rest => Some [a; b; c; fold_left Z.mul rest 1]
  end.

(** ImageFilter::run (image_filter.cpp 83-102).  None: an exception.
    outputs[0] is the first module output. *)
Definition run (s : state) (image : V) (ok : bool) : state * option V :=
  let '(s1, fine) := compile s ok in
  if fine then
    match the_program s1 with
    | None => (s1, Some image)
    | Some p =>
        (s1,
         match before (sizes image) with
         | None => None
         | Some sh =>
             match reshape image sh with
             | None => None
             | Some x =>
                 match results p with
                 | [] => None
                 | o :: _ => value (List.length (code p)) (code p) x o
                 end
             end
         end)
    end
  else (s1, None).

(** image_filter.cpp 107-289: a call appends and forgets that it was compiled. *)
Definition add (s : state) (c : call F) : state :=
  State (append (the_graph s) c) (the_program s) false.

(** ImageFilter::clone and the private constructor (image_filter.cpp 217-227).
    None: m_program is null and is dereferenced (undefined behaviour). *)
Definition clone (s : state) : option state :=
  match the_program s with
  | None => None
  | Some p => Some (State (the_graph clear) (Some p) true)
  end.

(** The calls a client makes on one filter. *)
Inductive event :=
| Add (c : call F)
| Clear
| Compile (ok : bool)
| Run (image : V) (ok : bool).

Definition react (s : state) (e : event) : state :=
  match e with
  | Add c => add s c
  | Clear => clear
  | Compile ok => fst (compile s ok)
  | Run im ok => fst (run s im ok)
  end.

(** A filter after its construction (image_filter.cpp 29-36) and a history. *)
Definition after (h : list event) : state := fold_left react h clear.

End Model.
