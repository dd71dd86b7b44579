(** Model of the functions that append operators to the graph at hand:
    src/frontend/symbol.cpp 13-110, src/frontend/desc.cpp 12-99 and the defaults
    of include/frontend/symbol.h 13-56, with Graph::make, Node::Link
    (include/module/graph.h 36-60, 272-277) and bubble::op, bubble::bubble
    (src/module/menu.cpp 19-24, 71-76).

    Simplifications: a node is the position it has in the list of nodes; only the
    inputs of a node are kept, not the list of its outputs; the parameters every
    bubble keeps for itself (#op, #name, #shape) are its op and name; the new node
    had no inputs before it is linked.  A single precision number is an [F]. *)
From Coq Require Import ZArith Bool String List.
Import ListNotations.
Local Open Scope string_scope.

Section Symbols.
Context {F : Type}.

(** tensor::from and tensor::build with these element types (desc.cpp) *)
Inductive param := PInt (v : Z) | PInts (v : list Z) | PFloat (v : F) | PBool (v : bool).
Record node := Node { n_op : string; n_name : string; n_params : list (string * param); n_inputs : list nat }.
Definition graph := list node.

(** a bubble and its parameters: desc.cpp *)
Definition bubble : Type := string * list (string * param).
Definition d_resize2d (type : Z) : bubble := ("_resize2d", [("type", PInt type)]).
Definition d_add : bubble := ("add", []).
Definition d_sub : bubble := ("sub", []).
Definition d_mul : bubble := ("mul", []).
Definition d_div : bubble := ("div", []).
Definition d_transpose (permute : list Z) : bubble := ("_transpose", [("permute", PInts permute)]).
Definition d_sigmoid : bubble := ("sigmoid", []).
Definition d_gather (axis : Z) : bubble := ("gather", [("axis", PInt axis)]).
Definition d_concat (dim : Z) : bubble := ("concat", [("dim", PInt dim)]).
Definition d_softmax (dim : Z) (smooth : bool) : bubble := ("softmax", [("dim", PInt dim); ("smooth", PBool smooth)]).
Definition d_pad (v : F) : bubble := ("pad", [("padding_value", PFloat v)]).
Definition d_cast (dtype : Z) : bubble := ("_cast", [("dtype", PInt dtype)]).
Definition d_affine_sample2d (dim : Z) (outer : F) (type : Z) : bubble := ("affine_sample2d", [("dim", PInt dim); ("outer_value", PFloat outer); ("type", PInt type)]).
Definition d_affine_on_sample2d (dim type : Z) : bubble := ("affine_sample2d", [("dim", PInt dim); ("type", PInt type)]).
Definition d_matmul (transpose : bool) : bubble := ("inner_prod", [("transpose", PBool transpose)]).
Definition d_broadcast : bubble := ("broadcast", []).

(** a call of a function of symbol.h; nodes are positions *)
Inductive call :=
| Pad (x padding : nat) (value : F)
| Resize2D (x size : nat) (type : Z)
| Add (a b : nat) | Sub (a b : nat) | Mul (a b : nat) | Div (a b : nat)
| Transpose (x : nat) (permute : list Z)
| Sigmoid (x : nat)
| Gather (x indices : nat) (axis : Z)
| Concat (x : list nat) (dim : Z)
| Softmax (x : nat) (dim : Z) (smooth : bool)
| Cast (x : nat) (dtype : Z)
| AffineSample2D (x size affine : nat) (dim : Z) (outer : F) (type : Z)
| AffineOnSample2D (x size affine : nat) (dim type : Z)
| Matmul (a b : nat) (transpose : bool)
| Broadcast (x shape : nat).

(** menu.cpp 71-76, then Node::Link; 19-24 for pad *)
Definition append (g : graph) (name : string) (b : bubble) (inputs : list nat) : graph :=
  (g ++ [Node (fst b) name (snd b) inputs])%list.
(** symbol.cpp 13-110: the node is the last one *)
Definition symbol (g : graph) (name : string) (c : call) : graph :=
  match c with
  | Pad x padding v => append g name ("pad", [("padding_value", PFloat v)]) [x; padding]
  | Resize2D x size type => append g name (d_resize2d type) [x; size]
  | Add a b => append g name d_add [a; b]
  | Sub a b => append g name d_sub [a; b]
  | Mul a b => append g name d_mul [a; b]
  | Div a b => append g name d_div [a; b]
  | Transpose x permute => append g name (d_transpose permute) [x]
  | Sigmoid x => append g name d_sigmoid [x]
  | Gather x indices axis => append g name (d_gather axis) [x; indices]
  | Concat x dim => append g name (d_gather dim) x (* 66 *)
  | Softmax x dim smooth => append g name (d_softmax dim smooth) [x]
  | Cast x dtype => append g name (d_cast dtype) [x]
  | AffineSample2D x size affine dim outer type => append g name (d_affine_sample2d dim outer type) [x; size; affine]
  | AffineOnSample2D x size affine dim type => append g name (d_affine_on_sample2d dim type) [x; size; affine]
  | Matmul a b transpose => append g name (d_matmul transpose) [a; b]
  | Broadcast x shape => append g name (d_matmul false) [x; shape] (* 106; desc.h: transpose = false *)
  end.

(** symbol.h 42-52: the axis affine sampling takes unless one is given *)
Definition default_dim : Z := -1.

(** What the nodes of a graph compute when an operator [op] with its parameters
    computes [layer op params] of its inputs (None: it throws, or an input was
    not computed): the values in the order of the nodes. *)
Section Run.
Context {V : Type}.
Variable layer : string -> list (string * param) -> list V -> option V.
Fixpoint all (l : list (option V)) : option (list V) :=
  match l with
  | [] => Some []
  | Some v :: l' => match all l' with Some r => Some (v :: r) | None => None end
  | None :: _ => None
  end.
Definition step (vals : list (option V)) (n : node) : list (option V) :=
  (vals ++ [match all (map (fun i => nth i vals None) (n_inputs n)) with Some vs => layer (n_op n) (n_params n) vs | None => None end])%list.
Definition run (g : graph) : list (option V) := fold_left step g [].
End Run.
End Symbols.
Arguments param F : clear implicits.
Arguments node F : clear implicits.
Arguments graph F : clear implicits.
Arguments call F : clear implicits.
