(** What the functions of symbol.h promise by their names, in terms of what the
    registered operators compute: the operator each of them stands for, under the
    name it is registered with, and the fields operators declare. *)
From Coq Require Import ZArith String List.
Import ListNotations.
Local Open Scope string_scope.
From Verif Require Import SymbolModel.

Section Promise.
Context {F V : Type}.
Variable layer : string -> list (string * param F) -> list V -> option V.
Definition one (f : V -> option V) (a : option V) : option V := match a with Some a => f a | None => None end.
Definition two (f : V -> V -> option V) (a b : option V) : option V := match a, b with Some a, Some b => f a b | _, _ => None end.
Definition three (f : V -> V -> V -> option V) (a b c : option V) : option V := match a, b, c with Some a, Some b, Some c => f a b c | _, _, _ => None end.
Fixpoint many (l : list (option V)) : option (list V) :=
  match l with [] => Some [] | a :: l' => match a, many l' with Some v, Some r => Some (v :: r) | _, _ => None end end.

(** the value promised, from those of the nodes given *)
Definition promised (v : nat -> option V) (c : call F) : option V :=
  match c with
  | Pad x p q => two (fun a b => layer "pad" [("padding_value", PFloat q)] [a; b]) (v x) (v p)
  | Resize2D x s t => two (fun a b => layer "_resize2d" [("type", PInt t)] [a; b]) (v x) (v s)
  | Add a b => two (fun a b => layer "add" [] [a; b]) (v a) (v b)
  | Sub a b => two (fun a b => layer "sub" [] [a; b]) (v a) (v b)
  | Mul a b => two (fun a b => layer "mul" [] [a; b]) (v a) (v b)
  | Div a b => two (fun a b => layer "div" [] [a; b]) (v a) (v b)
  | Transpose x p => one (fun a => layer "_transpose" [("permute", PInts p)] [a]) (v x)
  | Sigmoid x => one (fun a => layer "sigmoid" [] [a]) (v x)
  | Gather x i d => two (fun a b => layer "gather" [("axis", PInt d)] [a; b]) (v x) (v i)
  | Concat l d => match many (map v l) with Some vs => layer "concat" [("dim", PInt d)] vs | None => None end
  | Softmax x d s => one (fun a => layer "softmax" [("dim", PInt d); ("smooth", PBool s)] [a]) (v x)
  | Cast x d => one (fun a => layer "_cast" [("dtype", PInt d)] [a]) (v x)
  | AffineSample2D x s m d o t => three (fun a b c => layer "affine_sample2d" [("dim", PInt d); ("outer_value", PFloat o); ("type", PInt t)] [a; b; c]) (v x) (v s) (v m)
  | AffineOnSample2D x s m d t => three (fun a b c => layer "affine_sample2d" [("dim", PInt d); ("type", PInt t)] [a; b; c]) (v x) (v s) (v m)
  | Matmul a b t => two (fun a b => layer "inner_prod" [("transpose", PBool t)] [a; b]) (v a) (v b)
  | Broadcast x s => two (fun a b => layer "broadcast" [] [a; b]) (v x) (v s)
  end.
End Promise.

(** required and optional fields: the constructors in src/backend/base
    (base_pad 15, base_resize2d 14, base_transpose 16, base_gather 14, base_concat
    14, base_softmax 17-18, base_cast_v2 14, base_affine_sample2d 20-22,
    base_inner_prod 15-16); the others declare none *)
Definition fields (op : string) : list string * list string :=
  if string_dec op "pad" then ([], ["padding_value"]) else
  if string_dec op "_resize2d" then ([], ["type"]) else
  if string_dec op "_transpose" then ([], ["permute"]) else
  if string_dec op "gather" then ([], ["axis"]) else
  if string_dec op "concat" then (["dim"], []) else
  if string_dec op "softmax" then (["dim"], ["smooth"]) else
  if string_dec op "_cast" then (["dtype"], []) else
  if string_dec op "affine_sample2d" then (["type"; "dim"], ["outer_value"]) else
  if string_dec op "inner_prod" then ([], ["transpose"; "kernel_packed"]) else ([], []).
