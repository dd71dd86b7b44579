(** Model of the operators that change every element by itself
    (src/backend/base/base_activation.cpp 11-33 with src/kernels/cpu/relu.cpp
    15-55, relu_max.cpp 15-58, leaky_relu.cpp 25-70, hard_sigmoid.cpp 25-70,
    square.cpp 14-26, sqrt.cpp 13-23, rsqrt.cpp 34-47, exp.cpp 15-28,
    sigmoid.cpp 14-38, tanh.cpp 12-36, softplus.cpp 14-40, ceil.cpp 12-31,
    floor.cpp 12-31) or with a parameter of its channel
    (src/kernels/cpu/add_bias.cpp 16-85, batch_scale.cpp 15-94, batch_norm.cpp
    14-104, fused_batch_norm.cpp 17-121, prelu.cpp 18-91 with their bases in
    src/backend/base).

    Simplifications: numbers are abstract and exact; [conv t] is the conversion
    of a computed number to the element type [t], [fsqrt], [fexp], [flog],
    [fceil] are the functions of the C library.  The scalar and the vector
    [max] and [min] are modelled by the comparisons they make.  Loops shared
    among threads run in order.  1 / sqrt(variance + epsilon) is computed once
    for each channel before the loops; here it is computed where it is used. *)
From Coq Require Import List ZArith Bool.
From Verif Require Import ShapeModel KernelBase LoopModel EltwiseModel TileModel.
Import ListNotations.
Local Open Scope Z_scope.

Section Activation.
Context {R : Type} (rO rI : R) (radd rmul rsub rdiv : R -> R -> R) (ropp : R -> R).
Variable ltb : R -> R -> bool.
Variable conv : Z -> R -> R.
Variables fsqrt fexp flog fceil ffloor : R -> R.

(** std::max, std::min and _mm_max_ps, _mm_min_ps *)
Definition smax (a b : R) : R := if ltb a b then b else a.
Definition smin (a b : R) : R := if ltb b a then b else a.
Definition vmax (a b : R) : R := if ltb b a then a else b.
Definition vmin (a b : R) : R := if ltb a b then a else b.

(** ** The loops *)

(** four elements at a time by [f4], the rest by [f] *)
Definition by_four (f4 f : R -> R) (x : list R) (count : Z) : sres (list (option R)) :=
  let count_4 := Z.quot count 4 in
  exec (fresh count)
    (flat_map (fun i => map (fun l => (i * 4 + l, lift1 f4 (load x (i * 4 + l)))) [0; 1; 2; 3]) (upto count_4) ++
     map (fun i => (i, lift1 f (load x i))) (steps (count_4 * 4) count 1)).
(** memcpy, then every element in place *)
Definition in_place (f : R -> R) (x : list R) (count : Z) : sres (list (option R)) :=
  exec_instrs (fresh count) (copy x count ++ map (fun i => Upd i (SOk f)) (upto count)).
(** one after the other *)
Definition in_turn (f : R -> R) (x : list R) (count : Z) : sres (list (option R)) :=
  exec (fresh count) (map (fun i => (i, lift1 f (load x i))) (upto count)).

(** base_activation.cpp 21-33 *)
Definition active (supports : Z -> bool) (run : Z -> list R -> Z -> sres (list (option R))) (x : tensor R) : sres (raw_tensor R) :=
  if negb (supports (t_dtype x)) then SErr else
  match run (t_dtype x) (t_data x) (prod (t_shape x)) with
  | SOk m => SOk (Tn (t_dtype x) (t_shape x) m)
  | SErr => SErr
  | SUndef => SUndef
  end.
Definition is_float (t : Z) : bool := t =? 10.
Definition floats (t : Z) : bool := (t =? 10) || (t =? 11).
Definition is_unsigned (t : Z) : bool := (t =? 2) || (t =? 4) || (t =? 6) || (t =? 8).

(** ** The operators *)
Definition relu := active tile_supports (fun t x n =>
  if is_float t then by_four (fun v => vmax v rO) (fun v => smax v rO) x n else in_place (fun v => smax v rO) x n).
Definition relu_max (max : R) := active tile_supports (fun t x n =>
  if is_float t then by_four (fun v => vmin (vmax v rO) (conv t max)) (fun v => smin (smax v rO) (conv t max)) x n
  else in_place (fun v => smin (smax v rO) (conv t max)) x n).
Definition leaky_relu (scale : R) := active tile_supports (fun t x n =>
  let f v := if ltb rO v then v else rmul v (conv t scale) in
  if is_float t then by_four (fun v => radd (vmax v rO) (rmul (conv t scale) (vmin v rO))) f x n else in_turn f x n).
Definition hard_sigmoid (alpha beta : R) := active floats (fun t x n =>
  if is_float t then by_four (fun v => vmax rO (vmin rI (radd (rmul alpha v) beta))) (fun v => smax rO (smin rI (radd (rmul alpha v) beta))) x n
  else in_turn (fun v => smax rO (smin rI (radd (rmul alpha v) beta))) x n).
Definition square := active tile_supports (fun t => in_place (fun v => rmul v v)).
Definition sqrt_ := active tile_supports (fun t => in_turn (fun v => conv t (fsqrt v))).
Definition rsqrt := active tile_supports (fun t => in_place (fun v => conv t (rdiv rI (fsqrt v)))).
Definition exp_ := active tile_supports (fun t => in_turn (fun v => conv t (fexp v))).
(** sigmoid.cpp 14-20: [neg] of an unsigned number is the number *)
Definition sigmoid := active tile_supports (fun t => in_turn (fun v =>
  conv t (rdiv rI (radd rI (fexp (if is_unsigned t then v else ropp v)))))).
Definition tanh_ := active floats (fun t => in_turn (fun v =>
  rsub (rmul (radd rI rI) (rdiv rI (radd rI (fexp (ropp (rmul (radd rI rI) v)))))) rI)).
(** softplus.cpp 14-27: the pointer to the input is not advanced in the
    general case; 29-40 is float *)
Definition softplus := active tile_supports (fun t x n =>
  if is_float t then in_turn (fun v => flog (radd (fexp v) rI)) x n
  else exec_instrs (fresh n) (copy x n ++ map (fun i => Put i (lift1 (fun v => conv t (flog (radd (fexp v) rI))) (load x 0))) (upto n))).
(** ceil.cpp, floor.cpp: integers are returned as they are *)
Definition ceil := active tile_supports (fun t x n =>
  if floats t then in_turn fceil x n else SOk (map Some x)).
Definition floor := active tile_supports (fun t x n =>
  if floats t then in_turn ffloor x n else SOk (map Some x)).

(** ** With a parameter of the channel *)

(** the loops over [pre] blocks of [channels] rows of [back] elements; [f k]
    changes an element of channel [k] *)
Definition rows_by_four (f : Z -> sres (R -> R)) (x : list R) (pre channels back : Z) : list (event R) :=
  let stride := back * channels in
  flat_map (fun ik => match ik with
    | [i; k] => map (fun m => (m + (i * stride + k * back), lift2 (fun g v => g v) (f k) (load x (m + (i * stride + k * back))))) (simd_order back)
    | _ => []
    end) (loops [pre; channels]).
Definition rows_in_turn (f : Z -> sres (R -> R)) (x : list R) (pre channels back : Z) : list (event R) :=
  let stride := back * channels in
  map (fun ikm => match ikm with
    | [i; k; m] => (i * stride + k * back + m, lift2 (fun g v => g v) (f k) (load x (i * stride + k * back + m)))
    | _ => (0, SUndef)
    end) (loops [pre; channels; back]).
Definition rows_in_place (f : Z -> sres (R -> R)) (x : list R) (count pre channels back : Z) : list (instr R) :=
  let stride := back * channels in
  copy x count ++
  map (fun ikm => match ikm with
    | [i; k; m] => Upd (i * stride + k * back + m) (f k)
    | _ => Upd 0 SUndef
    end) (loops [pre; channels; back]).

(** the checks of the bases: [dim] from the attribute, one parameter for every
    slice along it, one type for all *)
Definition channel_op (dim : Z) (params : list (tensor R)) (in_place_unless_float : bool) (f : Z -> Z -> sres (R -> R)) (x : tensor R) : sres (raw_tensor R) :=
  if dim <? 0 then SErr else
  match nth_error (t_shape x) (Z.to_nat dim) with
  | None => SErr
  | Some c =>
      if negb (forallb (fun p => match t_shape p with [d] => d =? c | _ => false end) params) then SErr else
      if negb (forallb (fun p => t_dtype p =? t_dtype x) params) then SErr else
      if negb (tile_supports (t_dtype x)) then SErr else
      let pre := prod (firstn (Z.to_nat dim) (t_shape x)) in
      let back := prod (skipn (S (Z.to_nat dim)) (t_shape x)) in
      let n := prod (t_shape x) in
      match (if is_float (t_dtype x) then exec (fresh n) (rows_by_four (f (t_dtype x)) (t_data x) pre c back)
             else if in_place_unless_float then exec_instrs (fresh n) (rows_in_place (f (t_dtype x)) (t_data x) n pre c back)
             else exec (fresh n) (rows_in_turn (f (t_dtype x)) (t_data x) pre c back)) with
      | SOk m => SOk (Tn (t_dtype x) (t_shape x) m)
      | SErr => SErr
      | SUndef => SUndef
      end
  end.

Definition param (p : tensor R) (k : Z) : sres R := load (t_data p) k.
(** 1 / sqrt(variance + epsilon), batch_norm.cpp 41-44, 85-88 *)
Definition norm_of (t : Z) (epsilon v : R) : R := conv t (rdiv rI (fsqrt (radd v (conv t epsilon)))).

Definition add_bias (dim : Z) (x b : tensor R) :=
  channel_op dim [b] true (fun t k => lift1 (fun bk v => radd v bk) (param b k)) x.
Definition batch_scale (dim : Z) (x scale bias : tensor R) :=
  channel_op dim [scale; bias] true (fun t k => lift2 (fun sk bk v => radd (rmul v sk) bk) (param scale k) (param bias k)) x.
Definition batch_norm (dim : Z) (epsilon : R) (x mean variance : tensor R) :=
  channel_op dim [mean; variance] true (fun t k => lift2 (fun mk vk v => rmul (rsub v mk) (norm_of t epsilon vk)) (param mean k) (param variance k)) x.
Definition fused_batch_norm (dim : Z) (epsilon : R) (x mean variance scale bias : tensor R) :=
  channel_op dim [mean; variance; scale; bias] false (fun t k =>
    lift2 (fun mv sb v => radd (rmul (rmul (rsub v (fst mv)) (norm_of t epsilon (snd mv))) (fst sb)) (snd sb))
      (lift2 pair (param mean k) (param variance k)) (lift2 pair (param scale k) (param bias k))) x.
(** prelu.cpp: the scalar and the vector functions agree up to the order of the
    comparisons; the vector one is used for whole groups of four, so it is
    applied here to every element of a float tensor *)
Definition prelu (dim : Z) (x slope : tensor R) :=
  channel_op dim [slope] true (fun t k => lift1 (fun sk v =>
    if is_float t then radd (vmax v rO) (rmul sk (vmin v rO)) else radd (smax v rO) (rmul sk (smin v rO))) (param slope k)) x.
End Activation.
