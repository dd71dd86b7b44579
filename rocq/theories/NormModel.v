(** Model of softmax, l2_norm and norm_image on the CPU:
    src/backend/base/base_softmax.cpp 34-78, src/kernels/cpu/softmax.cpp 14-149,
    274-296; src/backend/base/base_l2_norm.cpp 31-76, src/kernels/cpu/l2_norm.cpp
    28-84; src/kernels/cpu/norm_image.cpp 28-88.

    Simplifications: numbers are abstract; [conv t] converts to the element
    type [t], [tdiv t] is the division of the element type, [fexp] and [fsqrt]
    are the functions of the C library and [ofZ] converts a count.  Loops
    shared among threads run in order.  Products fit in [int]. *)
From Coq Require Import List ZArith Bool.
From Verif Require Import ShapeModel KernelBase LoopModel EltwiseModel TileModel GemmModel AxisModel.
Import ListNotations.
Local Open Scope Z_scope.

Section Norm.
Context {R : Type} (rO rI : R) (radd rmul rsub rdiv : R -> R -> R).
Variable tdiv : Z -> R -> R -> R.
Variable ltb : R -> R -> bool.
Variable conv : Z -> R -> R.
Variables fsqrt fexp : R -> R.
Variable ofZ : Z -> R.

(** softmax.cpp 106-140 and 46-70: one channel; with [smooth] the largest
    element is subtracted first.  The first element is read before the loop
    over the others, so it must be there. *)
Definition softmax_channel (t : Z) (smooth : bool) (x : list R) (body tail n w : Z) : list (instr R) :=
  let at_ i := n * body * tail + w + i * tail in
  let get i := load x (at_ i) in
  let max := if smooth then
               match get 0 with
               | SOk v0 => foldM (fun m i => lift1 (fun v => if ltb m v then v else m) (get i)) v0 (steps 1 body 1)
               | SErr => SErr | SUndef => SUndef
               end
             else SOk rO in
  let e i := lift2 (fun m v => conv t (fexp (if smooth then rsub v m else v))) max (get i) in
  let sum := foldM (fun s i => lift1 (fun d => radd s d) (e i)) rO (upto body) in
  match max with SOk _ => [] | _ => [Put 0 SUndef] end ++
  map (fun i => Put (at_ i) (e i)) (upto body) ++
  map (fun i => Upd (at_ i) (lift1 (fun s d => tdiv t d s) sum)) (upto body).

(** softmax.cpp 78-142 *)
Definition softmax_data (t : Z) (smooth : bool) (x : list R) (head body tail : Z) : sres (list (option R)) :=
  let count := head * body * tail in
  if body =? 1 then exec_instrs (fresh count) (map (fun i => Put i (SOk rI)) (upto count)) else
  exec_instrs (fresh count) (flat_map (fun nw => match nw with [n; w] => softmax_channel t smooth x body tail n w | _ => [] end) (loops [head; tail])).

(** l2_norm.cpp 60-82 *)
Definition l2_channel (t : Z) (epsilon : R) (x : list R) (body tail n w : Z) : list (instr R) :=
  let at_ i := n * body * tail + w + i * tail in
  let get i := load x (at_ i) in
  let sum := foldM (fun s i => lift1 (fun v => radd s (conv t (rmul v v))) (get i)) rO (upto body) in
  let norm := lift1 (fun s => conv t (fsqrt (radd s (conv t epsilon)))) sum in
  map (fun i => Put (at_ i) (lift2 (fun v m => tdiv t v m) (get i) norm)) (upto body).
(** l2_norm.cpp 28-84 *)
Definition l2_data (t : Z) (epsilon : R) (x : list R) (head body tail : Z) : sres (list (option R)) :=
  let count := head * body * tail in
  if body =? 1 then exec_instrs (fresh count) (map (fun i => Put i (SOk rI)) (upto count)) else
  exec_instrs (fresh count) (flat_map (fun nw => match nw with [n; w] => l2_channel t epsilon x body tail n w | _ => [] end) (loops [head; tail])).

(** base_softmax.cpp, base_l2_norm.cpp: the axis, counted from the end if negative *)
Definition along_axis (dim : Z) (run : Z -> list R -> Z -> Z -> Z -> sres (list (option R))) (x : tensor R) : sres (raw_tensor R) :=
  match fix_dim dim (length (t_shape x)) with
  | SOk axis =>
      if negb (tile_supports (t_dtype x)) then SErr else
      match run (t_dtype x) (t_data x) (prod (firstn axis (t_shape x))) (nth axis (t_shape x) 0) (prod (skipn (S axis) (t_shape x))) with
      | SOk m => SOk (Tn (t_dtype x) (t_shape x) m)
      | SErr => SErr
      | SUndef => SUndef
      end
  | SErr => SErr
  | SUndef => SUndef
  end.
Definition softmax (dim : Z) (smooth : bool) := along_axis dim (fun t => softmax_data t smooth).
Definition l2_norm (dim : Z) (epsilon : R) := along_axis dim (fun t => l2_data t epsilon).

(** norm_image.cpp 28-72: one image; mean and deviation are doubles; they are
    read from the copy of the image before it changes, here from the image *)
Definition image_channel (t : Z) (epsilon : R) (x : list R) (count n : Z) : list (instr R) :=
  let at_ i := n * count + i in
  let get i := load x (at_ i) in
  let mean := lift1 (fun s => rdiv s (ofZ count)) (foldM (fun s i => lift1 (fun v => radd s v) (get i)) rO (upto count)) in
  let sq := foldM (fun s i => lift2 (fun m v => radd s (rmul (rsub v m) (rsub v m))) mean (get i)) rO (upto count) in
  let rec_ := lift1 (fun s => rdiv rI (radd (fsqrt (rdiv s (ofZ count))) epsilon)) sq in
  map (fun i => Upd (at_ i) (lift2 (fun m r v => rmul (rsub v (conv t m)) (conv t r)) mean rec_)) (upto count).
(** norm_image.cpp 28-88; [count /= batch] with no image divides by zero, a
    scalar has no size(0) *)
Definition norm_image (epsilon : R) (x : tensor R) : sres (raw_tensor R) :=
  if negb ((t_dtype x =? 10) || (t_dtype x =? 11)) then SErr else
  match t_shape x with
  | [] => SUndef
  | batch :: _ =>
      if batch =? 0 then SUndef else
      let total := prod (t_shape x) in
      let count := Z.quot total batch in
      match exec_instrs (fresh total) (copy (t_data x) total ++ flat_map (fun n => image_channel (t_dtype x) epsilon (t_data x) count n) (upto batch)) with
      | SOk m => SOk (Tn (t_dtype x) (t_shape x) m)
      | SErr => SErr
      | SUndef => SUndef
      end
  end.
End Norm.
