(** Model of the prewhiten operator on the CPU: src/backend/base/base_prewhiten.cpp 9-13,
    src/kernels/cpu/prewhiten.cpp 10-77.  Conventions as in NormModel.v: numbers are
    abstract, [conv t] converts a double to the element type, [fsqrt] is the C
    library's square root, [ofZ] converts a count; mean and deviation are read from
    the copy of the image before it changes, here from the image. *)
From Coq Require Import List ZArith Bool.
From Verif Require Import ShapeModel KernelBase LoopModel EltwiseModel TileModel GemmModel AxisModel NormModel.
Import ListNotations.
Local Open Scope Z_scope.

Section Prewhiten.
Context {R : Type} (rO rI : R) (radd rmul rsub rdiv : R -> R -> R).
Variable ltb : R -> R -> bool.
Variable conv : Z -> R -> R.
Variable fsqrt : R -> R.
Variable ofZ : Z -> R.

(** std::max *)
Definition larger (a b : R) : R := if ltb a b then b else a.

(** prewhiten.cpp 26-49: one image *)
Definition prewhiten_image (t : Z) (x : list R) (count n : Z) : list (instr R) :=
  let at_ i := n * count + i in
  let get i := load x (at_ i) in
  let mean := lift1 (fun s => rdiv s (ofZ count)) (foldM (fun s i => lift1 (fun v => radd s v) (get i)) rO (upto count)) in
  let sq := foldM (fun s i => lift2 (fun m v => radd s (rmul (rsub v m) (rsub v m))) mean (get i)) rO (upto count) in
  let dev := lift1 (fun s => larger (fsqrt (rdiv s (ofZ count))) (rdiv rI (fsqrt (ofZ count)))) sq in
  let rec_ := lift1 (fun d => rdiv rI d) dev in
  map (fun i => Upd (at_ i) (lift2 (fun m r v => rmul (rsub v (conv t m)) (conv t r)) mean rec_)) (upto count).

(** base_prewhiten.cpp 9-13; prewhiten.cpp 10-25, 53-77; [count /= batch] with no
    image divides by zero *)
Definition prewhiten (x : tensor R) : sres (raw_tensor R) :=
  match t_shape x with
  | [] => SErr
  | batch :: _ =>
      if negb ((t_dtype x =? 10) || (t_dtype x =? 11)) then SErr else
      if batch =? 0 then SUndef else
      let total := prod (t_shape x) in
      let count := Z.quot total batch in
      match exec_instrs (fresh total) (copy (t_data x) total ++ flat_map (fun n => prewhiten_image (t_dtype x) (t_data x) count n) (upto batch)) with
      | SOk m => SOk (Tn (t_dtype x) (t_shape x) m)
      | SErr => SErr
      | SUndef => SUndef
      end
  end.
End Prewhiten.
