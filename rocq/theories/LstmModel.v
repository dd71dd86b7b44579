(** Model of the LSTM operator: src/backend/base/base_lstm.cpp and
    src/kernels/cpu/lstm.cpp on the stack of src/runtime/stack.cpp.

    Elements are abstract; [dot] is what gemm computes of two rows.  Tensors are
    nested lists.  Of gemm, add and mul only the shapes an LSTM uses are
    modelled: others are refused.  Elements of a std::deque are referred to by
    position; the standard lets every reference become invalid when something
    is erased in the middle (which RunOperator always does), the common
    implementations keep those before the place: [strict] chooses. *)
From Coq Require Import String List ZArith Bool Arith.
From Verif Require Import ShapeModel ResizeModel.
Import ListNotations.

Section Lstm.
Context {V : Type}.
Variables (zero : V) (add mul : V -> V -> V) (dot : list V -> list V -> V) (sigmoid tanh : V -> V).
Variable strict : bool.

Notation matrix := (list (list V)).
Inductive value := Vec (v : list V) | Mat (m : matrix) | Cube (c : list matrix) | Hyper (h : list (list matrix)) | Packed (l : list value).

Record machine := Machine { stack : list value; epoch : nat }.
Definition push (v : value) (m : machine) : machine := Machine (stack m ++ [v]) (epoch m).

(** a Tensor pointer from stack.top() *)
Record pointer := Pointer { p_at : nat; p_epoch : nat }.
Definition top (m : machine) : sres (value * pointer) :=
  match rev (stack m) with [] => SUndef | v :: _ => SOk (v, Pointer (length (stack m) - 1) (epoch m)) end.
Definition deref (p : pointer) (m : machine) : sres value :=
  if strict && negb (p_epoch p =? epoch m) then SUndef else
  match nth_error (stack m) (p_at p) with Some v => SOk v | None => SUndef end.

(** RunOperator (src/runtime/operator.cpp 262-283): the arguments are erased
    from under the result *)
Definition operate (n : nat) (f : list value -> sres value) (m : machine) : sres machine :=
  let k := length (stack m) - n in
  if length (stack m) <? n then SErr else
  bind2 (f (skipn k (stack m))) (fun r => SOk (Machine (firstn k (stack m) ++ [r]) (S (epoch m)))).

(** Stack::erase (stack.cpp 76-87) with a last position counted from the top *)
Definition erase_below (beg : nat) (m : machine) : sres machine :=
  let e := length (stack m) - 1 in
  if length (stack m) <? 1 then SUndef else
  if e <? beg then SUndef else SOk (Machine (firstn beg (stack m) ++ skipn e (stack m)) (S (epoch m))).
Definition erase_top (m : machine) : sres machine :=
  match rev (stack m) with [] => SUndef | _ :: r => SOk (Machine (rev r) (epoch m)) end.

(** *** the operators *)
Fixpoint zip {A B C} (f : A -> B -> sres C) (a : list A) (b : list B) : sres (list C) :=
  match a, b with
  | [], [] => SOk []
  | x :: a', y :: b' => bind2 (f x y) (fun z => bind2 (zip f a' b') (fun r => SOk (z :: r)))
  | _, _ => SErr
  end.
Fixpoint each {A B} (f : A -> sres B) (a : list A) : sres (list B) :=
  match a with
  | [] => SOk []
  | x :: a' => bind2 (f x) (fun y => bind2 (each f a') (fun r => SOk (y :: r)))
  end.
(** gemm with transB: a b^T + c *)
Definition gemm (a b : matrix) (c : list V) : sres matrix :=
  each (fun ra => zip (fun rb bias => if length ra =? length rb then SOk (add (dot ra rb) bias) else SErr) b c) a.
Definition op_gemm (l : list value) : sres value :=
  match l with [Mat a; Mat b; Vec c] => bind2 (gemm a b c) (fun m => SOk (Mat m)) | _ => SErr end.
Definition element_wise (f : V -> V -> V) (l : list value) : sres value :=
  match l with [Mat a; Mat b] => bind2 (zip (zip (fun x y => SOk (f x y))) a b) (fun m => SOk (Mat m)) | _ => SErr end.
Definition activation (f : V -> V) (l : list value) : sres value :=
  match l with [Mat a] => SOk (Mat (map (map f) a)) | _ => SErr end.
Definition concat0 (l : list value) : sres value :=
  match l with [Cube a; Cube b] => SOk (Cube (a ++ b)) | _ => SErr end.
Definition concat1 (l : list value) : sres value :=
  match l with [Hyper a; Hyper b] => bind2 (zip (fun x y => SOk (x ++ y)) a b) (fun h => SOk (Hyper h)) | _ => SErr end.

(** Tensor::slice (beg, end): rows beg to end - 1; reading beyond is undefined *)
Definition slice {A} (l : list A) (b e : nat) : sres (list A) :=
  if length l <? e then SUndef else SOk (firstn (e - b) (skipn b l)).
Definition slice1 {A} (l : list A) (i : nat) : sres A :=
  match nth_error l i with Some a => SOk a | None => SUndef end.

(** *** lstm_compute (lstm.cpp 7-150) *)
Record gate := Gate { gw : matrix; gr : matrix; gwb : list V; grb : list V }.
(** 10-28: gate [g] of the weights *)
Definition take_gate (hidden : nat) (w r : matrix) (b : list V) (g : nat) : sres gate :=
  bind2 (slice w (hidden * g) (hidden * (g + 1))) (fun gw =>
  bind2 (slice r (hidden * g) (hidden * (g + 1))) (fun gr =>
  bind2 (slice b (hidden * g) (hidden * (g + 1))) (fun gwb =>
  bind2 (slice b (hidden * (4 + g)) (hidden * (4 + g + 1))) (fun grb => SOk (Gate gw gr gwb grb))))).

(** 46-57 and its repetitions 60-71, 74-85, 88-99 *)
Definition run_gate (act : V -> V) (x h : matrix) (g : gate) (m : machine) : sres machine :=
  bind2 (operate 3 op_gemm (push (Vec (gwb g)) (push (Mat (gw g)) (push (Mat x) m)))) (fun m =>
  bind2 (operate 3 op_gemm (push (Vec (grb g)) (push (Mat (gr g)) (push (Mat h) m)))) (fun m =>
  bind2 (operate 2 (element_wise add) m) (fun m =>
  operate 1 (activation act) m))).

Definition as_mat (v : value) : sres matrix := match v with Mat m => SOk m | _ => SErr end.
Definition as_cube (v : value) : sres (list matrix) := match v with Cube m => SOk m | _ => SErr end.

Record progress := Progress { at_machine : machine; ht : matrix; ct : matrix; output : option (list matrix) }.

(** one turn of the loop (40-144); weights in the order i, o, f, c *)
Definition turn (reverse : bool) (gi go gf gc : gate) (x : matrix) (first : bool) (s : progress) : sres progress :=
  bind2 (run_gate sigmoid x (ht s) gf (at_machine s)) (fun m =>
  bind2 (top m) (fun ft =>
  bind2 (run_gate sigmoid x (ht s) go m) (fun m =>
  bind2 (top m) (fun ot =>
  bind2 (run_gate sigmoid x (ht s) gi m) (fun m =>
  bind2 (run_gate tanh x (ht s) gc m) (fun m =>
  bind2 (operate 2 (element_wise mul) m) (fun m =>
  bind2 (deref (snd ft) m) (fun f =>
  bind2 (operate 2 (element_wise mul) (push (Mat (ct s)) (push f m))) (fun m =>
  bind2 (operate 2 (element_wise add) m) (fun m =>
  bind2 (top m) (fun c => bind2 (as_mat (fst c)) (fun ct' =>
  bind2 (operate 1 (activation tanh) m) (fun m =>
  bind2 (deref (snd ot) m) (fun o =>
  bind2 (operate 2 (element_wise mul) (push o m)) (fun m =>
  bind2 (top m) (fun h => bind2 (as_mat (fst h)) (fun ht' =>
  bind2 (match first, output s with
         | true, _ => SOk (m, [ht'])
         | false, None => SErr
         | false, Some out =>
             let m := if reverse then push (Cube out) (push (Cube [ht']) m) else push (Cube [ht']) (push (Cube out) m) in
             bind2 (operate 2 concat0 m) (fun m => bind2 (top m) (fun o => bind2 (as_cube (fst o)) (fun c => SOk (m, c))))
         end) (fun mo =>
  bind2 (erase_below 7 (fst mo)) (fun m =>
  SOk (Progress m ht' ct' (Some (snd mo)))))))))))))))))))))).

Fixpoint turns (reverse : bool) (gi go gf gc : gate) (xs : list matrix) (first : bool) (s : progress) : sres progress :=
  match xs with
  | [] => SOk s
  | x :: xs' => bind2 (turn reverse gi go gf gc x first s) (turns reverse gi go gf gc xs' false)
  end.

Definition lstm_compute (hidden : nat) (x : list matrix) (w r : matrix) (b : list V) (h0 c0 : matrix) (reverse : bool) (m : machine) : sres progress :=
  bind2 (take_gate hidden w r b 0) (fun gi =>
  bind2 (take_gate hidden w r b 1) (fun go =>
  bind2 (take_gate hidden w r b 2) (fun gf =>
  bind2 (take_gate hidden w r b 3) (fun gc =>
  turns reverse gi go gf gc (if reverse then rev x else x) true (Progress m h0 c0 None))))).

(** *** base_lstm.cpp *)
(** 18-21 *)
Definition direction_of (s : string) : nat := if String.eqb s "bidirectional" then 2 else 0.

(** 167-174: states that are not given start with zeros *)
Definition initial (v : value) (w : list matrix) (x : list matrix) (r : list matrix) : sres (list matrix) :=
  match v with
  | Cube c => SOk c
  | Vec _ | Mat _ =>
      match x, r with
      | (x0 :: _), ((r0 :: _) :: _) => SOk (repeat (repeat (repeat zero (length r0)) (length x0)) (length w))
      | _, _ => SErr
      end
  | _ => SErr
  end.

(** 225-237: a sequence without elements leaves the tensor without a shape, and
    the insertion at its second place is undefined *)
Definition expand (o : option (list matrix)) : sres (list (list matrix)) :=
  match o with Some (x :: l) => SOk (map (fun h => [h]) (x :: l)) | _ => SUndef end.

(** run (155-293): the stack of the operator, with its arguments at the bottom *)
Definition run (direction : string) (hidden : nat) (m : machine) : sres machine :=
  match stack m with
  | Cube x :: Cube w :: Cube r :: Mat b :: h :: c :: _ =>
      bind2 (initial h w x r) (fun h0 => bind2 (initial c w x r) (fun c0 =>
      let compute d reverse m :=
        bind2 (slice1 w d) (fun w => bind2 (slice1 r d) (fun r => bind2 (slice1 b d) (fun b =>
        bind2 (slice1 h0 d) (fun h => bind2 (slice1 c0 d) (fun c => lstm_compute hidden x w r b h c reverse m))))) in
      if direction_of direction =? 2 then
        bind2 (compute 0 false m) (fun f =>
        bind2 (compute 1 true (at_machine f)) (fun b =>
        bind2 (erase_top (at_machine b)) (fun m =>
        bind2 (expand (output f)) (fun ef => bind2 (expand (output b)) (fun eb =>
        bind2 (operate 2 concat1 (push (Hyper eb) (push (Hyper ef) m))) (fun m =>
        bind2 (top m) (fun y => bind2 (erase_top m) (fun m =>
        bind2 (operate 2 concat0 (push (Cube [ht b]) (push (Cube [ht f]) m))) (fun m =>
        bind2 (top m) (fun yh => bind2 (erase_top m) (fun m =>
        bind2 (operate 2 concat0 (push (Cube [ct b]) (push (Cube [ct f]) m))) (fun m =>
        bind2 (top m) (fun yc => bind2 (erase_top m) (fun m =>
        SOk (push (Packed [fst y; fst yh; fst yc]) m)))))))))))))))
      else
        bind2 (compute 0 false m) (fun f =>
        bind2 (erase_top (at_machine f)) (fun m =>
        bind2 (expand (output f)) (fun ef =>
        SOk (push (Packed [Hyper ef; Cube [ht f]; Cube [ct f]]) m))))))
  | _ => SErr
  end.
End Lstm.
