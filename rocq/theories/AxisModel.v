(** Model of the operators that reduce along axes, on the CPU:
    src/kernels/cpu/argmax.cpp, max.cpp, reduce_sum.cpp, reduce_mean.cpp and
    src/backend/base/base_argmax.cpp, base_max.cpp, base_reduce_sum.cpp,
    base_reduce_mean.cpp.

    Simplifications: the element values, their comparison and their
    arithmetic are abstract; products fit in [int].  ArgMax reads its input
    as another type, so its input is modelled as bytes. *)
From Coq Require Import List ZArith Bool.
From Verif Require Import ShapeModel KernelBase TileModel EltwiseModel SerialModel.
Import ListNotations.
Local Open Scope Z_scope.

(** base_argmax.cpp 22-27, base_max.cpp 28-33, base_reduce_sum.cpp: a
    negative axis counts from the end *)
Definition fix_dim (dim : Z) (rank : nat) : sres nat :=
  let d := if dim <? 0 then dim + Z.of_nat rank else dim in
  if (0 <=? d) && (d <? Z.of_nat rank) then SOk (Z.to_nat d) else SErr.

(** x_shape.erase(x_shape.begin() + dim) *)
Fixpoint erase (n : nat) (l : list Z) : list Z :=
  match l, n with
  | [], _ => []
  | _ :: t, O => t
  | x :: t, S n' => x :: erase n' t
  end.
(** x_shape[dim] = 1 *)
Fixpoint set_one (n : nat) (l : list Z) : list Z :=
  match l, n with
  | [], _ => []
  | _ :: t, O => 1 :: t
  | x :: t, S n' => x :: set_one n' t
  end.

(** ** ArgMax and Max *)

(** argmax.cpp 35-44, max.cpp 34-41: the loop over [m]; [tmp] is T(0) and
    [cur_index] is 0 if it does not run *)
Fixpoint scan {A} (gt : A -> A -> bool) (get : Z -> sres A) (ms : list Z) (tmp : A) (cur_index : Z) : sres (A * Z) :=
  match ms with
  | [] => SOk (tmp, cur_index)
  | m :: ms' =>
      match get m with
      | SOk v =>
          if m =? 0 then scan gt get ms' v 0
          else if gt v tmp then scan gt get ms' v m
          else scan gt get ms' tmp cur_index
      | SErr => SErr
      | SUndef => SUndef
      end
  end.

(** argmax.cpp 17-52, max.cpp 17-46: the stores *)
Definition scan_run {A} (gt : A -> A -> bool) (zero : A) (get : Z -> sres A) (shape : list Z) (axis : nat) : list (event (A * Z)) :=
  let number := prod (firstn axis shape) in
  let width := prod (skipn (S axis) shape) in
  let size := nth axis shape 0 in
  let input_width := width * size in
  flat_map (fun i => map (fun k =>
    (i * width + k, scan gt (fun m => get (k + m * width + i * input_width)) (upto size) zero 0))
    (upto width)) (upto number).

Definition map_event {A B} (f : A -> B) (e : event A) : event B := (fst e, lift1 f (snd e)).

(** base_max.cpp, max.cpp *)
Definition max_run {A} (gt : A -> A -> bool) (zero : A) (dim : Z) (keep_dims : bool) (x : tensor A) : sres (raw_tensor A) :=
  match fix_dim dim (length (t_shape x)) with
  | SOk axis =>
      let out := if keep_dims then set_one axis (t_shape x) else erase axis (t_shape x) in
      if negb (tile_supports (t_dtype x)) then SErr else
      match exec (fresh (prod out)) (map (map_event fst) (scan_run gt zero (load (t_data x)) (t_shape x) axis)) with
      | SOk m => SOk (Tn (t_dtype x) out m)
      | SErr => SErr
      | SUndef => SUndef
      end
  | SErr => SErr
  | SUndef => SUndef
  end.

(** the [i]th int32_t of a memory (little endian) *)
Definition load_int32 (bytes : list Z) (i : Z) : sres Z :=
  match load bytes (4 * i), load bytes (4 * i + 1), load bytes (4 * i + 2), load bytes (4 * i + 3) with
  | SOk a, SOk b, SOk c, SOk d =>
      let u := a + 2^8 * b + 2^16 * c + 2^24 * d in
      SOk (if u <? 2^31 then u else u - 2^32)
  | _, _, _, _ => SUndef
  end.

(** base_argmax.cpp 20-58, argmax.cpp 58-62: the type that selects the kernel
    is the output's, which is always INT32; [x]'s data are its bytes *)
Definition argmax_run (dim : Z) (x : tensor Z) : sres (raw_tensor Z) :=
  match fix_dim dim (length (t_shape x)) with
  | SOk axis =>
      let out := erase axis (t_shape x) in
      match exec (fresh (prod out)) (map (map_event snd) (scan_run Z.gtb 0 (load_int32 (t_data x)) (t_shape x) axis)) with
      | SOk m => SOk (Tn 5 out m)
      | SErr => SErr
      | SUndef => SUndef
      end
  | SErr => SErr
  | SUndef => SUndef
  end.

(** ** ReduceSum and ReduceMean *)

(** std::memset(output_data, 0, ...) *)
Definition zeros {A} (zero : A) (count : Z) : list (instr A) := map (fun i => Put i (SOk zero)) (upto count).

(** reduce_sum.cpp 40-50, reduce_mean.cpp 44-54 *)
Definition sum_updates {A} (add : A -> A -> A) (x : list A) (number channels width : Z) : list (instr A) :=
  flat_map (fun i => flat_map (fun c => map (fun w =>
    Upd (i * width + w) (lift1 (fun v acc => add acc v) (load x ((i * channels + c) * width + w))))
    (upto width)) (upto channels)) (upto number).

(** base_reduce_sum.cpp 60-82, reduce_sum.cpp *)
Definition reduce_sum_run {A} (add : A -> A -> A) (zero : A) (dim : Z) (keep_dims : bool) (x : tensor A) : sres (raw_tensor A) :=
  match fix_dim dim (length (t_shape x)) with
  | SOk axis =>
      if negb (tile_supports (t_dtype x)) then SErr else
      let kept := set_one axis (t_shape x) in
      match exec_instrs (fresh (prod kept)) (zeros zero (prod kept) ++
        sum_updates add (t_data x) (prod (firstn axis (t_shape x))) (nth axis (t_shape x) 0) (prod (skipn (S axis) (t_shape x)))) with
      | SOk m => SOk (Tn (t_dtype x) (if keep_dims then kept else erase axis kept) m) (* out.reshape *)
      | SErr => SErr
      | SUndef => SUndef
      end
  | SErr => SErr
  | SUndef => SUndef
  end.

(** base_reduce_mean.cpp 38-47: on the axes as given *)
Fixpoint dims_continue (dims : list Z) : bool :=
  match dims with
  | a :: ((b :: _) as rest) => (b =? a + 1) && dims_continue rest
  | _ => true
  end.
(** base_reduce_mean.cpp 62-70 *)
Fixpoint fix_dims (dims : list Z) (rank : nat) : sres (list nat) :=
  match dims with
  | [] => SOk []
  | d :: rest =>
      match fix_dim d rank, fix_dims rest rank with
      | SOk a, SOk l => SOk (a :: l)
      | _, _ => SErr
      end
  end.
(** base_reduce_mean.cpp 72-92 *)
Fixpoint drop_dims (i : nat) (input : list Z) (dims : list nat) : list Z :=
  match input, dims with
  | [], _ => []
  | _, [] => input
  | x :: input', j :: dims' => if Nat.eqb i j then drop_dims (S i) input' dims' else x :: drop_dims (S i) input' dims
  end.
Definition mean_shape (keep_dims : bool) (input : list Z) (dims : list nat) : list Z :=
  if keep_dims then fold_left (fun s d => set_one d s) dims input else drop_dims 0 input dims.

Definition integer_dtype (t : Z) : bool := (1 <=? t) && (t <=? 8).

(** base_reduce_mean.cpp 105-130, reduce_mean.cpp; [div a n] is a / n; an
    integer division by zero is undefined *)
Definition reduce_mean_run {A} (add : A -> A -> A) (div : A -> Z -> A) (zero : A) (dims : list Z) (keep_dims : bool)
    (x : tensor A) : sres (raw_tensor A) :=
  if negb (dims_continue dims) then SErr else
  match fix_dims dims (length (t_shape x)) with
  | SOk fixed =>
      let out := mean_shape keep_dims (t_shape x) fixed in
      if negb (tile_supports (t_dtype x)) then SErr else
      match fixed with
      | [] => SUndef (* dims[0] *)
      | first :: _ =>
          let number := prod (firstn first (t_shape x)) in
          let channels := prod (map (fun d => nth d (t_shape x) 0) fixed) in
          let width := prod (skipn (S (last fixed O)) (t_shape x)) in
          let divide := if (channels =? 0) && integer_dtype (t_dtype x) then SUndef else SOk (fun a => div a channels) in
          match exec_instrs (fresh (prod out))
            (zeros zero (prod out) ++ sum_updates add (t_data x) number channels width ++ map (fun i => Upd i divide) (upto (prod out))) with
          | SOk m => SOk (Tn (t_dtype x) out m)
          | SErr => SErr
          | SUndef => SUndef
          end
      end
  | SErr => SErr
  | SUndef => SUndef
  end.
