(** Model of two-dimensional pooling:
    pooling2d_forward (include/backend/common_function.h 14-20), the operators
    (src/backend/base/base_pooling2d.cpp 36-169, base_global_pooling2d.cpp
    17-80), Pooling2DCore (src/kernels/cpu/pooling2d_core.cpp 20-250) and the
    special kernels for stride two (src/kernels/cpu/pooling_algorithm.cpp
    12-495, the branch without NEON).

    Simplifications: the division of sizes is done in the code in float and
    then rounded up; here it is exact (see PoolingSizeModel for the float
    computation).  The elements are abstract: [ltb] is operator<, [add] the
    addition in the element type and [div] the division by a count.  In the
    special kernels the maxima of a cell are taken row by row; the code nests
    std::max in other orders (the result is the same for an order without
    NaN).  The pointers i0, i1, i2 of those kernels are always one image row
    apart and move together, so the model keeps i0 alone.  A shape with a
    negative size is [SUndef]. *)
From Coq Require Import List ZArith Bool.
From Verif Require Import ShapeModel KernelBase LoopModel ConvModel.
Import ListNotations.
Local Open Scope Z_scope.

(** common_function.h 17-18; division by a zero stride gives an infinity or
    NaN, whose conversion to int is undefined *)
Definition pool_size (x before after k stride : Z) : sres Z :=
  if stride =? 0 then SUndef else SOk (1 - (- (x + before + after - k)) / stride).

(** the values a counter takes from [a] to [b], exclusive *)
Definition range (a b : Z) : list Z := map (Z.add a) (upto (b - a)).

Inductive pool_type := MaxPool | AvgPool.
Inductive pad_type := Black | White | OtherPad.

(** padding, kernel and stride *)
Record pool_window := PW { p_top : Z; p_bottom : Z; p_left : Z; p_right : Z; k_h : Z; k_w : Z; s_h : Z; s_w : Z }.

Section Pool.
Context {T : Type} (ltb : T -> T -> bool) (zero : T) (add : T -> T -> T) (div : T -> Z -> T).

(** std::max, max_float32x4 *)
Definition max2 (a b : T) : T := if ltb a b then b else a.

Definition accumulate (f : T -> T -> T) (rd : Z -> sres T) (init : sres T) (ps : list Z) : sres T :=
  fold_left (fun acc p => bind acc (fun a => bind (rd p) (fun v => SOk (f a v)))) ps init.

(** pooling2d_core.cpp 59-81, 106-130, 155-175: the limits of a window *)
Definition limits (win : pool_window) (h w oh ow : Z) : (Z * Z) * (Z * Z) :=
  let ih := oh * s_h win - p_top win in
  let ih_end := Z.min (ih + k_h win) h in
  let iw := ow * s_w win - p_left win in
  let iw_end := Z.min (iw + k_w win) w in
  ((Z.max ih 0, ih_end), (Z.max iw 0, iw_end)).

Definition scan (w : Z) (l : (Z * Z) * (Z * Z)) : list Z :=
  flat_map (fun ih => map (fun iw => ih * w + iw) (range (fst (snd l)) (snd (snd l)))) (range (fst (fst l)) (snd (fst l))).

(** 45-91: [rd] reads the channel *)
Definition max_cell (rd : Z -> sres T) (h w : Z) (win : pool_window) (oh ow : Z) : sres T :=
  let l := limits win h w oh ow in
  accumulate (fun m v => if ltb m v then v else m) rd (rd (fst (fst l) * w + fst (snd l))) (scan w l).

(** 93-142 *)
Definition avg_cell (rd : Z -> sres T) (h w : Z) (win : pool_window) (oh ow : Z) : sres T :=
  let ps := scan w (limits win h w oh ow) in
  let count := Z.of_nat (length ps) in
  bind (accumulate add rd (SOk zero) ps) (fun sum =>
  if count =? 0 then SOk zero else SOk (div sum count)).

(** 144-186 *)
Definition avg_white_cell (rd : Z -> sres T) (h w : Z) (win : pool_window) (oh ow : Z) : sres T :=
  bind (accumulate add rd (SOk zero) (scan w (limits win h w oh ow))) (fun sum =>
  SOk (div sum (k_h win * k_w win))).

(** the loops common to the three *)
Definition plain (cell : (Z -> sres T) -> Z -> Z -> pool_window -> Z -> Z -> sres T) (x : list T) (win : pool_window)
    (n c h w oh ow : Z) : list (event T) :=
  map (fun kc => (fst kc,
    match snd kc with
    | [a; b; i; j] => cell (fun p => load x ((a * c + b) * (h * w) + p)) h w win i j
    | _ => SUndef
    end)) (counted (loops [n; c; oh; ow])).

(** ** The kernels for stride two *)

(** the maximum of [rows] x [cols] elements starting at [i0] *)
Definition block_max (rd : Z -> sres T) (w i0 rows cols : Z) : sres T :=
  match flat_map (fun r => map (fun c => i0 + r * w + c) (upto cols)) (upto rows) with
  | [] => SUndef
  | p :: ps => accumulate max2 rd (rd p) ps
  end.

(** what the last column (or row) of windows covers: pooling_algorithm.cpp
    124-133 and elsewhere for k = 3, 428-431 and elsewhere for k = 2 *)
Definition tail (k pad : Z) : option Z :=
  if k =? 3 then (if pad =? 1 then Some 2 else if pad =? 2 then Some 1 else None)
  else (if 0 <? pad then Some 1 else None).

(** one row of outputs, taken over [rows] rows of the image: 66-133, 140-222,
    225-286, 287-331; 402-433, 437-470, 473-497.  [ow] is output_width after
    59 / 394, [i0] the pointer into the image, [out_at] the one into the
    output; the result ends with how far i0 has gone and with out_at. *)
Definition pool_row (rd : Z -> sres T) (k w rows left right ow i0 out_at : Z) : list (event T) * (Z * Z) :=
  let blocks := if left =? 1 then Z.quot (ow - 1) 4 else Z.quot ow 4 in
  let first := if left =? 1 then [(out_at, block_max rd w i0 rows (k - 1))] else [] in
  let i1 := if left =? 1 then i0 + 1 else i0 in
  let o1 := if left =? 1 then out_at + 1 else out_at in
  let vectors := flat_map (fun b => map (fun lane => (o1 + 4 * b + lane, block_max rd w (i1 + 8 * b + 2 * lane) rows k)) (upto 4)) (upto blocks) in
  let i2 := i1 + 8 * Z.max 0 blocks in
  let o2 := o1 + 4 * Z.max 0 blocks in
  let remain_w_index := if left =? 1 then blocks * 4 + 1 else blocks * 4 in
  let scalars := map (fun r => (o2 + r, block_max rd w (i2 + 2 * r) rows k)) (upto (ow - remain_w_index)) in
  let i3 := i2 + 2 * Z.max 0 (ow - remain_w_index) in
  let o3 := o2 + Z.max 0 (ow - remain_w_index) in
  match tail k right with
  | Some cols => (first ++ vectors ++ scalars ++ [(o3, block_max rd w i3 rows cols)], (i3 - i0, o3 + 1))
  | None => (first ++ vectors ++ scalars, (i3 - i0, o3))
  end.

(** 136-223, 436-471: the rows between top and bottom *)
Fixpoint pool_rows (number : nat) (rd : Z -> sres T) (k w left right ow w_remain i0 out_at : Z) : list (event T) * (Z * Z) :=
  match number with
  | O => ([], (i0, out_at))
  | S number =>
      let '(es, (d, o)) := pool_row rd k w k left right ow i0 out_at in
      let '(rest, e) := pool_rows number rd k w left right ow w_remain (i0 + d + (w_remain + w)) o in
      (es ++ rest, e)
  end.

(** 34-332, 371-498: one channel; [k] is two or three *)
Definition pool_channel (rd : Z -> sres T) (k : Z) (win : pool_window) (h w oh ow : Z) : list (event T) :=
  let real_width := 2 * ow + (k - 2) in
  let real_height := 2 * oh + (k - 2) in
  let pad_w_all := Z.max 0 (real_width - w) in
  let pad_h_all := Z.max 0 (real_height - h) in
  let right := pad_w_all - p_left win in
  let bottom := pad_h_all - p_top win in
  let oh' := if 0 <? bottom then oh - 1 else oh in
  let ow' := if 0 <? right then ow - 1 else ow in
  let w_remain := if p_left win =? 1 then w - ow' * 2 + 1 else w - ow' * 2 in
  let '(top_es, (i0, o0)) :=
    if p_top win =? 1 then
      let '(es, (d, o)) := pool_row rd k w (k - 1) (p_left win) right ow' 0 0 in (es, (d + w_remain, o))
    else ([], (0, 0)) in
  let h0 := if p_top win =? 1 then 1 else 0 in
  let '(center_es, (i1, o1)) := pool_rows (Z.to_nat (oh' - h0)) rd k w (p_left win) right ow' w_remain i0 o0 in
  top_es ++ center_es ++
  match tail k bottom with
  | Some rows => fst (pool_row rd k w rows (p_left win) right ow' i1 o1)
  | None => []
  end.

(** 62-64, 397-400: the channels of all images *)
Definition special (k : Z) (x : list T) (win : pool_window) (n c h w oh ow : Z) : list (event T) :=
  flat_map (fun ab => match ab with
    | [a; b] => shift ((a * c + b) * (oh * ow)) (pool_channel (fun p => load x ((a * c + b) * (h * w) + p)) k win h w oh ow)
    | _ => []
    end) (loops [n; c]).

(** pooling2d_core.cpp 20-43; not on iOS *)
Definition special_kernel (win : pool_window) (ty : pool_type) : option Z :=
  let small p := (p =? 0) || (p =? 1) in
  if (s_h win =? 2) && (s_w win =? 2) && small (p_top win) && small (p_bottom win) && small (p_left win) && small (p_right win) then
    match ty with
    | MaxPool => if (k_w win =? 3) && (k_h win =? 3) then Some 3 else if (k_w win =? 2) && (k_h win =? 2) then Some 2 else None
    | AvgPool => None
    end
  else None.

(** 188-228; the special kernels of double are empty (pooling_algorithm.cpp
    12-17 and 349-354) *)
Definition pool_core (is_float : bool) (ty : pool_type) (pad : pad_type) (x : list T) (win : pool_window)
    (n c h w oh ow : Z) : sres (list (event T)) :=
  match pad, ty with
  | OtherPad, _ => SErr
  | _, MaxPool =>
      match special_kernel win ty with
      | Some k => SOk (if is_float then special k x win n c h w oh ow else [])
      | None => SOk (plain max_cell x win n c h w oh ow)
      end
  | Black, AvgPool => SOk (plain avg_cell x win n c h w oh ow)
  | White, AvgPool => SOk (plain avg_white_cell x win n c h w oh ow)
  end.

(** 230-250 *)
Definition pool_run (nchw : bool) (ty : pool_type) (pad : pad_type) (win : pool_window) (x : tensor T) (oh ow : Z) : sres (raw_tensor T) :=
  match t_shape x with
  | [n; c; h; w] =>
      if negb nchw then SErr else
      if negb ((t_dtype x =? 10) || (t_dtype x =? 11)) then SErr else
      bind (pool_core (t_dtype x =? 10) ty pad (t_data x) win n c h w oh ow) (fun stores =>
      bind (exec (fresh (n * c * oh * ow)) stores) (fun m => SOk (Tn (t_dtype x) [n; c; oh; ow] m)))
  | _ => SErr
  end.

(** base_pooling2d.cpp 36-95: padding 4x2, ksize and stride *)
Definition pool_init (nchw : bool) (padding ksize stride : list Z) : option pool_window :=
  let p i := nth i padding 0 in let k i := nth i ksize 0 in let s i := nth i stride 0 in
  if negb (Nat.eqb (length padding) 8 && Nat.eqb (length ksize) 4 && Nat.eqb (length stride) 4) then None else
  if nchw then
    if negb ((p 0%nat =? 0) && (p 1%nat =? 0) && (p 2%nat =? 0) && (p 3%nat =? 0)) then None else
    if negb ((k 0%nat =? 1) && (k 1%nat =? 1)) then None else
    if negb ((s 0%nat =? 1) && (s 1%nat =? 1)) then None else
    Some (PW (p 4%nat) (p 5%nat) (p 6%nat) (p 7%nat) (k 2%nat) (k 3%nat) (s 2%nat) (s 3%nat))
  else
    if negb ((p 0%nat =? 0) && (p 1%nat =? 0) && (p 6%nat =? 0) && (p 7%nat =? 0)) then None else
    if negb ((k 0%nat =? 1) && (k 3%nat =? 1)) then None else
    if negb ((s 0%nat =? 1) && (s 3%nat =? 1)) then None else
    Some (PW (p 2%nat) (p 3%nat) (p 4%nat) (p 5%nat) (k 1%nat) (k 2%nat) (s 1%nat) (s 2%nat)).

(** 97-169 *)
Definition pooling2d (nchw : bool) (ty : pool_type) (pad : pad_type) (padding ksize stride : list Z) (x : tensor T) : sres (raw_tensor T) :=
  match pool_init nchw padding ksize stride with
  | None => SErr
  | Some win =>
      match t_shape x with
      | [n; x1; x2; x3] =>
          let h := if nchw then x2 else x1 in let w := if nchw then x3 else x2 in
          bind (pool_size h (p_top win) (p_bottom win) (k_h win) (s_h win)) (fun oh =>
          bind (pool_size w (p_left win) (p_right win) (k_w win) (s_w win)) (fun ow =>
          if (oh <? 0) || (ow <? 0) then SUndef else
          pool_run nchw ty pad win x oh ow))
      | _ => SErr
      end
  end.

(** base_global_pooling2d.cpp 36-80 *)
Definition global_pooling2d (nchw : bool) (ty : pool_type) (x : tensor T) : sres (raw_tensor T) :=
  match t_shape x with
  | [n; x1; x2; x3] =>
      let h := if nchw then x2 else x1 in let w := if nchw then x3 else x2 in
      pool_run nchw ty Black (PW 0 0 0 0 h w 1 1) x 1 1
  | _ => SErr
  end.
End Pool.
