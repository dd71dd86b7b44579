(** Model of the static inference of types and shapes:
    src/runtime/inferer/factory.cpp.  A prototype is a data type and a shape
    in which a negative size means "unknown"; [None] is VOID.

    Simplifications: sizes do not overflow [int]; attributes are given, and
    the values the inferers ask for with get_value are known; a read of a
    shape outside of it (undefined in C++) gives 0 or VOID: it only happens on
    inputs the operator itself rejects. *)
From Coq Require Import List ZArith Bool.
From Verif Require Import KernelBase BinsModel.
Import ListNotations.
Local Open Scope Z_scope.

Record proto := Proto { p_dtype : Z; p_shape : list Z }.

Definition rank_of (p : proto) : Z := Z.of_nat (length (p_shape p)).

(** insert ones in front until there are [n] sizes: 124-126, 1874-1884 *)
Definition ones_before (shape : list Z) (n : nat) : list Z := repeat 1 (n - length shape) ++ shape.

(** 111-137; [permute] is the attribute.  Without it [permute] stays empty:
    120-124 build the default in [tmp] *)
Definition infer_transpose (permute : option (list Z)) (x : proto) : option proto :=
  match permute, rank_of x <? 2 with
  | None, true => Some x
  | _, _ =>
      let perm := match permute with Some p => p | None => [] end in
      let x_shape := ones_before (p_shape x) (length perm) in
      if forallb (fun p => (0 <=? p) && (p <? Z.of_nat (length x_shape))) perm
      then Some (Proto (p_dtype x) (map (fun p => nth (Z.to_nat p) x_shape 0) perm))
      else None
  end.

(** 269-286 *)
Definition eltwise_infer_dim (a b : Z) : Z :=
  if a <=? 0 then (if b =? 1 then -1 else b)
  else if a =? 1 then b
  else if b <=? 0 then a
  else if b =? 1 then a
  else if a =? b then a
  else -1.

(** 288-313 *)
Definition infer_eltwise (l r : proto) : option proto :=
  let ls := ones_before (p_shape l) (length (p_shape r)) in
  let rs := ones_before (p_shape r) (length (p_shape l)) in
  Some (Proto (p_dtype l) (map (fun ab => eltwise_infer_dim (fst ab) (snd ab)) (combine ls rs))).

(** 627-634: the loop over the other inputs *)
Fixpoint concat_total (dim : nat) (acc : Z) (others : list proto) : Z :=
  match others with
  | [] => acc
  | p :: rest =>
      let inc := nth dim (p_shape p) 0 in
      if inc <? 0 then -1 else concat_total dim (acc + inc) rest
  end.
(** 616-637 *)
Definition infer_concat (dim : Z) (inputs : list proto) : option proto :=
  match inputs with
  | [] => None
  | x :: others =>
      let d := if dim <? 0 then rank_of x + dim else dim in
      if (d <? 0) || (rank_of x <=? d) then None
      else let n := Z.to_nat d in
           Some (Proto (p_dtype x) (set_nth n (concat_total n (nth n (p_shape x) 0) others) (p_shape x)))
  end.

(** 1031-1053; the fields of the packed prototype *)
Definition infer_chunk (chunks dim : Z) (x : proto) : option (list proto) :=
  let d := if dim <? 0 then dim + rank_of x else dim in
  if (d <? 0) || (rank_of x <=? d) then None
  else match split_bins 0 (nth (Z.to_nat d) (p_shape x) 0) chunks with
       | BOk bins => Some (map (fun be => Proto (p_dtype x) (set_nth (Z.to_nat d) (snd be - fst be) (p_shape x))) bins)
       | _ => None
       end.

(** y_shape.erase(y_shape.begin() + n) *)
Definition without (n : nat) (s : list Z) : list Z := firstn n s ++ skipn (S n) s.

(** 1406-1422 *)
Definition infer_gather (axis : Z) (x indices : proto) : option proto :=
  let a := if axis <? 0 then axis + rank_of x else axis in
  if (a <? 0) || (rank_of x <=? a) then None
  else let n := Z.to_nat a in
       Some (Proto (p_dtype x) (firstn n (without n (p_shape x)) ++ p_shape indices ++ skipn n (without n (p_shape x)))).

(** 1426-1443; the comparison is between unsigned numbers, so that a negative
    last size is too large *)
Definition infer_gatherv2 (x indices : proto) : option proto :=
  if (rank_of x =? 0) || (rank_of indices =? 0) then None else
  let a := last (p_shape indices) 0 in
  if (a <? 0) || (rank_of x <? a) then None
  else Some (Proto (p_dtype x) (removelast (p_shape indices) ++ skipn (Z.to_nat a) (p_shape x))).

(** 898-911; INT32 is 5 *)
Definition infer_argmax (dim : Z) (x : proto) : option proto :=
  let d := if dim <? 0 then dim + rank_of x else dim in
  if (d <? 0) || (rank_of x <=? d) then None
  else Some (Proto 5 (without (Z.to_nat d) (p_shape x))).

(** 1463-1466 *)
Fixpoint fix_axes (rank : Z) (axes : list Z) : option (list Z) :=
  match axes with
  | [] => Some []
  | a :: rest =>
      let a' := if a <? 0 then a + rank else a in
      if (a' <? 0) || (rank <=? a') then None
      else match fix_axes rank rest with Some l => Some (a' :: l) | None => None end
  end.
(** 1468: std::sort, greatest first *)
Fixpoint insert_desc (a : Z) (l : list Z) : list Z :=
  match l with
  | [] => [a]
  | b :: r => if b <=? a then a :: l else b :: insert_desc a r
  end.
Definition sort_desc (l : list Z) : list Z := fold_right insert_desc [] l.
(** 1470-1476 *)
Definition reduce_axis (keep : bool) (s : list Z) (axis : Z) : list Z :=
  let n := Z.to_nat axis in
  let e := without n s in
  if keep then firstn n e ++ 1 :: skipn n e else e.
(** 1456-1479: max, reduce_sum, reduce_mean *)
Definition infer_reduction (axes : list Z) (keep : bool) (x : proto) : option proto :=
  match fix_axes (rank_of x) axes with
  | Some l => Some (Proto (p_dtype x) (fold_left (reduce_axis keep) (sort_desc l) (p_shape x)))
  | None => None
  end.

(** 915-939: crop_top, crop_bottom, crop_left, crop_right, block sizes *)
Definition infer_b2s (ct cb cl cr bh bw : Z) (x : proto) : option proto :=
  match p_shape x with
  | [n; c; h; w] =>
      Some (Proto (p_dtype x)
        [if n <? 0 then -1 else Z.quot n (bh * bw); if c <? 0 then -1 else c;
         if h <? 0 then -1 else h * bh - ct - cb; if w <? 0 then -1 else w * bw - cl - cr])
  | _ => None
  end.
(** 943-968 *)
Definition infer_s2b (pt pb pl pr bh bw : Z) (x : proto) : option proto :=
  match p_shape x with
  | [n; c; h; w] =>
      Some (Proto (p_dtype x)
        [if n <? 0 then -1 else n * bh * bw; if c <? 0 then -1 else c;
         if h <? 0 then -1 else Z.quot (h + pt + pb) bh; if w <? 0 then -1 else Z.quot (w + pl + pr) bw])
  | _ => None
  end.

(** 1587-1603 *)
Definition infer_pad (pads : list (Z * Z)) (x : proto) : option proto :=
  if negb (Nat.eqb (length pads) (length (p_shape x))) then None
  else Some (Proto (p_dtype x)
         (map (fun xp => if fst xp <? 0 then fst xp else fst xp + (fst (snd xp) + snd (snd xp)))
              (combine (p_shape x) pads))).

(** 1873-1904 *)
Definition infer_tile (repeats : list Z) (x : proto) : option proto :=
  let xs := ones_before (p_shape x) (length repeats) in
  let rs := ones_before repeats (length (p_shape x)) in
  Some (Proto (p_dtype x) (map (fun xr => if fst xr <? 0 then -1 else fst xr * snd xr) (combine xs rs))).

(** 1485-1496 *)
Definition infer_nms (max_output : Z) (scores : proto) : option proto :=
  match p_shape scores with
  | [] => None
  | n :: _ => Some (Proto 5 [Z.min n max_output])
  end.
