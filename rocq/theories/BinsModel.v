(** Model of split_bins (src/utils/box.cpp 58-83) and of the ranges that
    parallel_run / parallel_range hand out (include/runtime/inside/parallel.h
    22-62).

    The step is computed with doubles: ceil((second - first) / bins) in
    round-upward mode.  For 32-bit operands the double quotient lies on the
    same side of every integer as the exact one (it is off by less than
    1/bins), so the exact ceiling is used here.  [int] overflow is [BUndef]. *)
From Coq Require Import List ZArith Bool.
Import ListNotations.
Local Open Scope Z_scope.

Definition int_max : Z := 2147483647.

Inductive bres := BOk (l : list (Z * Z)) | BUndef | BFuel.

(** 58-65, 70-71 *)
Definition bin_step (first second bins : Z) : Z :=
  let s := - ((- (second - first)) / bins) in if s <? 1 then 1 else s.

(** 75-81; every iteration but the last consumes [step] *)
Fixpoint bins_loop (fuel : nat) (anchor second step : Z) : bres :=
  match fuel with
  | O => BFuel
  | S k =>
      if int_max <? anchor + step then BUndef
      else if anchor + step <? second then
        match bins_loop k (anchor + step) second step with
        | BOk l => BOk ((anchor, anchor + step) :: l)
        | r => r
        end
      else BOk (if anchor <? second then [(anchor, second)] else [])
  end.

(** 67-83; the loop makes at most [bins] iterations *)
Definition split_bins (first second bins : Z) : bres :=
  if second <=? first then BOk []
  else if bins <=? 1 then BOk [(first, second)]
  else bins_loop (Z.to_nat bins) first second (bin_step first second bins).

(** parallel.h 22-45: the calls of range_solver; [pool] is the size of the
    thread pool in the context, if there is one *)
Definition parallel_ranges (pool : option nat) (b e : Z) : bres :=
  match pool with
  | Some n => if (1 <? e - b) && (1 <? Z.of_nat n) then split_bins b e (Z.of_nat n)
              else BOk [(b, e)]
  | None => BOk [(b, e)]
  end.
