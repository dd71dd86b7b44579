(** Model of the software floating point numbers of
    include/core/ieee754_float.h: [ieee754_float<W, 1, exponent, fraction>]
    with W = 1 + exponent + fraction (float16 = 5/10, float32 = 8/23, float64 =
    11/52: lines 341-343).

    Simplifications: the 64-bit intermediate values are unbounded integers
    (no shift in the three formats reaches 2^63). *)
From Coq Require Import ZArith Bool.
Local Open Scope Z_scope.

Record format := Fmt { exponent : Z; fraction : Z }.
Definition float16 := Fmt 5 10.
Definition float32 := Fmt 8 23.
Definition float64 := Fmt 11 52.

(** lines 97-101 *)
Definition width (f : format) : Z := 1 + exponent f + fraction f.
Definition bias (f : format) : Z := Z.shiftl 1 (exponent f - 1) - 1.
(** lines 317-327 *)
Definition mask_fraction (f : format) : Z := Z.shiftl 1 (fraction f) - 1.
Definition mask_exponent (f : format) : Z := Z.shiftl (Z.shiftl 1 (exponent f) - 1) (fraction f).
Definition mask_sign (f : format) : Z := Z.shiftl 1 (width f - 1).
(** lines 304-315 *)
Definition value_sign (f : format) (code : Z) : Z := Z.shiftr (Z.land code (mask_sign f)) (width f - 1).
Definition value_exponent (f : format) (code : Z) : Z := Z.shiftr (Z.land code (mask_exponent f)) (fraction f) - bias f.
Definition value_fraction (f : format) (code : Z) : Z := Z.land code (mask_fraction f).
(** lines 144-146 *)
Definition iszero (f : format) (code : Z) : bool := Z.land code (Z.lnot (mask_sign f)) =? 0.

(** the converting constructor, lines 114-142 *)
Definition convert (other self : format) (code : Z) : Z :=
  if Z.land code (Z.lnot (mask_sign other)) =? 0 then Z.shiftl (value_sign other code) (width self - 1)
  else
    let shift_left := fraction self - fraction other in
    let part_sign := Z.shiftl (value_sign other code) (width self - 1) in
    let part_fraction := if 0 <? shift_left then Z.shiftl (value_fraction other code) shift_left
                         else Z.shiftr (value_fraction other code) (- shift_left) in
    let origin_exponent := value_exponent other code + bias self in
    let max_exponent := Z.shiftl 1 (exponent self) - 2 in
    let max_fraction := Z.shiftl 1 (fraction self) - 1 in
    let '(origin_exponent, part_fraction) :=
      if origin_exponent <? 0 then (0, 1)
      else if max_exponent <? origin_exponent then (max_exponent, max_fraction)
      else (origin_exponent, part_fraction) in
    let part_exponent := Z.land (Z.shiftl origin_exponent (fraction self)) (mask_exponent self) in
    let bits := Z.lor (Z.lor part_sign part_exponent) part_fraction in
    Z.land bits (Z.shiftl 1 (width self) - 1).

(** the comparisons, lines 253-288 *)
Definition feq (f : format) (lhs rhs : Z) : bool :=
  if iszero f lhs then iszero f rhs
  else if iszero f rhs then false
  else lhs =? rhs.
Definition fne f lhs rhs := negb (feq f lhs rhs).
Definition fge (f : format) (lhs rhs : Z) : bool :=
  feq f lhs rhs ||
  (if Z.land (Z.lor lhs rhs) (mask_sign f) =? 0 then rhs <? lhs else lhs <? rhs).
Definition fle (f : format) (lhs rhs : Z) : bool :=
  feq f lhs rhs ||
  (if Z.land (Z.lor lhs rhs) (mask_sign f) =? 0 then lhs <? rhs else rhs <? lhs).
Definition fgt f lhs rhs := negb (fle f lhs rhs).
Definition flt f lhs rhs := negb (fge f lhs rhs).
