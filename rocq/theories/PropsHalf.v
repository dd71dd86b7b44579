(** Properties of the software floating point numbers. *)
From Coq Require Import ZArith Bool Lia.
From Verif Require Import HalfModel HalfSpec HalfProofs HalfValueProofs HalfOrderProofs.
Local Open Scope Z_scope.

(** ** C49: conversion between formats: for all pairs of formats (among them
    half, single and double) and all patterns *)

(** a finite number converted to a format at least as wide, and back, is the
    same pattern *)
Theorem C49_round_trip a b c : format_ok a -> format_ok b -> exponent a <= exponent b -> fraction a <= fraction b ->
  finite a c -> convert b a (convert a b c) = c.
Proof. apply round_trip. Qed.
Print Assumptions C49_round_trip.

(** no conversion yields an infinity or a NaN *)
Theorem C49_always_finite src dst c : format_ok src -> format_ok dst -> pattern src c -> finite dst (convert src dst c).
Proof. apply never_infinite. Qed.
Print Assumptions C49_always_finite.

(** a number that both formats represent with full precision keeps its value
    if the target has as many digits, and is rounded toward zero otherwise,
    with a relative error under 2^-fraction *)
Theorem C49_value_partial src dst K c v : format_ok src -> format_ok dst -> 0 <= K + ulp_min src -> 0 <= K + ulp_min dst ->
  means src K c v -> normal_range src K v -> normal_range dst K v ->
  exists v', means dst K (convert src dst c) v' /\ Z.sgn v' = Z.sgn v /\ Z.abs v' <= Z.abs v /\
    (Z.abs v - Z.abs v') * 2 ^ fraction dst < Z.abs v' /\ (fraction src <= fraction dst -> v' = v).
Proof. apply convert_value. Qed.
Print Assumptions C49_value_partial.

(** conversion keeps the order of numbers that are zero or not subnormal in
    either format, also where it overflows *)
Theorem C49_monotone_partial src dst K a b va vb : format_ok src -> format_ok dst -> 0 <= K + ulp_min src -> 0 <= K + ulp_min dst ->
  means src K a va -> means src K b vb -> full_precision src K va -> full_precision dst K va ->
  full_precision src K vb -> full_precision dst K vb -> va <= vb ->
  exists va' vb', means dst K (convert src dst a) va' /\ means dst K (convert src dst b) vb' /\ va' <= vb'.
Proof. apply convert_monotone. Qed.
Print Assumptions C49_monotone_partial.

(** Not so among the small numbers: 2^-15 becomes 0 as a half, the smaller
    2^-16 becomes 2^-24; and 1.5 * 2^-15 becomes 2^-15, two thirds of it. *)
Theorem C49_monotone_refuted :
  exists a b, means float32 149 a (2 ^ (149 - 16)) /\ means float32 149 b (2 ^ (149 - 15)) /\
    means float16 149 (convert float32 float16 a) (2 ^ (149 - 24)) /\ means float16 149 (convert float32 float16 b) 0.
Proof.
  exists (pack float32 0 111 0), (pack float32 0 112 0). 
  split; [exists 0, 111, 0; split; [split; [now left|cbn; lia]|split; [cbn; lia|split; reflexivity]]|].
  split; [exists 0, 112, 0; split; [split; [now left|cbn; lia]|split; [cbn; lia|split; reflexivity]]|].
  split; [exists 0, 0, 1; split; [split; [now left|cbn; lia]|split; [cbn; lia|split; reflexivity]]|].
  exists 0, 0, 0; split; [split; [now left|cbn; lia]|split; [cbn; lia|split; reflexivity]].
Qed.
Print Assumptions C49_monotone_refuted.

(** Nor do subnormal halves keep their value: 2^-24 becomes (1 + 2^-10) * 2^-15,
    over five hundred times as much. *)
Theorem C49_subnormal_refuted :
  means float16 149 1 (2 ^ (149 - 24)) /\
  means float32 149 (convert float16 float32 1) (1025 * 2 ^ (149 - 25)).
Proof.
  split; [exists 0, 0, 1; split; [split; [now left|cbn; lia]|split; [cbn; lia|split; reflexivity]]|].
  exists 0, 112, (2 ^ 13); split; [split; [now left|cbn; lia]|split; [cbn; lia|split; reflexivity]].
Qed.
Print Assumptions C49_subnormal_refuted.

(** Example: the three formats are formats; 1.0, -2.5 and 1/3 *)
Example C49_example :
  format_ok float16 /\ format_ok float32 /\ format_ok float64 /\
  finite float16 15360 /\ means float16 149 15360 (2 ^ 149) /\ normal_range float16 149 (2 ^ 149) /\ normal_range float32 149 (2 ^ 149) /\
  convert float16 float32 15360 = 1065353216 /\ convert float32 float16 1065353216 = 15360 /\
  convert float32 float16 3223322624 = 49408 /\ (* -2.5 *)
  convert float32 float16 1051372203 = 13653 /\ (* 1/3: 0x3eaaaaab -> 0x3555 *)
  convert float32 float16 2139095040 = 31743. (* infinity -> 65504 *)
Proof.
  repeat (split; [first [split; cbn; lia | exists 0, 15, 0; split; [split; [now left|cbn; lia]|split; [cbn; lia|first [reflexivity|split; reflexivity]]] | unfold normal_range; cbn; lia | reflexivity]|]).
  reflexivity.
Qed.

(** ** C85: the comparison operators agree with the order of the values, for
    all finite numbers (both zeros equal) *)
Theorem C85_comparisons f K a b va vb : format_ok f -> 0 <= K + ulp_min f -> means f K a va -> means f K b vb ->
  feq f a b = (va =? vb) /\ fne f a b = negb (va =? vb) /\ fge f a b = (vb <=? va) /\ fle f a b = (va <=? vb) /\
  fgt f a b = (vb <? va) /\ flt f a b = (va <? vb).
Proof. apply comparisons. Qed.
Print Assumptions C85_comparisons.

(** NaNs: one equals itself and exceeds infinity (no IEEE 754 NaN does) *)
Example C85_nan : feq float16 (pack float16 0 31 1) (pack float16 0 31 1) = true /\ fgt float16 (pack float16 0 31 1) (pack float16 0 31 0) = true.
Proof. split; reflexivity. Qed.

Example C85_example :
  0 <= 24 + ulp_min float16 /\ means float16 24 (pack float16 1 0 0) 0 /\ means float16 24 (pack float16 1 15 0) (- 2 ^ 24) /\
  fgt float16 (pack float16 1 0 0) (pack float16 1 15 0) = true /\ feq float16 0 (pack float16 1 0 0) = true /\ flt float16 0 (pack float16 1 0 0) = false.
Proof.
  split; [cbn; lia|]. split; [exists 1, 0, 0; split; [split; [now right|cbn; lia]|split; [cbn; lia|split; reflexivity]]|].
  split; [exists 1, 15, 0; split; [split; [now right|cbn; lia]|split; [cbn; lia|split; reflexivity]]|].
  split; [reflexivity|]. split; reflexivity.
Qed.
