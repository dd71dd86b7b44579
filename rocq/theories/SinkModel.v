(** Model of the fixed point numbers of include/core/sink.h:
    [fixed_point_number<uintW_t, Q>] for W = 8, 16, 32, without
    TS_SINK_CHECKING_OVERFLOW (line 11 leaves it undefined).  A number is its
    raw word [value], an unsigned W-bit integer.

    Not modelled: W = 64 (whose "double width" is 64 bits), floating point
    conversions and streams. *)
From Coq Require Import ZArith Bool.
From Verif Require Import ShapeModel.
Local Open Scope Z_scope.

(** _T(x): the low W bits *)
Definition to_word (w x : Z) : Z := x mod 2 ^ w.
(** S(value): the word as a signed integer *)
Definition as_signed (w x : Z) : Z := if x <? 2 ^ (w - 1) then x else x - 2 ^ w.
(** the width in which _DS values are computed: int16_t is promoted to int
    (lines 61-79 and integer promotion) *)
Definition acc_bits (w : Z) : Z := Z.max 32 (2 * w).
(** signed arithmetic of that width: overflow is undefined *)
Definition signed_result (w x : Z) : sres Z :=
  if (- 2 ^ (acc_bits w - 1) <=? x) && (x <? 2 ^ (acc_bits w - 1)) then SOk x else SUndef.

Definition finish (w : Z) (r : sres Z) : sres Z :=
  match r with SOk x => SOk (to_word w x) | SErr => SErr | SUndef => SUndef end.

(** lines 245-272 *)
Definition sink_sub (w lhs rhs : Z) : sres Z := finish w (signed_result w (lhs - rhs)).
Definition sink_add (w lhs rhs : Z) : sres Z := finish w (signed_result w (lhs + rhs)).
(** lines 273-276: -lhs.value, in int or unsigned int *)
Definition sink_neg (w lhs : Z) : Z := to_word w (- lhs).
(** lines 278-290 *)
Definition sink_mul (w q lhs rhs : Z) : sres Z :=
  match signed_result w (lhs * rhs) with
  | SOk x => SOk (to_word w (Z.shiftr x q))
  | SErr => SErr
  | SUndef => SUndef
  end.
(** lines 292-304; Max() is the greatest signed word (line 172).  The word
    [lhs] is not negative, so that its shift is defined unless it overflows *)
Definition sink_div (w q lhs rhs : Z) : sres Z :=
  if rhs =? 0 then SOk (to_word w (2 ^ (w - 1) - 1))
  else match signed_result w (Z.shiftl lhs q) with
       | SOk x => SOk (to_word w (Z.quot x rhs))
       | SErr => SErr
       | SUndef => SUndef
       end.
(** lines 306-322 *)
Definition sink_lt (lhs rhs : Z) : bool := lhs <? rhs.
Definition sink_gt (lhs rhs : Z) : bool := rhs <? lhs.
Definition sink_le (lhs rhs : Z) : bool := lhs <=? rhs.
Definition sink_ge (lhs rhs : Z) : bool := rhs <=? lhs.
Definition sink_eq (lhs rhs : Z) : bool := lhs =? rhs.

(** integer converters, lines 100-111: top_number(value) << Q, cut to S and then
    to _T; and S(value) >> Q *)
Definition sink_of_int (w q value : Z) : Z := to_word w (Z.shiftl value q).
Definition sink_to_int (w q word : Z) : Z := Z.shiftr (as_signed w word) q.
