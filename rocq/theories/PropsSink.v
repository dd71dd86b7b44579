(** Properties of the fixed point numbers. *)
From Coq Require Import ZArith Bool Lia.
From Verif Require Import ShapeModel SinkModel SinkSpec.
Local Open Scope Z_scope.

Lemma word_cut w r : sink_width w -> representable w r -> word w r (to_word w r).
Proof.
  intros W H. split; [exact H|]. unfold to_word, representable in *.
  destruct W as [-> | [-> | ->]]; cbn in *; (split; intros; [apply Z.mod_small; lia|]); Z.to_euclidean_division_equations; lia.
Qed.
Lemma word_cong w r k : sink_width w -> to_word w (r + k * 2 ^ w) = to_word w r.
Proof. intros W. unfold to_word. apply Z.mod_add. destruct W as [-> | [-> | ->]]; cbn; lia. Qed.
Lemma word_form w r x : word w r x -> exists k, x = r + k * 2 ^ w /\ (k = 0 \/ k = 1) /\ (0 <= r -> k = 0).
Proof. intros (R & P & N). destruct (Z.lt_ge_cases r 0); [exists 1|exists 0]; split; lia. Qed.
Lemma word_bound w r x : sink_width w -> word w r x -> 0 <= x < 2 ^ w.
Proof. intros W (R & P & N). destruct W as [-> | [-> | ->]]; cbn in *; lia. Qed.
Lemma in_acc w x : sink_width w -> - 2 ^ (w + 1) <= x <= 2 ^ (w + 1) -> signed_result w x = SOk x.
Proof.
  intros W H. unfold signed_result, acc_bits. destruct W as [-> | [-> | ->]]; cbn in *;
    match goal with |- context [(?a <=? x) && (x <? ?b)] => destruct (Z.leb_spec a x), (Z.ltb_spec x b); cbn; try reflexivity; lia end.
Qed.

(** ** C50: arithmetic and comparison of fixed point numbers: for all words
    of 8, 16 and 32 bits and all numbers of fractional bits *)

(** sums, differences and negations are exact unless they overflow *)
Theorem C50_add w a b x y : sink_width w -> word w a x -> word w b y -> representable w (a + b) ->
  exists z, sink_add w x y = SOk z /\ word w (a + b) z.
Proof.
  intros W A B R. pose proof (word_bound _ _ _ W A) as Bx. pose proof (word_bound _ _ _ W B) as By.
  unfold sink_add. rewrite in_acc; [|exact W|destruct W as [-> | [-> | ->]]; cbn in *; lia]. cbn [finish].
  eexists. split; [reflexivity|]. destruct (word_form _ _ _ A) as (k & -> & _), (word_form _ _ _ B) as (l & -> & _).
  replace (a + k * 2 ^ w + (b + l * 2 ^ w)) with (a + b + (k + l) * 2 ^ w) by ring. rewrite word_cong by exact W. now apply word_cut.
Qed.
Print Assumptions C50_add.

Theorem C50_sub w a b x y : sink_width w -> word w a x -> word w b y -> representable w (a - b) ->
  exists z, sink_sub w x y = SOk z /\ word w (a - b) z.
Proof.
  intros W A B R. pose proof (word_bound _ _ _ W A) as Bx. pose proof (word_bound _ _ _ W B) as By.
  unfold sink_sub. rewrite in_acc; [|exact W|destruct W as [-> | [-> | ->]]; cbn in *; lia]. cbn [finish].
  eexists. split; [reflexivity|]. destruct (word_form _ _ _ A) as (k & -> & _), (word_form _ _ _ B) as (l & -> & _).
  replace (a + k * 2 ^ w - (b + l * 2 ^ w)) with (a - b + (k - l) * 2 ^ w) by ring. rewrite word_cong by exact W. now apply word_cut.
Qed.
Print Assumptions C50_sub.

Theorem C50_neg w a x : sink_width w -> word w a x -> representable w (- a) -> word w (- a) (sink_neg w x).
Proof.
  intros W A R. unfold sink_neg. destruct (word_form _ _ _ A) as (k & -> & _).
  replace (- (a + k * 2 ^ w)) with (- a + (- k) * 2 ^ w) by ring. rewrite word_cong by exact W. now apply word_cut.
Qed.
Print Assumptions C50_neg.

(** the product of two numbers that are not negative is rounded down *)
Theorem C50_mul_partial w q a b x y : sink_width w -> 0 <= q -> word w a x -> word w b y -> 0 <= a -> 0 <= b ->
  representable w (a * b / 2 ^ q) -> exists z, sink_mul w q x y = SOk z /\ word w (a * b / 2 ^ q) z.
Proof.
  intros W Q A B Ha Hb R. destruct A as (Ra & Ea & _), B as (Rb & Eb & _). rewrite (Ea Ha), (Eb Hb).
  unfold sink_mul, signed_result, acc_bits.
  assert (H : 0 <= a * b < 2 ^ (2 * w - 2)) by (destruct W as [-> | [-> | ->]]; cbn in *; nia).
  assert (L : (- 2 ^ (Z.max 32 (2 * w) - 1) <=? a * b) && (a * b <? 2 ^ (Z.max 32 (2 * w) - 1)) = true).
  { apply andb_true_iff. rewrite Z.leb_le, Z.ltb_lt. destruct W as [-> | [-> | ->]]; cbn in *; lia. }
  rewrite L. eexists. split; [reflexivity|]. rewrite Z.shiftr_div_pow2 by exact Q. now apply word_cut.
Qed.
Print Assumptions C50_mul_partial.

(** and so is the quotient, if the shifted dividend fits in the accumulator;
    a quotient by zero is the greatest number *)
Theorem C50_div_partial w q a b x y : sink_width w -> 0 <= q -> word w a x -> word w b y -> 0 <= a -> 0 < b ->
  a * 2 ^ q < 2 ^ (acc_bits w - 1) ->
  representable w (a * 2 ^ q / b) -> exists z, sink_div w q x y = SOk z /\ word w (a * 2 ^ q / b) z.
Proof.
  intros W Q A B Ha Hb F R. destruct A as (Ra & Ea & _), B as (Rb & Eb & _). rewrite (Ea Ha), (Eb ltac:(lia)).
  unfold sink_div. destruct (Z.eqb_spec b 0); [lia|]. rewrite Z.shiftl_mul_pow2 by exact Q.
  pose proof (Z.pow_pos_nonneg 2 q ltac:(lia) Q) as P.
  unfold signed_result.
  assert (L : (- 2 ^ (acc_bits w - 1) <=? a * 2 ^ q) && (a * 2 ^ q <? 2 ^ (acc_bits w - 1)) = true).
  { apply andb_true_iff. rewrite Z.leb_le, Z.ltb_lt. split; [|exact F]. assert (0 <= a * 2 ^ q) by (apply Z.mul_nonneg_nonneg; lia). lia. }
  rewrite L. eexists. split; [reflexivity|]. rewrite Z.quot_div_nonneg; [now apply word_cut| |lia].
  apply Z.mul_nonneg_nonneg; lia.
Qed.
Print Assumptions C50_div_partial.
Theorem C50_div_zero w q a x : sink_width w -> word w a x -> sink_div w q x 0 = SOk (2 ^ (w - 1) - 1).
Proof. intros W A. unfold sink_div. cbn [Z.eqb]. f_equal. unfold to_word. destruct W as [-> | [-> | ->]]; reflexivity. Qed.
Print Assumptions C50_div_zero.

(** comparison agrees with the values if the signs are the same *)
Theorem C50_order_partial w a b x y : sink_width w -> word w a x -> word w b y -> (0 <= a <-> 0 <= b) ->
  sink_lt x y = (a <? b) /\ sink_gt x y = (b <? a) /\ sink_le x y = (a <=? b) /\ sink_ge x y = (b <=? a).
Proof.
  intros W (Ra & Pa & Na) (Rb & Pb & Nb) S. unfold sink_lt, sink_gt, sink_le, sink_ge.
  destruct (Z.lt_ge_cases a 0) as [H|H].
  - rewrite (Na H), (Nb ltac:(lia)). rewrite !Z.ltb_antisym.
    assert (X : forall p q k, (p + k <=? q + k) = (p <=? q)) by (intros p q k; destruct (Z.leb_spec p q); [apply Z.leb_le|apply Z.leb_gt]; lia).
    now rewrite !X.
  - rewrite (Pa ltac:(lia)), (Pb ltac:(lia)). auto.
Qed.
Print Assumptions C50_order_partial.
Theorem C50_equal w a b x y : word w a x -> word w b y -> sink_eq x y = (a =? b).
Proof.
  intros (Ra & Pa & Na) (Rb & Pb & Nb). unfold sink_eq. destruct (Z.eqb_spec a b) as [-> |N].
  - destruct (Z.lt_ge_cases b 0); [rewrite Na, Nb by lia|rewrite Pa, Pb by lia]; apply Z.eqb_refl.
  - apply Z.eqb_neq. assert (H : 2 ^ w = 2 * 2 ^ (w - 1)) by (destruct (Z.lt_ge_cases w 1); [rewrite (Z.pow_neg_r 2 (w - 1)) in * by lia; lia|rewrite <- Z.pow_succ_r by lia; f_equal; lia]).
    destruct (Z.lt_ge_cases a 0), (Z.lt_ge_cases b 0); lia.
Qed.
Print Assumptions C50_equal.

(** integers convert without loss, and any number converts to the integer
    below it *)
Theorem C50_integer w q v : sink_width w -> 0 <= q -> representable w (v * 2 ^ q) ->
  word w (v * 2 ^ q) (sink_of_int w q v) /\ sink_to_int w q (sink_of_int w q v) = v.
Proof.
  intros W Q R. unfold sink_of_int. rewrite Z.shiftl_mul_pow2 by exact Q. pose proof (word_cut w _ W R) as H. split; [exact H|].
  unfold sink_to_int. assert (E : as_signed w (to_word w (v * 2 ^ q)) = v * 2 ^ q).
  { destruct H as (Rr & Pp & Nn). unfold as_signed. destruct (Z.lt_ge_cases (v * 2 ^ q) 0) as [L|L].
    - rewrite (Nn L). destruct (Z.ltb_spec (v * 2 ^ q + 2 ^ w) (2 ^ (w - 1))); [|lia]. destruct W as [-> | [-> | ->]]; cbn in *; lia.
    - rewrite Pp by lia. destruct (Z.ltb_spec (v * 2 ^ q) (2 ^ (w - 1))); lia. }
  rewrite E, Z.shiftr_div_pow2 by exact Q. apply Z.div_mul. apply Z.pow_nonzero; lia.
Qed.
Print Assumptions C50_integer.
Theorem C50_to_integer w q a x : sink_width w -> 0 <= q -> word w a x -> sink_to_int w q x = a / 2 ^ q.
Proof.
  intros W Q (R & P & N). unfold sink_to_int. assert (E : as_signed w x = a).
  { unfold as_signed. destruct (Z.lt_ge_cases a 0) as [L|L].
    - rewrite (N L). destruct (Z.ltb_spec (a + 2 ^ w) (2 ^ (w - 1))); [|lia]. destruct W as [-> | [-> | ->]]; cbn in *; lia.
    - rewrite P by lia. destruct (Z.ltb_spec a (2 ^ (w - 1))); lia. }
  rewrite E. apply Z.shiftr_div_pow2. exact Q.
Qed.
Print Assumptions C50_to_integer.

(** Negative numbers: the words are compared and multiplied as the unsigned
    integers they are stored in.  With 8 bits, 4 of them fractional: -1 < 1
    is false; -0.5 * 0.0625 is 0.9375; -1 / 2 is 7.5. *)
Theorem C50_negative_refuted :
  word 8 (-16) 240 /\ word 8 16 16 /\ word 8 (-8) 248 /\ word 8 1 1 /\ word 8 32 32 /\
  sink_lt 240 16 = false /\ sink_mul 8 4 248 1 = SOk 15 /\ word 8 15 15 /\ sink_div 8 4 240 32 = SOk 120 /\ word 8 120 120.
Proof.
  unfold word. change (2 ^ (8 - 1)) with 128. change (2 ^ 8) with 256.
  split; [lia|]. split; [lia|]. split; [lia|]. split; [lia|]. split; [lia|].
  split; [reflexivity|]. split; [reflexivity|]. split; [lia|]. split; [reflexivity|lia].
Qed.
Print Assumptions C50_negative_refuted.

(** and with 16 or 32 bits the product of two small negative numbers
    overflows the signed accumulator *)
Theorem C50_negative_product_undefined_refuted :
  word 16 (-1) 65535 /\ sink_mul 16 8 65535 65535 = SUndef /\ word 32 (-1) 4294967295 /\ sink_mul 32 16 4294967295 4294967295 = SUndef.
Proof.
  split; [unfold word; cbn; lia|]. split; [reflexivity|]. split; [unfold word; cbn; lia|]. reflexivity.
Qed.
Print Assumptions C50_negative_product_undefined_refuted.

Example C50_example :
  sink_width 8 /\ word 8 24 24 /\ word 8 (-40) 216 /\ representable 8 (24 + -40) /\
  sink_add 8 24 216 = SOk 240 /\ (* 1.5 + -2.5 = -1 *)
  sink_mul 8 4 24 40 = SOk 60 /\ (* 1.5 * 2.5 = 3.75 *)
  sink_div 8 4 40 24 = SOk 26 /\ (* 2.5 / 1.5 = 1.625, rounded down to 1/16ths *)
  sink_of_int 8 4 (-3) = 208 /\ sink_to_int 8 4 216 = -3.
Proof.
  split; [now left|]. split; [unfold word; cbn; lia|]. split; [unfold word; cbn; lia|]. split; [unfold representable; cbn; lia|].
  split; [reflexivity|]. split; [reflexivity|]. split; [reflexivity|]. split; reflexivity.
Qed.
