(** Properties of reading C++ values from tensors. *)
From Coq Require Import Ascii String List ZArith Bool Lia.
From Verif Require Import ShapeModel ShapeSpec ShapeProofs KernelBase KernelSpec KernelProofs EltwiseModel CastModel CastSpec CastProofs PropsCast.
Import ListNotations.
Local Open Scope Z_scope.

Section Text.
Variables to_half of_half : num -> num.
Notation to_int := (to_int to_half of_half).
Notation to_bool := (to_bool to_half of_half).

(** ** C113: text in a tensor, and the value it stands for. *)
Lemma to_char_back c : to_char (Num (wrap (-128) 127 (Z.of_nat (nat_of_ascii c)) * scale)) = c.
Proof.
  cbn [to_char]. rewrite Z.div_mul by (pose proof scale_pos; lia). unfold wrap.
  pose proof (nat_ascii_bounded c) as B.
  replace (Z.to_nat ((-128 + (Z.of_nat (nat_of_ascii c) - -128) mod (127 - -128 + 1)) mod 256)) with (nat_of_ascii c) by (Z.to_euclidean_division_equations; lia).
  apply ascii_nat_embedding.
Qed.
Theorem C113_string s : to_string (from s) = SOk s.
Proof.
  unfold to_string, from. cbn [t_dtype t_shape t_data Z.eqb Pos.eqb negb]. f_equal. rewrite map_map, Nat2Z.id.
  rewrite (map_ext _ (fun c => c)) by (intros c; apply to_char_back). rewrite map_id.
  replace (String.length s) with (length (list_ascii_of_string s)) by (induction s; cbn; congruence).
  rewrite firstn_all. apply string_of_list_ascii_of_string.
Qed.

Definition text (l : list ascii) : string := string_of_list_ascii l.
Lemma c_str_text l r : Forall (fun c => c <> "000"%char) l -> c_str (text (l ++ r)) = text (l ++ list_ascii_of_string (c_str (text r))).
Proof.
  intros H. induction H as [|c l Hc H IH]; [cbn; symmetry; apply string_of_list_ascii_of_string|]. cbn. destruct (Ascii.eqb_spec c "000"%char); [contradiction|].
  f_equal. exact IH.
Qed.
Lemma skip_white l r : Forall white l -> skip_spaces (text (l ++ r)) = skip_spaces (text r).
Proof.
  intros H. induction H as [|c l Hc H IH]; [reflexivity|]. cbn. replace (is_space c) with true; [exact IH|].
  symmetry. unfold is_space. destruct Hc as [Hc|[H1 H2]]; [now rewrite Hc|].
  rewrite (proj2 (Nat.leb_le _ _) H1), (proj2 (Nat.leb_le _ _) H2). apply orb_true_r.
Qed.
Lemma digit_spec c : is_digit c -> digit c = Some (Z.of_nat (nat_of_ascii c) - 48).
Proof. intros [H1 H2]. unfold digit. now rewrite (proj2 (Nat.leb_le _ _) H1), (proj2 (Nat.leb_le _ _) H2). Qed.
Lemma not_digit c : ~ is_digit c -> digit c = None.
Proof.
  unfold is_digit, digit. intros H. destruct (Nat.leb_spec 48 (nat_of_ascii c)); [|reflexivity]. destruct (Nat.leb_spec (nat_of_ascii c) 57); [lia|reflexivity].
Qed.
Definition stops (r : list ascii) : Prop := match r with [] => True | c :: _ => ~ is_digit c end.
Lemma digits_spec l : forall acc r, Forall is_digit l -> stops r -> digits acc (text (l ++ r)) = acc * 10 ^ Z.of_nat (length l) + decimal l.
Proof.
  induction l as [|c l IH]; intros acc r H Hr.
  - cbn [length Z.of_nat decimal app]. rewrite Z.pow_0_r. destruct r as [|c r]; cbn; [lia|]. rewrite not_digit by exact Hr. lia.
  - inversion H as [|? ? Hc Hl]; subst. cbn [app text string_of_list_ascii digits]. rewrite (digit_spec c Hc). fold (text (l ++ r)). rewrite (IH _ r Hl Hr).
    cbn [length decimal]. rewrite Nat2Z.inj_succ, Z.pow_succ_r by lia. ring.
Qed.
Lemma decimal_nonneg l : Forall is_digit l -> 0 <= decimal l.
Proof. intros H. induction H as [|c l [H1 H2] H IH]; [cbn; lia|]. cbn [decimal]. assert (0 <= 10 ^ Z.of_nat (length l)) by (apply Z.pow_nonneg; lia). nia. Qed.
Lemma is_digit_not c : is_digit c -> is_space c = false /\ c <> "000"%char /\ c <> "-"%char /\ c <> "+"%char.
Proof.
  intros [H1 H2]. split; [|split; [|split]]; try (intros ->; cbn in *; lia).
  unfold is_space. destruct (Nat.eqb_spec (nat_of_ascii c) 32); [lia|]. cbn. apply andb_false_iff. right. apply Nat.leb_gt. lia.
Qed.
Lemma strtol_start c r : is_space c = false -> c <> "-"%char -> c <> "+"%char -> strtol (String c r) = clamp (- 2 ^ 63) (2 ^ 63 - 1) (digits 0 (String c r)).
Proof.
  intros Hs N1 N2. unfold strtol. cbn [skip_spaces]. rewrite Hs. f_equal.
  destruct c as [[] [] [] [] [] [] [] []]; first [reflexivity|exfalso; apply N1; reflexivity|exfalso; apply N2; reflexivity].
Qed.
Lemma wrap32 z : wrap (- 2 ^ 31) (2 ^ 31 - 1) z = (z + 2 ^ 31) mod 2 ^ 32 - 2 ^ 31.
Proof. unfold wrap. replace (2 ^ 31 - 1 - - 2 ^ 31 + 1) with (2 ^ 32) by reflexivity. replace (z - - 2 ^ 31) with (z + 2 ^ 31) by lia. lia. Qed.

Lemma stops_c_str r : stops r -> stops (list_ascii_of_string (c_str (text r))).
Proof. destruct r as [|c r]; [auto|]. cbn. intros H. destruct (Ascii.eqb c "000"%char); [exact I|]. exact H. Qed.
Lemma list_text l : list_ascii_of_string (text l) = l.
Proof. apply list_ascii_of_string_of_list_ascii. Qed.

(** Text that starts with an integer, perhaps after white space, is read as this
    integer, whatever follows it, if it fits. *)
Theorem C113_to_int ws sign ds rest : Forall white ws -> sign = [] \/ sign = ["+"%char] \/ sign = ["-"%char] -> Forall is_digit ds -> ds <> [] -> stops rest ->
  let n := match sign with "-"%char :: _ => - decimal ds | _ => decimal ds end in
  - 2 ^ 31 <= n < 2 ^ 31 -> to_int (from (text (ws ++ sign ++ ds ++ rest))) = SOk n.
Proof.
  intros Hw Hs Hd Nd Hr n Hn. unfold CastModel.to_int. cbn [from t_dtype]. rewrite Z.eqb_refl. fold (from (text (ws ++ sign ++ ds ++ rest))). rewrite C113_string. f_equal.
  assert (NZ : Forall (fun c => c <> "000"%char) (ws ++ sign ++ ds)).
  { apply Forall_app. split; [|apply Forall_app; split].
    - eapply Forall_impl; [|exact Hw]. intros c H E. subst c. destruct H as [H|H]; cbn in H; [discriminate|lia].
    - destruct Hs as [-> |[-> | ->]]; repeat constructor; discriminate.
    - eapply Forall_impl; [|exact Hd]. intros c H. apply is_digit_not in H. tauto. }
  replace (ws ++ sign ++ ds ++ rest) with ((ws ++ sign ++ ds) ++ rest) by now rewrite <- !app_assoc.
  rewrite (c_str_text _ rest NZ), <- !app_assoc. set (rest' := list_ascii_of_string (c_str (text rest))).
  assert (Hr' : stops rest') by now apply stops_c_str.
  assert (E : strtol (text (ws ++ sign ++ ds ++ rest')) = n).
  { assert (D : digits 0 (text (ds ++ rest')) = decimal ds) by (rewrite (digits_spec ds 0 rest' Hd Hr'); lia).
    pose proof (decimal_nonneg ds Hd) as P.
    assert (C : clamp (- 2 ^ 63) (2 ^ 63 - 1) n = n).
    { unfold clamp. assert (B : 2 ^ 31 < 2 ^ 63 - 1) by reflexivity. rewrite (proj2 (Z.ltb_ge n (- 2 ^ 63))) by lia. rewrite (proj2 (Z.ltb_ge (2 ^ 63 - 1) n)) by lia. reflexivity. }
    rewrite <- C. destruct Hs as [-> |[-> | ->]]; unfold n.
    - unfold strtol. rewrite (skip_white ws _ Hw). cbn [app]. destruct ds as [|c ds]; [congruence|]. inversion Hd as [|? ? Hc Hl]; subst.
      destruct (is_digit_not c Hc) as (S1 & S2 & S3 & S4). rewrite <- D. cbn [app text string_of_list_ascii]. fold (text (ds ++ rest')).
      cbn [skip_spaces]. rewrite S1. pose proof (strtol_start c (text (ds ++ rest')) S1 S3 S4) as X. unfold strtol in X. cbn [skip_spaces] in X. rewrite S1 in X. exact X.
    - unfold strtol. rewrite (skip_white ws _ Hw). cbn [app text string_of_list_ascii]. fold (text (ds ++ rest')).
      change (skip_spaces (String "+" (text (ds ++ rest')))) with (String "+" (text (ds ++ rest'))). cbv iota. now rewrite D.
    - unfold strtol. rewrite (skip_white ws _ Hw). cbn [app text string_of_list_ascii]. fold (text (ds ++ rest')).
      change (skip_spaces (String "-" (text (ds ++ rest')))) with (String "-" (text (ds ++ rest'))). cbv iota. now rewrite D. }
  rewrite E, wrap32. change (2 ^ 31) with 2147483648 in *. change (2 ^ 32) with 4294967296. rewrite Z.mod_small by lia. lia.
Qed.
(** The first element of a tensor of numbers is read, converted as by cast. *)
Theorem C113_to_int_number x a rest : plain (t_dtype x) -> t_dtype x <> 13 -> wf x -> t_data x = a :: rest -> Forall (holds (t_dtype x)) (t_data x) ->
  (exists b, t_dtype x <> 5 /\ In b (t_data x) /\ (forall k, ~ converted (t_dtype x) 5 b k) /\ to_int x = SUndef) \/
  (exists n, to_int x = SOk n /\ (t_dtype x = 5 -> a = integer n) /\ (t_dtype x <> 5 -> converted (t_dtype x) 5 a (integer n))).
Proof.
  intros P Nc W Ed Hh. unfold CastModel.to_int. rewrite (proj2 (Z.eqb_neq _ _) Nc).
  assert (Hp : prod (t_shape x) =? 0 = false).
  { rewrite prod_elements. destruct W as [_ W]. rewrite <- W, Ed. apply Z.eqb_neq. cbn [length]. lia. }
  rewrite Hp. pose proof scale_pos as Sp.
  destruct (Z.eq_dec (t_dtype x) 5) as [E|N].
  - right. pose proof (C112_same to_half of_half x) as Y. rewrite E in Y. rewrite Y. unfold filled, first. rewrite Ed. cbn [map t_data].
    rewrite Ed in Hh. inversion Hh as [|? ? Ha _]; subst. rewrite E in Ha. destruct Ha as (n & -> & _). exists n.
    unfold integer at 1. fold scale. rewrite Z.div_mul by lia. split; [reflexivity|]. split; [reflexivity|]. intros; contradiction.
  - destruct (C112_cast_partial to_half of_half x 5 W P ltac:(left; discriminate) Hh N) as [(y & E & _ & _ & _ & F)|(E & b & Hb & Nb)].
    + right. rewrite E, Ed in *. inversion F as [|? b ? ly C F' E1 E2]; subst. unfold first, filled. cbn [t_data]. rewrite <- E2. cbn [map].
      assert (I : exists n, b = integer n). { unfold converted in C. cbn [bits] in C. destruct (bits (t_dtype x)); destruct C as (? & k & _ & -> & _); eauto. }
      destruct I as (n & ->). unfold integer at 1. fold scale. rewrite Z.div_mul by lia. exists n. split; [reflexivity|]. split; [intros; contradiction|]. intros _. exact C.
    + left. exists b. rewrite E. cbn [first]. auto.
Qed.
Theorem C113_to_int_empty x : t_dtype x <> 13 -> elements (t_shape x) = 0 -> to_int x = SErr /\ to_bool x = SErr.
Proof. intros N E. unfold CastModel.to_int, CastModel.to_bool. rewrite (proj2 (Z.eqb_neq _ _) N), prod_elements, E. split; reflexivity. Qed.
(** Text is true exactly when it is the word "true" in any mixture of cases. *)
Definition same_letter (c d : ascii) : Prop :=
  c = d \/ (nat_of_ascii c + 32 = nat_of_ascii d /\ 65 <= nat_of_ascii c <= 90)%nat.
Lemma lower_small c d : (97 <= nat_of_ascii d <= 122)%nat -> lower c = d <-> same_letter c d.
Proof.
  intros Hd. unfold lower, same_letter. destruct (Nat.leb_spec 65 (nat_of_ascii c)); [destruct (Nat.leb_spec (nat_of_ascii c) 90)|]; cbn [andb].
  - split.
    + intros <-. right. rewrite nat_ascii_embedding by lia. lia.
    + intros [->|[E _]]; [lia|]. rewrite E. apply ascii_nat_embedding.
  - split; [auto|]. intros [H1|H1]; [exact H1|lia].
  - split; [auto|]. intros [H1|H1]; [exact H1|lia].
Qed.
Theorem C113_to_bool s : exists b, to_bool (from s) = SOk b /\ (b = true <-> Forall2 same_letter (list_ascii_of_string s) ["t"; "r"; "u"; "e"]%char).
Proof.
  unfold CastModel.to_bool. cbn [from t_dtype]. rewrite Z.eqb_refl. fold (from s). rewrite C113_string. eexists. split; [reflexivity|].
  rewrite String.eqb_eq. change "true"%string with (text ["t"; "r"; "u"; "e"]%char).
  assert (G : forall l, Forall (fun d => 97 <= nat_of_ascii d <= 122)%nat l -> forall s, to_lower s = text l <-> Forall2 same_letter (list_ascii_of_string s) l).
  { clear. induction l as [|d l IH]; intros H s; (destruct s as [|c s]; cbn).
    - split; [constructor|reflexivity].
    - split; [discriminate|intros F; inversion F].
    - split; [discriminate|intros F; inversion F].
    - inversion H as [|? ? Hd Hl]; subst. split.
      + intros [= E1 E2]. constructor; [apply lower_small; auto|]. now apply IH.
      + intros F. inversion F as [|? ? ? ? F1 F2]; subst. apply lower_small in F1; [|exact Hd]. rewrite F1. f_equal. now apply IH. }
  apply G. repeat constructor; cbn; lia.
Qed.
End Text.
Print Assumptions C113_string.
Print Assumptions C113_to_int.
Print Assumptions C113_to_int_number.
Print Assumptions C113_to_int_empty.
Print Assumptions C113_to_bool.

Local Open Scope string_scope.
Example C113_example :
  to_int keep keep (from "  -42px") = SOk (-42) /\ to_int keep keep (from "+7") = SOk 7 /\ to_int keep keep (from "") = SOk 0 /\
  to_bool keep keep (from "TrUe") = SOk true /\ to_bool keep keep (from "true ") = SOk false /\
  to_int keep keep (Tn 10 [2] [Num (5 * 2 ^ 1073); integer 9]) = SOk 2.
Proof. vm_compute. repeat split. Qed.
(** Integers that do not fit are not refused, and text that is not a number is
    zero: "4294967297" is 1, "seven" is 0; "1" is not true. *)
Theorem C113_silent_refuted :
  to_int keep keep (from "4294967297") = SOk 1 /\ to_int keep keep (from "seven") = SOk 0 /\ to_bool keep keep (from "1") = SOk false.
Proof. vm_compute. repeat split. Qed.
Print Assumptions C113_silent_refuted.
