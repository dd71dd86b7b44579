(** C136: errors and the log level; C137: the answers of infer functions. *)
From Coq Require Import String List ZArith Bool Lia.
From Verif Require Import ApiModel LogModel PropsApi.
Import ListNotations.
Local Open Scope string_scope.
Local Open Scope Z_scope.

(** the text of the parts, one after the other *)
Definition joined (parts : list string) : string := fold_right append "" parts.

Lemma app_assoc_s (a b c : string) : (a ++ b) ++ c = a ++ (b ++ c).
Proof. induction a as [|x a IH]; cbn; [reflexivity|]. now rewrite IH. Qed.
Lemma app_nil_s (a : string) : a ++ "" = a.
Proof. induction a as [|x a IH]; cbn; [reflexivity|]. now rewrite IH. Qed.

Lemma fold_put g l parts : forall b, fold_left (put_text g) parts (Stream l b) =
  Stream l (if active g (Stream l "") then b ++ joined parts else b).
Proof.
  induction parts as [|p parts IH]; intro b; cbn [fold_left joined fold_right].
  - destruct (active g (Stream l "")); [|reflexivity]. now rewrite app_nil_s.
  - unfold put_text at 2. change (active g (Stream l b)) with (active g (Stream l "")). cbn [level buffer].
    destruct (active g (Stream l "")) eqn:E; rewrite IH; [now rewrite app_assoc_s|reflexivity].
Qed.
Lemma log_text g l place parts : log g l place parts = if negb (l =? 0) && (g <=? l) then Some (joined (["["; place; "]: "] ++ parts)%list) else None.
Proof.
  unfold log. rewrite fold_put. unfold eject.
  change (active g (Stream l (if active g (Stream l "") then "" ++ joined (["["; place; "]: "] ++ parts)%list else ""))) with (active g (Stream l "")).
  unfold active, LOG_NONE. cbn [level buffer]. destruct (negb (l =? 0) && (g <=? l)); reflexivity.
Qed.

(** At any level up to ERROR (the level at the start is INFO), a failed check
    throws, with all of its text, and one that holds does not. *)
Theorem C136_checked_partial : forall global condition place text parts, global <= LOG_ERROR ->
  check global condition place text parts =
  if condition then None else Some ("[" ++ place ++ "]: Check failed: (" ++ text ++ "). " ++ joined parts).
Proof.
  intros g condition place text parts Hg. unfold check, LOG_ERROR in *. rewrite log_text. destruct condition; [reflexivity|].
  unfold LOG_NONE. rewrite (proj2 (Z.leb_le g 4) Hg). cbn [negb Z.eqb andb]. unfold joined. cbn [List.app fold_right append].
  rewrite ?app_assoc_s. reflexivity.
Qed.
Print Assumptions C136_checked_partial.

(** False of the code as it stands above that level: nothing is ever thrown. *)
Theorem C136_level_refuted : forall global condition place text parts, LOG_ERROR < global ->
  check global condition place text parts = None.
Proof.
  intros g condition place text parts Hg. unfold check, LOG_ERROR, LOG_NONE in *. rewrite log_text. destruct condition; [reflexivity|].
  rewrite (proj2 (Z.leb_gt g 4) Hg). reflexivity.
Qed.
Print Assumptions C136_level_refuted.

(** So a failing call of the C API succeeds: making a tensor of a type that is
    not supported. *)
Theorem C136_api_refuted : forall place dtype made m, supported_dtype dtype = false ->
  invoke (fn "ts_new_Tensor") none_null (new_tensor_at LOG_INFO place dtype made) m = (Value 0, "[" ++ place ++ "]: Not support dtype: ") /\
  invoke (fn "ts_new_Tensor") none_null (new_tensor_at LOG_FATAL place dtype made) m = (Value made, "").
Proof.
  intros place dtype made m H. unfold new_tensor_at. rewrite H, !log_text. split; reflexivity.
Qed.
Print Assumptions C136_api_refuted.

Example C136_example : check LOG_INFO (2 =? 3) "a.cpp:5" "x == y" ["x is "; "2"] = Some "[a.cpp:5]: Check failed: (x == y). x is 2".
Proof. reflexivity. Qed.

(** *** C137 *)
Local Open Scope list_scope.


(** False of the code as it stands: no answer of an infer function is ever
    accepted. *)
Theorem C137_refuted : forall data l, decode data <> Decoded l.
Proof.
  intros data l H. unfold decode in H.
  destruct (Z.leb_spec (Z.of_nat (length data)) 0) as [Hz|Hz]; [discriminate|].
  assert (Hgen : forall n anchor l, 0 < Z.of_nat n -> Z.of_nat (length data) < anchor + 2 * Z.of_nat n -> decode_rounds n data anchor <> Decoded l).
  { induction n as [|n IH]; intros anchor l' Hn Hb Hd; [lia|]. cbn [decode_rounds] in Hd.
    destruct (Z.ltb_spec (Z.of_nat (length data) - anchor) 2); [discriminate|].
    destruct (Z.ltb_spec (Z.of_nat (length data) - (anchor + 2)) (item data (anchor + 1))); [discriminate|].
    destruct (Z.ltb_spec (item data (anchor + 1)) 0); [discriminate|].
    destruct (decode_rounds n data (anchor + 2 + item data (anchor + 1))) as [l2| |] eqn:E; try discriminate.
    destruct n as [|n']; [lia|]. eapply IH; [|  |exact E]; lia. }
  eapply Hgen; [| |exact H]; lia.
Qed.
Print Assumptions C137_refuted.

Lemma skipn_app_exact {A} (a b : list A) n : n = length a -> skipn n (a ++ b) = b.
Proof. intros ->. induction a; [reflexivity|assumption]. Qed.

(** In particular what the C++ interface sends for any outputs is refused with
    "format error". *)
Lemma rounds_of l : forall before after n, (n <= length l)%nat ->
  decode_rounds n (before ++ flat_map (fun p => fst p :: Z.of_nat (length (snd p)) :: snd p) l ++ after) (Z.of_nat (length before)) = Decoded (firstn n l).
Proof.
  induction l as [|[t sh] l IH]; intros before after n Hn.
  - replace n with 0%nat by (cbn in Hn; lia). reflexivity.
  - destruct n as [|n]; [reflexivity|]. cbn [length] in Hn. cbn [decode_rounds flat_map fst snd].
    set (tail := flat_map (fun p : Z * list Z => fst p :: Z.of_nat (length (snd p)) :: snd p) l).
    set (data := before ++ ((t :: Z.of_nat (length sh) :: sh) ++ tail) ++ after).
    assert (Hlen : length data = (length before + (2 + length sh + length tail) + length after)%nat).
    { unfold data. rewrite !app_length. cbn [length]. lia. }
    assert (H0 : item data (Z.of_nat (length before)) = t).
    { unfold item, data. rewrite app_nth2 by lia. rewrite Nat2Z.id, Nat.sub_diag. reflexivity. }
    assert (H1 : item data (Z.of_nat (length before) + 1) = Z.of_nat (length sh)).
    { unfold item, data. rewrite app_nth2 by lia. replace (Z.to_nat (Z.of_nat (length before) + 1) - length before)%nat with 1%nat by lia. reflexivity. }
    rewrite H0, H1. rewrite !(proj2 (Z.ltb_ge _ _)) by lia.
    specialize (IH (before ++ t :: Z.of_nat (length sh) :: sh) after n ltac:(lia)).
    fold tail in IH.
    replace ((before ++ t :: Z.of_nat (length sh) :: sh) ++ tail ++ after) with data in IH
      by (unfold data; rewrite <- !app_assoc; reflexivity).
    replace (Z.of_nat (length (before ++ t :: Z.of_nat (length sh) :: sh))) with (Z.of_nat (length before) + 2 + Z.of_nat (length sh)) in IH
      by (rewrite app_length; cbn [length]; lia).
    rewrite IH. cbn [firstn]. do 3 f_equal.
    unfold data. replace (before ++ ((t :: Z.of_nat (length sh) :: sh) ++ tail) ++ after) with ((before ++ [t; Z.of_nat (length sh)]) ++ sh ++ (tail ++ after))
      by (rewrite <- !app_assoc; reflexivity).
    rewrite skipn_app_exact by (rewrite app_length; cbn [length]; lia).
    rewrite Nat2Z.id, firstn_app, Nat.sub_diag, firstn_all, app_nil_r. reflexivity.
Qed.

Theorem C137_documented_refuted : forall l, decode (encode l) = Refused.
Proof.
  intro l.
  destruct (decode (encode l)) as [l'| |] eqn:E; [exfalso; apply (C137_refuted _ _ E)|reflexivity|].
  exfalso. unfold decode, encode in E.
  set (body := flat_map (fun p : Z * list Z => fst p :: Z.of_nat (length (snd p)) :: snd p) l) in E.
  cbn [length] in E. rewrite (proj2 (Z.leb_gt _ 0)) in E by lia.
  assert (Hgen : forall ll before n, decode_rounds n (before ++ flat_map (fun p : Z * list Z => fst p :: Z.of_nat (length (snd p)) :: snd p) ll) (Z.of_nat (length before)) <> Escapes).
  { induction ll as [|[t sh] ll IH]; intros before n Hd.
    - destruct n; [discriminate|]. cbn [decode_rounds flat_map] in Hd. rewrite app_nil_r in Hd.
      rewrite (proj2 (Z.ltb_lt (Z.of_nat (length before) - Z.of_nat (length before)) 2)) in Hd by lia. discriminate.
    - destruct n as [|n]; [discriminate|]. cbn [decode_rounds flat_map fst snd] in Hd.
      set (tail := flat_map (fun p : Z * list Z => fst p :: Z.of_nat (length (snd p)) :: snd p) ll) in *.
      set (data := before ++ (t :: Z.of_nat (length sh) :: sh) ++ tail) in Hd.
      assert (H1 : item data (Z.of_nat (length before) + 1) = Z.of_nat (length sh)).
      { unfold item, data. rewrite app_nth2 by lia. replace (Z.to_nat (Z.of_nat (length before) + 1) - length before)%nat with 1%nat by lia. reflexivity. }
      rewrite H1 in Hd.
      destruct (Z.ltb_spec (Z.of_nat (length data) - Z.of_nat (length before)) 2); [discriminate|].
      destruct (Z.ltb_spec (Z.of_nat (length data) - (Z.of_nat (length before) + 2)) (Z.of_nat (length sh))); [discriminate|].
      rewrite (proj2 (Z.ltb_ge (Z.of_nat (length sh)) 0)) in Hd by lia.
      destruct (decode_rounds n data (Z.of_nat (length before) + 2 + Z.of_nat (length sh))) eqn:E2; try discriminate.
      apply (IH (before ++ t :: Z.of_nat (length sh) :: sh) n).
      replace ((before ++ t :: Z.of_nat (length sh) :: sh) ++ tail) with data by (unfold data; rewrite <- app_assoc; reflexivity).
      replace (Z.of_nat (length (before ++ t :: Z.of_nat (length sh) :: sh))) with (Z.of_nat (length before) + 2 + Z.of_nat (length sh))
        by (rewrite app_length; cbn [length]; lia).
      exact E2. }
  apply (Hgen l [Z.of_nat (length l)] _ E).
Qed.
Print Assumptions C137_documented_refuted.

(** What is read is right as far as it goes: the first [n] outputs are those
    sent; only the number of rounds is wrong. *)
Theorem C137_rounds_partial : forall l n, (n <= length l)%nat -> decode_rounds n (encode l) 1 = Decoded (firstn n l).
Proof.
  intros l n Hn. pose proof (rounds_of l [Z.of_nat (length l)] [] n Hn) as H. rewrite app_nil_r in H. exact H.
Qed.
Print Assumptions C137_rounds_partial.

(** the example of include/api/operator.h 70-71 *)
Example C137_example :
  encode [(10, [4; 3]); (5, [5; 6; 7])] = [2; 10; 2; 4; 3; 5; 3; 5; 6; 7] /\
  decode [2; 10; 2; 4; 3; 5; 3; 5; 6; 7] = Refused /\
  decode_rounds 2 [2; 10; 2; 4; 3; 5; 3; 5; 6; 7] 1 = Decoded [(10, [4; 3]); (5, [5; 6; 7])].
Proof. repeat split. Qed.
