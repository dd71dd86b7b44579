(** Proofs about the AES model: inverse and conformance. *)
From Coq Require Import Init.Byte NArith List Bool Arith Lia.
From Verif Require Import AesModel AesSpec AesProofs.
Import ListNotations.

Lemma len16 (s : list byte) : length s = 16 -> exists a0 a1 a2 a3 a4 a5 a6 a7 a8 a9 a10 a11 a12 a13 a14 a15,
  s = [a0; a1; a2; a3; a4; a5; a6; a7; a8; a9; a10; a11; a12; a13; a14; a15].
Proof.
  intros H. do 16 (destruct s as [|? s]; [discriminate H|]). destruct s; [|discriminate H].
  repeat eexists.
Qed.

Ltac open16 H := apply len16 in H;
  destruct H as (?a0 & ?a1 & ?a2 & ?a3 & ?a4 & ?a5 & ?a6 & ?a7 & ?a8 & ?a9 & ?a10 & ?a11 & ?a12 & ?a13 & ?a14 & ?a15 & ->).

Lemma AddRoundKey_length n rk s : length (AddRoundKey n rk s) = 16.
Proof. reflexivity. Qed.
Lemma SubBytes_length s : length (SubBytes s) = length s.
Proof. apply map_length. Qed.
Lemma InvSubBytes_length s : length (InvSubBytes s) = length s.
Proof. apply map_length. Qed.
Lemma set_length l : forall i b, length (set l i b) = length l.
Proof. induction l as [|x l IH]; intros [|i] b; simpl; auto. Qed.
Lemma ShiftRows_length s : length (ShiftRows s) = length s.
Proof. unfold ShiftRows. now rewrite !set_length. Qed.
Lemma InvShiftRows_length s : length (InvShiftRows s) = length s.
Proof. unfold InvShiftRows. now rewrite !set_length. Qed.
Lemma MixColumns_length s : length (MixColumns s) = 16.
Proof. reflexivity. Qed.
Lemma InvMixColumns_length s : length (InvMixColumns s) = 16.
Proof. reflexivity. Qed.

Lemma add_key_twice n rk s : length s = 16 -> AddRoundKey n rk (AddRoundKey n rk s) = s.
Proof.
  intros H. open16 H. unfold AddRoundKey. cbn [seq map at_ nth]. unfold at_ at 1 3 5 7 9 11 13 15 17 19 21 23 25 27 29 31.
  cbn [nth]. rewrite !xor_add, !add_cancel. reflexivity.
Qed.

Lemma inv_shift s : length s = 16 -> InvShiftRows (ShiftRows s) = s.
Proof. intros H. open16 H. reflexivity. Qed.
Lemma shift_inv s : length s = 16 -> ShiftRows (InvShiftRows s) = s.
Proof. intros H. open16 H. reflexivity. Qed.
Lemma inv_sub s : InvSubBytes (SubBytes s) = s.
Proof. unfold SubBytes, InvSubBytes. rewrite map_map. rewrite <- (map_id s) at 2. apply map_ext, box_inverse. Qed.
Lemma sub_inv s : SubBytes (InvSubBytes s) = s.
Proof. unfold SubBytes, InvSubBytes. rewrite map_map. rewrite <- (map_id s) at 2. apply map_ext, box_inverse'. Qed.

Lemma columns_cons f a0 a1 a2 a3 a4 a5 a6 a7 a8 a9 a10 a11 a12 a13 a14 a15 :
  columns f [a0; a1; a2; a3; a4; a5; a6; a7; a8; a9; a10; a11; a12; a13; a14; a15] =
  f [a0; a1; a2; a3] ++ f [a4; a5; a6; a7] ++ f [a8; a9; a10; a11] ++ f [a12; a13; a14; a15].
Proof. unfold columns. cbn [seq map Nat.mul Nat.add skipn firstn concat]. now rewrite app_nil_r. Qed.

Lemma four (l : list byte) : length l = 4 -> exists a b c d, l = [a; b; c; d].
Proof. intros H. do 4 (destruct l as [|? l]; [discriminate H|]). destruct l; [|discriminate H]. repeat eexists. Qed.

Lemma columns_inverse f g s : (forall c, length (f c) = 4) ->
  (forall a b c d, g (f [a; b; c; d]) = [a; b; c; d]) ->
  length s = 16 -> columns g (columns f s) = s.
Proof.
  intros Hf Hg H. open16 H. rewrite columns_cons.
  pose proof (Hg a0 a1 a2 a3) as G0. pose proof (Hg a4 a5 a6 a7) as G1.
  pose proof (Hg a8 a9 a10 a11) as G2. pose proof (Hg a12 a13 a14 a15) as G3.
  destruct (four _ (Hf [a0; a1; a2; a3])) as (? & ? & ? & ? & E0).
  destruct (four _ (Hf [a4; a5; a6; a7])) as (? & ? & ? & ? & E1).
  destruct (four _ (Hf [a8; a9; a10; a11])) as (? & ? & ? & ? & E2).
  destruct (four _ (Hf [a12; a13; a14; a15])) as (? & ? & ? & ? & E3).
  rewrite E0 in *. rewrite E1 in *. rewrite E2 in *. rewrite E3 in *. cbn [app].
  rewrite columns_cons, G0, G1, G2, G3. reflexivity.
Qed.

Lemma inv_mix s : length s = 16 -> InvMixColumns (MixColumns s) = s.
Proof. apply columns_inverse; [reflexivity|apply inv_mix_mix]. Qed.
Lemma mix_inv s : length s = 16 -> MixColumns (InvMixColumns s) = s.
Proof. apply columns_inverse; [reflexivity|apply mix_inv_mix]. Qed.

Lemma rounds_length rk l : forall s, length s = 16 -> length (fold_left (cipher_round rk) l s) = 16.
Proof. induction l as [|n l IH]; intros s H; simpl; auto. Qed.
Lemma inv_rounds_length rk l : forall s, length s = 16 -> length (fold_left (inv_cipher_round rk) l s) = 16.
Proof. induction l as [|n l IH]; intros s H; simpl; auto. Qed.

Lemma Cipher_length rk s : length (Cipher rk s) = 16.
Proof. reflexivity. Qed.
Lemma InvCipher_length rk s : length (InvCipher rk s) = 16.
Proof. reflexivity. Qed.

(** one round, both ways *)
Definition half (s : list byte) : list byte := ShiftRows (SubBytes s).
Definition inv_half (s : list byte) : list byte := InvSubBytes (InvShiftRows s).
Lemma inv_half_half s : length s = 16 -> inv_half (half s) = s.
Proof. intros H. unfold inv_half, half. rewrite inv_shift by (rewrite SubBytes_length; exact H). apply inv_sub. Qed.
Lemma half_inv_half s : length s = 16 -> half (inv_half s) = s.
Proof. intros H. unfold inv_half, half. rewrite sub_inv. apply shift_inv, H. Qed.
Lemma half_length s : length (half s) = length s.
Proof. unfold half. now rewrite ShiftRows_length, SubBytes_length. Qed.
Lemma inv_half_length s : length (inv_half s) = length s.
Proof. unfold inv_half. now rewrite InvSubBytes_length, InvShiftRows_length. Qed.

(** The decryption runs the rounds in the opposite order. *)
Section Rounds.
Context {A : Type} (ok : A -> Prop) (h ih mx imx : A -> A) (key : nat -> A -> A).
Hypothesis ok_h : forall s, ok s -> ok (h s).
Hypothesis ok_ih : forall s, ok s -> ok (ih s).
Hypothesis ok_mx : forall s, ok s -> ok (mx s).
Hypothesis ok_imx : forall s, ok s -> ok (imx s).
Hypothesis ok_key : forall n s, ok s -> ok (key n s).
Hypothesis ih_h : forall s, ok s -> ih (h s) = s.
Hypothesis h_ih : forall s, ok s -> h (ih s) = s.
Hypothesis imx_mx : forall s, ok s -> imx (mx s) = s.
Hypothesis mx_imx : forall s, ok s -> mx (imx s) = s.
Hypothesis key_key : forall n s, ok s -> key n (key n s) = s.
Definition enc_round (s : A) (n : nat) : A := key n (mx (h s)).
Definition dec_round (s : A) (n : nat) : A := imx (key n (ih s)).

Lemma ok_enc l : forall s, ok s -> ok (fold_left enc_round l s).
Proof. induction l as [|n l IH]; intros s H; simpl; [exact H|]. apply IH, ok_key, ok_mx, ok_h, H. Qed.
Lemma ok_dec l : forall s, ok s -> ok (fold_left dec_round l s).
Proof. induction l as [|n l IH]; intros s H; simpl; [exact H|]. apply IH, ok_imx, ok_key, ok_ih, H. Qed.

Lemma undo_rounds l : forall s, ok s ->
  fold_left dec_round (rev l) (h (fold_left enc_round l s)) = h s.
Proof.
  induction l as [|n l IH] using rev_ind; intros s H; [reflexivity|].
  rewrite fold_left_app, rev_app_distr. cbn [fold_left rev app].
  pose proof (ok_enc l s H) as Ht.
  unfold dec_round at 2. rewrite ih_h by (apply ok_key, ok_mx, ok_h, Ht).
  unfold enc_round at 1. rewrite key_key by (apply ok_mx, ok_h, Ht).
  rewrite imx_mx by (apply ok_h, Ht). apply IH, H.
Qed.

Lemma redo_rounds l : forall s, ok s ->
  fold_left enc_round l (ih (fold_left dec_round (rev l) s)) = ih s.
Proof.
  induction l as [|n l IH] using rev_ind; intros s H; [reflexivity|].
  rewrite fold_left_app, rev_app_distr. cbn [fold_left rev app].
  assert (Hd : ok (dec_round s n)) by (apply ok_imx, ok_key, ok_ih, H).
  rewrite IH by exact Hd. unfold enc_round. rewrite h_ih by exact Hd.
  unfold dec_round. rewrite mx_imx by (apply ok_key, ok_ih, H).
  apply key_key, ok_ih, H.
Qed.

Lemma dec_enc l a b s : ok s ->
  key a (ih (fold_left dec_round (rev l) (key b (key b (h (fold_left enc_round l (key a s))))))) = s.
Proof.
  intros H. rewrite key_key by (apply ok_h, ok_enc, ok_key, H).
  rewrite undo_rounds by (apply ok_key, H). rewrite ih_h by (apply ok_key, H). apply key_key, H.
Qed.
Lemma enc_dec l a b s : ok s ->
  key b (h (fold_left enc_round l (key a (key a (ih (fold_left dec_round (rev l) (key b s))))))) = s.
Proof.
  intros H. rewrite key_key by (apply ok_ih, ok_dec, ok_key, H).
  rewrite redo_rounds by (apply ok_key, H). rewrite h_ih by (apply ok_key, H). apply key_key, H.
Qed.
End Rounds.

Lemma Cipher_eq rk s : Cipher rk s =
  AddRoundKey 14 rk (half (fold_left (enc_round half MixColumns (fun n s => AddRoundKey n rk s)) (seq 1 13)
                                     (AddRoundKey 0 rk s))).
Proof. unfold Cipher, enc_round, cipher_round, half. reflexivity. Qed.
Lemma InvCipher_eq rk s : InvCipher rk s =
  AddRoundKey 0 rk (inv_half (fold_left (dec_round inv_half InvMixColumns (fun n s => AddRoundKey n rk s))
                                        (rev (seq 1 13)) (AddRoundKey 14 rk s))).
Proof. unfold InvCipher, dec_round, inv_cipher_round, inv_half. reflexivity. Qed.

Lemma decrypt_encrypt rk s : length s = 16 -> InvCipher rk (Cipher rk s) = s.
Proof.
  intros H. rewrite InvCipher_eq, Cipher_eq. generalize (seq 1 13). intros l.
  pose proof (dec_enc (fun s => length s = 16) half inv_half MixColumns InvMixColumns
    (fun n s => AddRoundKey n rk s)) as G. cbv beta in G. apply G; clear G.
  - intros x Hx. rewrite half_length. exact Hx.
  - intros x _. apply MixColumns_length.
  - intros n x _. apply AddRoundKey_length.
  - apply inv_half_half.
  - apply inv_mix.
  - intros n x. apply add_key_twice.
  - exact H.
Qed.

Lemma encrypt_decrypt rk s : length s = 16 -> Cipher rk (InvCipher rk s) = s.
Proof.
  intros H. rewrite InvCipher_eq, Cipher_eq. generalize (seq 1 13). intros l.
  pose proof (enc_dec (fun s => length s = 16) half inv_half MixColumns InvMixColumns
    (fun n s => AddRoundKey n rk s)) as G. cbv beta in G. apply G; clear G.
  - intros x Hx. rewrite inv_half_length. exact Hx.
  - intros x _. apply InvMixColumns_length.
  - intros n x _. apply AddRoundKey_length.
  - apply half_inv_half.
  - apply mix_inv.
  - intros n x. apply add_key_twice.
  - exact H.
Qed.

(** *** Conformance *)
Definition rel (l : list byte) (s : state) : Prop :=
  length l = 16 /\ forall r c, r < 4 -> c < 4 -> at_ l (4 * c + r) = s r c.

Ltac cases4 r := destruct r as [|[|[|[|r]]]]; [| | | |exfalso; lia].

Lemma rel_sub l s : rel l s -> rel (SubBytes l) (sub_bytes s).
Proof.
  intros (H & E). split; [now rewrite SubBytes_length|]. intros r c Hr Hc. unfold sub_bytes.
  rewrite <- E, <- sub_box by assumption. unfold SubBytes, at_.
  rewrite (nth_indep _ x00 (getSBoxValue x00)) by (rewrite map_length; lia).
  apply map_nth.
Qed.

Lemma rel_shift l s : rel l s -> rel (ShiftRows l) (shift_rows s).
Proof.
  intros (H & E). split; [now rewrite ShiftRows_length|]. intros r c Hr Hc. unfold shift_rows.
  rewrite <- E by (try apply Nat.mod_upper_bound; lia).
  open16 H. cases4 r; cases4 c; reflexivity.
Qed.

Lemma rel_mix l s : rel l s -> rel (MixColumns l) (mix_columns s).
Proof.
  intros (H & E). split; [reflexivity|]. intros r c Hr Hc. unfold mix_columns.
  rewrite <- !E by (try apply Nat.mod_upper_bound; lia).
  open16 H. unfold MixColumns. rewrite columns_cons, !mix_column_spec.
  cases4 r; cases4 c; reflexivity.
Qed.

Lemma rel_key rk w n l s : (forall r c, r < 4 -> c < 4 -> at_ rk (16 * n + 4 * c + r) = w (4 * n + c) r) ->
  rel l s -> rel (AddRoundKey n rk l) (add_round_key w n s).
Proof.
  intros Hw (H & E). split; [reflexivity|]. intros r c Hr Hc. unfold add_round_key.
  rewrite <- E, <- Hw by assumption. rewrite <- xor_add. unfold AddRoundKey, at_ at 1.
  set (f := fun k => xor (at_ l k) (at_ rk (n * 16 + k))).
  rewrite (nth_indep _ x00 (f 0)) by (rewrite map_length, seq_length; lia).
  rewrite map_nth, seq_nth by lia. unfold f. f_equal; f_equal; lia.
Qed.

Definition same_keys (rk : list byte) (w : nat -> nat -> byte) : Prop :=
  forall i r, i < 60 -> r < 4 -> at_ rk (4 * i + r) = w i r.

Lemma same_keys_round rk w n : same_keys rk w -> n <= 14 ->
  forall r c, r < 4 -> c < 4 -> at_ rk (16 * n + 4 * c + r) = w (4 * n + c) r.
Proof. intros H Hn r c Hr Hc. rewrite <- H by lia. f_equal. lia. Qed.

Lemma rel_round rk w n l s : same_keys rk w -> n <= 14 -> rel l s ->
  rel (cipher_round rk l n) (round w s n).
Proof.
  intros Hw Hn H. unfold cipher_round, round. apply rel_key; [apply same_keys_round; auto; lia|].
  apply rel_mix, rel_shift, rel_sub, H.
Qed.

Lemma rel_fold (f : list byte -> nat -> list byte) (g : state -> nat -> state) :
  (forall n l s, n <= 14 -> rel l s -> rel (f l n) (g s n)) ->
  forall k n l s, n + k <= 15 -> rel l s -> rel (fold_left f (seq n k) l) (fold_left g (seq n k) s).
Proof.
  intros Hf. induction k as [|k IH]; intros n l s Hn H; [exact H|]. cbn [seq fold_left].
  apply IH; [lia|]. apply Hf; [lia|exact H].
Qed.

Lemma rel_rounds rk w : same_keys rk w -> forall k n l s, n + k <= 15 -> rel l s ->
  rel (fold_left (cipher_round rk) (seq n k) l) (fold_left (round w) (seq n k) s).
Proof. intros Hw. apply rel_fold. intros n l s. apply rel_round, Hw. Qed.

Lemma rel_out l s : rel l s -> l = map (fun k => s (k mod 4) (k / 4)) (seq 0 16).
Proof.
  intros (H & E). open16 H. cbn [seq map].
  change (0 mod 4) with 0; change (1 mod 4) with 1; change (2 mod 4) with 2; change (3 mod 4) with 3;
  change (4 mod 4) with 0; change (5 mod 4) with 1; change (6 mod 4) with 2; change (7 mod 4) with 3;
  change (8 mod 4) with 0; change (9 mod 4) with 1; change (10 mod 4) with 2; change (11 mod 4) with 3;
  change (12 mod 4) with 0; change (13 mod 4) with 1; change (14 mod 4) with 2; change (15 mod 4) with 3;
  change (0 / 4) with 0; change (1 / 4) with 0; change (2 / 4) with 0; change (3 / 4) with 0;
  change (4 / 4) with 1; change (5 / 4) with 1; change (6 / 4) with 1; change (7 / 4) with 1;
  change (8 / 4) with 2; change (9 / 4) with 2; change (10 / 4) with 2; change (11 / 4) with 2;
  change (12 / 4) with 3; change (13 / 4) with 3; change (14 / 4) with 3; change (15 / 4) with 3.
  rewrite <- !E by lia. reflexivity.
Qed.

Lemma cipher_fips rk w s : same_keys rk w -> length s = 16 -> Cipher rk s = fips_cipher w s.
Proof.
  intros Hw H. unfold fips_cipher, Cipher. apply rel_out.
  apply rel_key; [apply same_keys_round; auto|]. apply rel_shift, rel_sub, rel_rounds; [exact Hw|lia|].
  apply rel_key; [apply same_keys_round; auto; lia|]. split; [exact H|].
  intros r c Hr Hc. unfold at_. f_equal. lia.
Qed.

(** the key schedule *)
Lemma expand_step_length rk i : length (expand_step rk i) = length rk + 4.
Proof. unfold expand_step. rewrite app_length. reflexivity. Qed.

Lemma at_app_l l l' i : i < length l -> at_ (l ++ l') i = at_ l i.
Proof. intros H. apply app_nth1, H. Qed.

Lemma expand_keep rk l : forall i, i < length rk -> at_ (fold_left expand_step l rk) i = at_ rk i.
Proof.
  revert rk. induction l as [|n l IH]; intros rk i H; [reflexivity|]. cbn [fold_left].
  rewrite IH by (rewrite expand_step_length; lia). unfold expand_step. apply at_app_l, H.
Qed.

Lemma rcon_table j : 1 <= j <= 7 -> at_ Rcon j = rcon j 0.
Proof. intros H. do 8 (destruct j as [|j]; [try lia; reflexivity|]). lia. Qed.

Definition kw (rk : list byte) (i r : nat) : byte := at_ rk (4 * i + r).

Lemma expand_step_word rk i r : length rk = 4 * i -> 8 <= i < 60 -> r < 4 ->
  kw (expand_step rk i) i r = add (kw rk (i - 8) r)
     (if i mod 8 =? 0 then add (sub (kw rk (i - 1) ((r + 1) mod 4))) (rcon (i / 8) r)
      else if i mod 8 =? 4 then sub (kw rk (i - 1) r) else kw rk (i - 1) r).
Proof.
  intros HL Hi Hr. unfold kw at 1. unfold expand_step. unfold at_ at 1.
  rewrite app_nth2 by lia. replace (4 * i + r - length rk) with r by lia.
  assert (E1 : forall r, at_ rk ((i - 1) * 4 + r) = kw rk (i - 1) r) by (intros; unfold kw; f_equal; lia).
  assert (E8 : forall r, at_ rk ((i - 8) * 4 + r) = kw rk (i - 8) r) by (intros; unfold kw; f_equal; lia).
  rewrite <- (Nat.add_0_r ((i - 1) * 4)), <- (Nat.add_0_r ((i - 8) * 4)).
  replace ((i - 1) * 4 + 0 + 1) with ((i - 1) * 4 + 1) by lia.
  replace ((i - 1) * 4 + 0 + 2) with ((i - 1) * 4 + 2) by lia.
  replace ((i - 1) * 4 + 0 + 3) with ((i - 1) * 4 + 3) by lia.
  replace ((i - 8) * 4 + 0 + 1) with ((i - 8) * 4 + 1) by lia.
  replace ((i - 8) * 4 + 0 + 2) with ((i - 8) * 4 + 2) by lia.
  replace ((i - 8) * 4 + 0 + 3) with ((i - 8) * 4 + 3) by lia.
  rewrite !E1, !E8.
  destruct (Nat.eqb_spec (i mod 8) 0) as [M0|M0].
  - rewrite M0. cbn [Nat.eqb].
    rewrite rcon_table by (split; [apply Nat.div_le_lower_bound; lia|];
      apply Nat.lt_succ_r, Nat.div_lt_upper_bound; lia).
    cases4 r; cbn [map set at_ nth]; unfold at_; cbn [map set nth]; rewrite !xor_add, !sub_box;
      try reflexivity; unfold rcon; cbn [Nat.eqb]; rewrite add_0_r; reflexivity.
  - destruct (i mod 8 =? 4).
    + cases4 r; unfold at_; cbn [map nth]; rewrite !xor_add, !sub_box; reflexivity.
    + cases4 r; unfold at_; cbn [map nth]; rewrite !xor_add; reflexivity.
Qed.

Lemma expansion_words key : length key = 32 ->
  forall k, k <= 52 -> length (fold_left expand_step (seq 8 k) key) = 4 * (8 + k) /\
  forall i r, 8 <= i < 8 + k -> r < 4 ->
    let w := kw (fold_left expand_step (seq 8 k) key) in
    w i r = add (w (i - 8) r)
     (if i mod 8 =? 0 then add (sub (w (i - 1) ((r + 1) mod 4))) (rcon (i / 8) r)
      else if i mod 8 =? 4 then sub (w (i - 1) r) else w (i - 1) r).
Proof.
  intros HL. induction k as [|k IH]; intros Hk; [split; [exact HL|intros; lia]|].
  destruct IH as (IL & IW); [lia|]. rewrite seq_S, fold_left_app. cbn [fold_left].
  set (rk := fold_left expand_step (seq 8 k) key) in *.
  split; [rewrite expand_step_length; lia|]. intros i r Hi Hr.
  set (w := kw (expand_step rk (8 + k))) in *.
  assert (Hold : forall j q, j < 8 + k -> q < 4 -> w j q = kw rk j q).
  { intros j q Hj Hq. unfold w, kw, expand_step. apply at_app_l. lia. }
  assert (Hq : (r + 1) mod 4 < 4) by (apply Nat.mod_upper_bound; lia).
  destruct (Nat.eq_dec i (8 + k)) as [->|Hne].
  - rewrite !(Hold (8 + k - 8)), !(Hold (8 + k - 1)) by lia. unfold w. rewrite expand_step_word by lia. reflexivity.
  - rewrite !Hold by lia. apply IW; lia.
Qed.

Lemma schedule_unique key w1 w2 : key_schedule key w1 -> key_schedule key w2 ->
  forall i r, i < 60 -> r < 4 -> w1 i r = w2 i r.
Proof.
  intros (A1 & B1) (A2 & B2). intros i. induction i as [i IH] using lt_wf_ind. intros r Hi Hr.
  destruct (Nat.lt_ge_cases i 8) as [H|H].
  - rewrite A1, A2 by assumption. reflexivity.
  - assert (Hq : (r + 1) mod 4 < 4) by (apply Nat.mod_upper_bound; lia).
    rewrite B1, B2 by lia. rewrite !(IH (i - 8)), !(IH (i - 1)) by lia. reflexivity.
Qed.

Lemma KeyExpansion_schedule key : length key = 32 -> key_schedule key (kw (KeyExpansion key)).
Proof.
  intros H. unfold KeyExpansion. rewrite firstn_all2 by lia. split.
  - intros i r Hi Hr. unfold kw. rewrite expand_keep by lia. reflexivity.
  - intros i r Hi Hr. destruct (expansion_words key H 52 (le_n _)) as (_ & W). apply W; lia.
Qed.

Lemma schedule_same key rk w : key_schedule key (kw rk) -> key_schedule key w -> same_keys rk w.
Proof. intros S Hw i r Hi Hr. exact (schedule_unique key (kw rk) w S Hw i r Hi Hr). Qed.

Lemma KeyExpansion_same key w : length key = 32 -> key_schedule key w -> same_keys (KeyExpansion key) w.
Proof. intros H. apply schedule_same. exact (KeyExpansion_schedule key H). Qed.

Lemma padded_key_length key : length (padded_key key) = 32.
Proof.
  unfold padded_key. rewrite app_length, firstn_length, skipn_length.
  change (length default_key) with 32. lia.
Qed.
