(** CTR uses successive values of a 128-bit counter; CBC chains the blocks. *)
From Coq Require Import Init.Byte NArith ZArith List Bool Arith Lia.
From Verif Require Import AesModel AesSpec AesProofs AesProofs2 AesStreamProofs2.
Import ListNotations.

(** *** numbers *)
Fixpoint little (l : list byte) : N :=
  match l with [] => 0%N | b :: t => (to_num b + 256 * little t)%N end.

Lemma fold_be l : forall a, fold_left (fun a b => 256 * a + to_num b)%N l a =
  (a * 256 ^ N.of_nat (length l) + big_endian l)%N.
Proof.
  unfold big_endian. induction l as [|b t IH]; intros a; cbn [fold_left length].
  - rewrite N.pow_0_r. lia.
  - rewrite IH, (IH (256 * 0 + to_num b)%N). rewrite Nat2N.inj_succ, N.pow_succ_r'. lia.
Qed.

Lemma be_app a b : big_endian (a ++ b) = (big_endian a * 256 ^ N.of_nat (length b) + big_endian b)%N.
Proof. unfold big_endian at 1. rewrite fold_left_app. apply fold_be. Qed.

Lemma be_rev l : big_endian (rev l) = little l.
Proof.
  induction l as [|b t IH]; [reflexivity|]. cbn [rev little]. rewrite be_app, IH. cbn [length].
  change (big_endian [b]) with (256 * 0 + to_num b)%N. change (N.of_nat 1) with 1%N. rewrite N.pow_1_r. lia.
Qed.

Lemma num_bound b : (to_num b < 256)%N.
Proof. apply byte_bound. Qed.

Lemma of_num_of b : Strings.Byte.of_N (to_num b) = Some b.
Proof. destruct b; reflexivity. Qed.

Lemma num_inj a b : to_num a = to_num b -> a = b.
Proof. intros E. pose proof (of_num_of a). pose proof (of_num_of b). congruence. Qed.

Lemma u8_num n : (n < 256)%N -> to_num (u8 n) = n.
Proof.
  intros H. unfold u8. rewrite N.mod_small by exact H.
  destruct (Strings.Byte.of_N n) as [b|] eqn:E.
  - now apply Strings.Byte.to_of_N in E.
  - apply Strings.Byte.of_N_None_iff in E. lia.
Qed.

Lemma little_bound l : (little l < 256 ^ N.of_nat (length l))%N.
Proof.
  induction l as [|b t IH]; cbn [little length]; [reflexivity|].
  rewrite Nat2N.inj_succ, N.pow_succ_r'. pose proof (num_bound b). lia.
Qed.

Lemma little_inj : forall a b, length a = length b -> little a = little b -> a = b.
Proof.
  induction a as [|x a IH]; intros [|y b] L E; try discriminate; [reflexivity|].
  cbn [little] in E. cbn [length] in L.
  pose proof (num_bound x). pose proof (num_bound y).
  assert (to_num x = to_num y) by lia. assert (little a = little b) by lia.
  f_equal; [now apply num_inj|]. apply IH; [lia|assumption].
Qed.

Lemma be_inj a b : length a = length b -> big_endian a = big_endian b -> a = b.
Proof.
  intros L E. rewrite <- (rev_involutive a), <- (rev_involutive b) in E. rewrite !be_rev in E.
  apply little_inj in E; [|now rewrite !rev_length].
  rewrite <- (rev_involutive a), <- (rev_involutive b). now f_equal.
Qed.

(** *** the counter *)
Lemma inc_rev_length l : length (inc_rev l) = length l.
Proof. induction l as [|b t IH]; [reflexivity|]. cbn [inc_rev]. destruct (byte_N b =? 255)%N; cbn [length]; congruence. Qed.

Lemma increment_length iv : length (increment iv) = length iv.
Proof. unfold increment. now rewrite rev_length, inc_rev_length, rev_length. Qed.

Lemma inc_rev_value l : little (inc_rev l) = ((little l + 1) mod 256 ^ N.of_nat (length l))%N.
Proof.
  induction l as [|b t IH]; [reflexivity|].
  cbn [inc_rev little length]. rewrite Nat2N.inj_succ, N.pow_succ_r'.
  pose proof (num_bound b) as Hb. pose proof (little_bound t) as Ht.
  set (M := (256 ^ N.of_nat (length t))%N) in *.
  change (byte_N b) with (to_num b).
  destruct (N.eqb_spec (to_num b) 255) as [E|E].
  - cbn [little]. rewrite IH, E. change (to_num x00) with 0%N.
    replace (255 + 256 * little t + 1)%N with (256 * (little t + 1))%N by lia.
    rewrite N.mul_mod_distr_l by lia. lia.
  - cbn [little]. rewrite u8_num by lia. rewrite N.mod_small by lia. lia.
Qed.

Lemma increment_value iv : big_endian (increment iv) = ((big_endian iv + 1) mod 256 ^ N.of_nat (length iv))%N.
Proof.
  unfold increment. rewrite be_rev, inc_rev_value, rev_length. now rewrite <- be_rev, rev_involutive.
Qed.

Fixpoint nth_counter (k : nat) (iv : list byte) : list byte :=
  match k with O => iv | S m => nth_counter m (increment iv) end.

Lemma nth_counter_length k : forall iv, length (nth_counter k iv) = length iv.
Proof. induction k as [|k IH]; intros iv; [reflexivity|]. cbn. now rewrite IH, increment_length. Qed.

Lemma nth_counter_value k : forall iv,
  big_endian (nth_counter k iv) = ((big_endian iv + N.of_nat k) mod 256 ^ N.of_nat (length iv))%N.
Proof.
  induction k as [|k IH]; intros iv; cbn [nth_counter].
  - rewrite N.add_0_r, N.mod_small; [reflexivity|].
    pose proof (little_bound (rev iv)) as B. rewrite rev_length, <- be_rev, rev_involutive in B. exact B.
  - rewrite IH, increment_length, increment_value.
    rewrite N.add_mod_idemp_l by (apply N.pow_nonzero; discriminate). f_equal. lia.
Qed.

(** *** CTR, for any block function *)
Section Ctr.
  Variable E : list byte -> list byte.
  Hypothesis Elen : forall l, length (E l) = 16.

Fixpoint ctr_gen (iv ks buf : list byte) : list byte * list byte :=
  match buf with
  | [] => ([], iv)
  | b :: t =>
      let (ks, iv) := match ks with [] => (E iv, increment iv) | _ => (ks, iv) end in
      let (r, iv') := ctr_gen iv (tl ks) t in
      (xor b (at_ ks 0) :: r, iv')
  end.

Lemma ctr_gen_cons iv ks b t :
  ctr_gen iv ks (b :: t) =
  (let ks1 := match ks with [] => E iv | _ => ks end in
   let iv1 := match ks with [] => increment iv | _ => iv end in
   (xor b (at_ ks1 0) :: fst (ctr_gen iv1 (tl ks1) t), snd (ctr_gen iv1 (tl ks1) t))).
Proof.
  cbn [ctr_gen]. destruct ks as [|k ks].
  - destruct (ctr_gen (increment iv) (tl (E iv)) t); reflexivity.
  - cbv zeta. destruct (ctr_gen iv (tl (k :: ks)) t); reflexivity.
Qed.

Definition stream_at (iv ks : list byte) (i : nat) : byte :=
  if i <? length ks then at_ ks i
  else at_ (E (nth_counter ((i - length ks) / 16) iv)) ((i - length ks) mod 16).

Lemma tl_length (l : list byte) : length (tl l) = length l - 1.
Proof. destruct l; cbn; lia. Qed.
Lemma at_tl (l : list byte) i : at_ (tl l) i = at_ l (S i).
Proof. unfold at_. destruct l; cbn; [now destruct i|reflexivity]. Qed.

Lemma ctr_gen_spec buf : forall iv ks,
  length (fst (ctr_gen iv ks buf)) = length buf /\
  (forall i, i < length buf -> at_ (fst (ctr_gen iv ks buf)) i = xor (at_ buf i) (stream_at iv ks i)) /\
  snd (ctr_gen iv ks buf) = nth_counter ((length buf - length ks + 15) / 16) iv.
Proof.
  induction buf as [|b t IH]; intros iv ks.
  - cbn [ctr_loop fst snd length]. split; [reflexivity|]. split; [intros i Hi; lia|]. reflexivity.
  - rewrite ctr_gen_cons. cbv zeta.
    remember (match ks with [] => E iv | _ => ks end) as ks1 eqn:K.
    remember (match ks with [] => increment iv | _ => iv end) as iv1 eqn:V.
    cbn [fst snd length].
    destruct (IH iv1 (tl ks1)) as (L & H & Sn). split; [now rewrite L|]. split.
    + intros [|i] Hi.
      * unfold at_ at 1 2. cbn [nth]. f_equal. unfold stream_at.
        destruct ks as [|k ks]; subst ks1; [|reflexivity].
        cbn [length]. change (0 <? 0) with false. cbv iota. change (0 - 0) with 0.
        rewrite Nat.mod_small, Nat.div_small by lia. cbn [nth_counter].
        generalize (E iv). intros l. reflexivity.
      * unfold at_ at 1 2. cbn [nth]. fold (at_ (fst (ctr_gen iv1 (tl ks1) t)) i). fold (at_ t i).
        rewrite H by lia. f_equal. unfold stream_at. rewrite tl_length.
        destruct ks as [|k ks]; subst ks1 iv1.
        -- rewrite Elen. cbn [length]. change (S i <? 0) with false. cbv iota.
           rewrite Nat.sub_0_r.
           destruct (Nat.ltb_spec i (16 - 1)) as [Q|Q].
           ++ rewrite at_tl. rewrite Nat.div_small, Nat.mod_small by lia. cbn [nth_counter]. generalize (E iv). intros l. reflexivity.
           ++ replace (S i) with ((i - (16 - 1)) + 1 * 16) by lia.
              rewrite Nat.div_add, Nat.mod_add by lia. rewrite Nat.add_1_r. cbn [nth_counter].
              match goal with |- at_ (E ?x) _ = at_ (E ?y) _ => constr_eq x y end.
              match goal with |- at_ ?x _ = _ => generalize x end. intros l. reflexivity.
        -- cbn [tl length]. rewrite !Nat.sub_succ, Nat.sub_0_r.
           change (S i <? S (length ks)) with (i <? length ks). destruct (i <? length ks); [reflexivity|].
           match goal with |- at_ ?x _ = _ => generalize x end. intros l. reflexivity.
    + rewrite Sn, tl_length. destruct ks as [|k ks]; subst ks1 iv1.
      * rewrite Elen. cbn [length]. rewrite Nat.sub_0_r.
        destruct (Nat.le_gt_cases (length t) 15) as [Q|Q].
        -- replace (length t - (16 - 1)) with 0 by lia. change ((0 + 15) / 16) with 0.
           replace (S (length t) + 15) with (length t + 1 * 16) by lia.
           rewrite Nat.div_add by lia. rewrite Nat.add_1_r. cbn [nth_counter].
           assert (Z : length t / 16 = 0) by (apply Nat.div_small; lia). rewrite Z. reflexivity.
        -- replace (S (length t) + 15) with ((length t - (16 - 1) + 15) + 1 * 16) by lia.
           rewrite Nat.div_add by lia. rewrite Nat.add_1_r. reflexivity.
      * cbn [length]. rewrite Nat.sub_succ, Nat.sub_0_r. reflexivity.
Qed.
End Ctr.

Lemma ctr_loop_gen rk buf : forall iv ks, ctr_loop rk iv ks buf = ctr_gen (Cipher rk) iv ks buf.
Proof.
  generalize (Cipher_length rk) as CL. 
  induction buf as [|b t IH]; intros CL iv ks; [reflexivity|].
  cbn [ctr_loop ctr_gen]. destruct ks as [|k ks].
  - rewrite (IH CL). reflexivity.
  - rewrite (IH CL). reflexivity.
Qed.

(** *** CBC *)
Lemma xor_iv_add a b : length a = 16 -> length b = 16 -> XorWithIv a b = add_blocks a b.
Proof.
  intros Ha Hb. unfold XorWithIv, add_blocks.
  apply (nth_ext _ _ x00 x00).
  - rewrite !map_length, seq_length, combine_length. lia.
  - rewrite map_length, seq_length. intros n Hn.
    rewrite (nth_indep _ x00 (xor (at_ a 0) (at_ b 0))) by (rewrite map_length, seq_length; lia).
    rewrite (map_nth (fun i => xor (at_ a i) (at_ b i)) (seq 0 16) 0 n), seq_nth by lia.
    rewrite (nth_indep (map _ (combine a b)) x00 (add (fst (x00, x00)) (snd (x00, x00))))
      by (rewrite map_length, combine_length; lia).
    rewrite (map_nth (fun p => add (fst p) (snd p)) (combine a b) (x00, x00) n).
    rewrite combine_nth by lia. cbn [fst snd Nat.add]. apply xor_add.
Qed.

Lemma cbc_chain rk n : forall fuel iv buf c iv', length buf = 16 * n -> length iv = 16 ->
  cbc_encrypt fuel rk iv buf = Some (c, iv') ->
  length c = 16 * n /\ length iv' = 16 /\
  iv' = (match n with O => iv | S m => block_of m c end) /\
  forall k, k < n -> block_of k c =
    Cipher rk (add_blocks (block_of k buf) (match k with O => iv | S m => block_of m c end)).
Proof.
  induction n as [|n IH]; intros fuel iv buf c iv' L Hi E.
  - destruct buf; [|cbn in L; lia]. destruct fuel; cbn [cbc_encrypt] in E; injection E as <- <-.
    all: split; [reflexivity|]; split; [exact Hi|]; split; [reflexivity|]; intros k Hk; lia.
  - destruct fuel as [|fuel]; [destruct buf; [cbn in L; lia|discriminate]|].
    destruct buf as [|b0 buf0]; [cbn in L; lia|]. remember (b0 :: buf0) as buf eqn:B.
    assert (E' : (if length buf <? 16 then None
      else let blk := Cipher rk (XorWithIv (firstn 16 buf) iv) in
           match cbc_encrypt fuel rk blk (skipn 16 buf) with
           | Some (r, iv') => Some (blk ++ r, iv')
           | None => None
           end) = Some (c, iv')) by (rewrite B in *; exact E).
    clear E B b0 buf0. destruct (Nat.ltb_spec (length buf) 16) as [Q|Q]; [lia|].
    cbv zeta in E'. remember (Cipher rk (XorWithIv (firstn 16 buf) iv)) as blk eqn:K.
    assert (Hb : length blk = 16) by (rewrite K; apply Cipher_length).
    destruct (cbc_encrypt fuel rk blk (skipn 16 buf)) as [[r iv1]|] eqn:R; [|discriminate].
    injection E' as <- <-.
    apply IH in R; [|rewrite skipn_length; lia|exact Hb].
    destruct R as (Lr & Li & Ei & Hr).
    assert (B0 : block_of 0 (blk ++ r) = blk).
    { unfold block_of. change (skipn (16 * 0) (blk ++ r)) with (blk ++ r). rewrite firstn_app, Hb. rewrite firstn_all2 by lia.
      cbn. apply app_nil_r. }
    assert (BS : forall k, block_of (S k) (blk ++ r) = block_of k r).
    { intros k. unfold block_of. f_equal. rewrite skipn_app, Hb.
      rewrite (skipn_all2 blk) by lia. cbn [app]. f_equal. lia. }
    split; [rewrite app_length; lia|]. split; [exact Li|]. split.
    + rewrite Ei. destruct n; [now rewrite B0|now rewrite BS].
    + intros [|k] Hk.
      * rewrite B0, K. f_equal. unfold block_of. change (skipn (16 * 0) buf) with buf.
        apply xor_iv_add; [rewrite firstn_length; lia|exact Hi].
      * rewrite BS, (Hr k) by lia. f_equal. f_equal.
        -- unfold block_of. f_equal.
           replace (16 * S k) with (16 + 16 * k) by lia. generalize (16 * k). intros q.
           clear. revert q. do 16 (destruct buf as [|?b buf]; [intros q; rewrite ?skipn_nil; reflexivity|]). reflexivity.
        -- destruct k; [now rewrite B0|now rewrite BS].
Qed.
