(** Reading damaged files; CBC and CTR. *)
From Coq Require Import Init.Byte NArith ZArith List Bool Arith Lia.
From Verif Require Import AesModel AesSpec AesProofs AesProofs2 AesStreamModel AesStreamSpec AesStreamProofs.
Import ListNotations.

Section Safe.
Variable rk : list byte.
Notation dec := (AES_ECB_decrypt rk).
Local Open Scope Z_scope.

Definition pad_ok (b : list byte) : Prop := Z.of_N (byte_N (at_ b 15)) <= 16.

Record safe (r : reader) : Prop := mkSafe {
  s_off : 0 <= offset r <= datalen r;
  s_len : datalen r <= 16;
  s_master : length (master r) = 16%nat;
  s_second : forall b, second r = Some b -> length b = 16%nat /\ (rest r = [] -> pad_ok b);
  s_rest : forall a b, rest r = a ++ b -> length b = 16%nat -> (length a mod 16 = 0)%nat -> pad_ok (dec b)
}.

Lemma fetch_cases r : exists f r1, fetch r = (f, r1) /\
  master r1 = master r /\ datalen r1 = datalen r /\ offset r1 = offset r /\ second r1 = second r /\
  match f with
  | Block c => rest r = c ++ rest r1 /\ length c = 16%nat
  | _ => rest r1 = [] /\ eof r1 = true
  end /\ (f = Nothing -> rest r = []).
Proof.
  unfold fetch. set (got := firstn 16 (rest r)). eexists _, _. split; [reflexivity|]. cbn [master datalen offset second rest eof].
  split; [reflexivity|]. split; [reflexivity|]. split; [reflexivity|]. split; [reflexivity|].
  assert (HL : length got = Nat.min 16 (length (rest r))) by apply firstn_length.
  destruct (Nat.eqb_spec (length got) 16) as [H|H].
  - split; [|discriminate]. split; [symmetry; apply firstn_skipn|exact H].
  - assert (Hs : (length (rest r) < 16)%nat) by lia.
    assert (E : skipn 16 (rest r) = [] /\ (eof r || (length (rest r) <? 16)%nat = true)).
    { split; [apply skipn_all2; lia|]. apply orb_true_iff. right. apply Nat.ltb_lt, Hs. }
    destruct got as [|x g] eqn:Eg; (split; [exact E|]); [|discriminate].
    intros _. destruct (rest r); [reflexivity|discriminate Eg].
Qed.

Lemma rest_drop r c r1 (P : list byte -> Prop) : rest r = c ++ rest r1 -> length c = 16%nat ->
  (forall a b, rest r = a ++ b -> length b = 16%nat -> (length a mod 16 = 0)%nat -> P b) ->
  (forall a b, rest r1 = a ++ b -> length b = 16%nat -> (length a mod 16 = 0)%nat -> P b) /\
  (rest r1 = [] -> P c).
Proof.
  intros E Hc H. split.
  - intros a b Ea Hb Ha. apply (H (c ++ a) b); [rewrite E, Ea, app_assoc; reflexivity|exact Hb|].
    rewrite app_length, Hc. replace (16 + length a)%nat with (length a + 1 * 16)%nat by lia.
    rewrite Nat.mod_add by lia. exact Ha.
  - intros En. rewrite En, app_nil_r in E. apply (H [] c); [exact E|exact Hc|reflexivity].
Qed.

Lemma byte_bound b : (byte_N b < 256)%N.
Proof. unfold byte_N. pose proof (Strings.Byte.to_N_bounded b). lia. Qed.

Lemma read_loop_safe fuel : forall r acc size, safe r -> datalen r = offset r -> Z.of_nat (length acc) <= size <= 2147483647 ->
  fst (read_loop fuel rk r acc size) <> Undef /\ safe (snd (read_loop fuel rk r acc size)).
Proof.
  induction fuel as [|k IH]; intros r acc size S Hd Hs; [split; [discriminate|exact S]|].
  cbn [read_loop]. destruct (Z.leb_spec size (Z.of_nat (length acc))) as [Hle|Hlt]; [split; [discriminate|exact S]|].
  set (first := match second r with Some _ => _ | None => _ end).
  assert (G : exists f r1, first = (f, r1) /\ master r1 = master r /\ datalen r1 = datalen r /\ offset r1 = offset r /\
     match f with
     | Block b => length b = 16%nat /\ (rest r1 = [] -> pad_ok b) /\
         (forall a b, rest r1 = a ++ b -> length b = 16%nat -> (length a mod 16 = 0)%nat -> pad_ok (dec b))
     | _ => rest r1 = [] /\ second r1 = None
     end).
  { destruct S as [S1 S2 S3 S4 S5]. unfold first. destruct (second r) as [b|] eqn:E2.
    - exists (Block b), r. destruct (S4 b eq_refl). auto 10.
    - destruct (fetch_cases r) as (f & r1 & -> & M & D & O & E3 & C & _). destruct f as [c| |].
      + exists (Block (dec c)), r1. do 4 (split; [auto; congruence|]). destruct C as [C1 C2].
        destruct (rest_drop r c r1 (fun b => pad_ok (dec b)) C1 C2 S5) as [H1 H2].
        split; [apply dec_length|]. auto.
      + exists Short, r1. destruct C. repeat split; congruence.
      + exists Nothing, r1. destruct C. repeat split; congruence. }
  clearbody first. destruct G as (f & r1 & -> & M1 & D1 & O1 & C).
  destruct S as [S1 S2 S3 S4 S5].
  destruct f as [b| |].
  2-3: destruct C as [C1 C2]; cbn [fst snd]; split; [discriminate|];
       split; try lia; [congruence|rewrite C2; discriminate|];
       intros a b Ea Hb _; rewrite C1 in Ea; symmetry in Ea; apply app_eq_nil in Ea;
       destruct Ea as [_ ->]; discriminate Hb.
  destruct C as (Hb & Hp & Hr).
  set (r2 := mkReader (rest r1) (eof r1) b 16 0 None).
  destruct (fetch_cases r2) as (f & r3 & -> & M & D & O & E3 & C & Cn).
  assert (Hend : rest r3 = [] -> forall a b0, rest r3 = a ++ b0 -> length b0 = 16%nat ->
            (length a mod 16 = 0)%nat -> pad_ok (dec b0)).
  { intros En a b0 Ea Hb0 _. rewrite En in Ea. symmetry in Ea. apply app_eq_nil in Ea.
    destruct Ea as [_ ->]. discriminate Hb0. }
  destruct f as [c| |].
  - destruct C as [C1 C2]. destruct (rest_drop r2 c r3 (fun b => pad_ok (dec b)) C1 C2 Hr) as [H1 H2].
    set (r4 := with_second r3 (Some (dec c))).
    assert (M4 : master r4 = b) by (unfold r4; cbn [with_second master]; exact M).
    rewrite to_size_small by lia.
    assert (Hsec : forall b0, Some (dec c) = Some b0 -> length b0 = 16%nat /\ (rest r3 = [] -> pad_ok b0)).
    { intros b0 [= <-]. split; [apply dec_length|exact H2]. }
    destruct (Z.leb_spec size (Z.of_nat (length acc) + 16)) as [Hz|Hz].
    + rewrite copy_front by lia. cbn [fst snd]. split; [discriminate|].
      split; cbn [offset datalen master second rest]; try lia; [rewrite M4; exact Hb|exact Hsec|exact H1].
    + rewrite copy_front by lia. apply IH; [|reflexivity|].
      * split; cbn [offset datalen master second rest]; try lia; [rewrite M4; exact Hb|exact Hsec|exact H1].
      * rewrite M4, app_length, firstn_length, Hb. lia.
  - destruct C as [C1 C2]. cbn [fst snd]. split; [discriminate|]. split.
    + rewrite O, D. unfold r2. cbn [offset datalen]. lia.
    + rewrite D. unfold r2. cbn [offset datalen]. lia.
    + rewrite M. exact Hb.
    + rewrite E3. discriminate.
    + apply Hend, C1.
  - destruct C as [C1 C2]. set (r4 := with_second r3 None).
    assert (M4 : master r4 = b) by (unfold r4; cbn [with_second master]; exact M). rewrite M4.
    assert (Hpad : pad_ok b) by (apply Hp, (Cn eq_refl)). unfold pad_ok in Hpad.
    rewrite to_size_small by lia.
    destruct (Z.leb_spec size (Z.of_nat (length acc) + (16 - Z.of_N (byte_N (at_ b 15))))) as [Hz|Hz].
    + rewrite copy_front by lia. cbn [fst snd]. split; [discriminate|].
      split; cbn [offset datalen master second rest r4 with_second]; try lia; try (rewrite ?M4, ?M; exact Hb); try discriminate.
      apply Hend, C1.
    + rewrite copy_front by lia. cbn [fst snd]. split; [discriminate|].
      split; cbn [offset datalen master second rest r4 with_second]; try lia; try (rewrite ?M4, ?M; exact Hb); try discriminate.
      apply Hend, C1.
Qed.

Lemma read_safe r size : safe r -> int_size size ->
  fst (read rk r size) <> Undef /\ safe (snd (read rk r size)).
Proof.
  intros S [Hs1 Hs2]. pose proof S as [S1 S2 S3 S4 S5]. unfold read. rewrite to_size_small by lia.
  destruct (Z.leb_spec size (datalen r - offset r)) as [H|H].
  - unfold copy_master. destruct (Z.ltb_spec (offset r) 0); [lia|].
    destruct (Z.ltb_spec 16 (offset r + size)); [lia|]. cbn [orb fst snd]. split; [discriminate|].
    split; cbn [offset datalen master second rest]; try lia; [exact S4|exact S5].
  - set (p := if 0 <? datalen r - offset r then _ else _).
    assert (Hp : exists acc r1, p = (acc, r1) /\ safe r1 /\ datalen r1 = offset r1 /\ Z.of_nat (length acc) <= size).
    { unfold p. destruct (Z.ltb_spec 0 (datalen r - offset r)).
      - eexists _, _. split; [reflexivity|]. split; [|split; [reflexivity|rewrite firstn_length; lia]].
        split; cbn [offset datalen master second rest]; try lia; [exact S4|exact S5].
      - exists [], r. split; [reflexivity|]. split; [exact S|]. split; [lia|simpl; lia]. }
    clearbody p. destruct Hp as (acc & r1 & -> & Sr & Hd & Ha). cbv beta iota.
    destruct (eof r1).
    + destruct acc; cbn [fst snd]; split; try discriminate; exact Sr.
    + apply read_loop_safe; [exact Sr|exact Hd|lia].
Qed.

Lemma reads_safe sizes : forall r, safe r -> Forall int_size sizes -> ~ In Undef (reads rk r sizes).
Proof.
  induction sizes as [|n ns IH]; intros r S F Hin; [exact Hin|]. cbn [reads] in Hin.
  destruct (read_safe r n S (Forall_inv F)) as [H1 H2]. destruct (read rk r n) as [a r']. cbn [fst snd] in *.
  destruct a; [| |congruence]; (destruct Hin as [Hin|Hin]; [discriminate|]);
    apply (IH r' H2 (Forall_inv_tail F) Hin).
Qed.

Lemma new_reader_safe file :
  (forall a b, file = a ++ b -> length b = 16%nat -> (length a mod 16 = 0)%nat -> pad_ok (dec b)) ->
  safe (new_reader file).
Proof. intros H. split; cbn [new_reader offset datalen master second rest]; try lia; try reflexivity; try discriminate. exact H. Qed.
End Safe.

(** *** CBC *)
Lemma xor_iv_length b iv : length (XorWithIv b iv) = 16.
Proof. reflexivity. Qed.

Lemma xor_iv_twice b iv : length b = 16 -> XorWithIv (XorWithIv b iv) iv = b.
Proof.
  intros H. open16 H. unfold XorWithIv. cbn [seq map].
  repeat match goal with |- context [at_ iv ?n] => generalize (at_ iv n); intro end.
  unfold at_. cbn [nth]. rewrite !xor_add, !add_cancel. reflexivity.
Qed.

Lemma nonempty_app (a b : list byte) : 0 < length a -> exists x l, a ++ b = x :: l.
Proof. destruct a as [|x a]; simpl; [lia|]. intros _. exists x, (a ++ b). reflexivity. Qed.

Lemma cbc_round_trip rk n : forall fuel fuel' iv buf, length buf = 16 * n -> n <= fuel -> n <= fuel' ->
  exists c iv', cbc_encrypt fuel rk iv buf = Some (c, iv') /\ length c = 16 * n /\
    cbc_decrypt fuel' rk iv c = Some (buf, iv').
Proof.
  induction n as [|n IH]; intros fuel fuel' iv buf HL Hf Hf'.
  - destruct buf; [|discriminate HL]. exists [], iv. destruct fuel, fuel'; repeat split.
  - destruct fuel as [|fuel]; [lia|]. destruct fuel' as [|fuel']; [lia|].
    set (blk := Cipher rk (XorWithIv (firstn 16 buf) iv)).
    assert (Hb : length blk = 16) by apply Cipher_length.
    destruct (IH fuel fuel' blk (skipn 16 buf)) as (c & iv' & E & Lc & D); [rewrite skipn_length; lia|lia|lia|].
    exists (blk ++ c), iv'. split; [|split].
    + cbn [cbc_encrypt]. destruct buf as [|x buf]; [discriminate HL|].
      destruct (Nat.ltb_spec (length (x :: buf)) 16); [lia|]. fold blk. rewrite E. reflexivity.
    + rewrite app_length. lia.
    + assert (E16 : firstn 16 (blk ++ c) = blk).
      { rewrite firstn_app, Hb, Nat.sub_diag, firstn_O, app_nil_r. apply firstn_all2. lia. }
      assert (S16 : skipn 16 (blk ++ c) = c).
      { rewrite skipn_app, Hb, Nat.sub_diag, skipn_O, skipn_all2 by lia. reflexivity. }
      assert (N : exists x l, blk ++ c = x :: l) by (apply nonempty_app; lia).
      assert (L : length (blk ++ c) = 16 + length c) by (rewrite app_length; lia).
      cbn [cbc_decrypt]. destruct N as (x & l & N). rewrite N in *. 
      destruct (Nat.ltb_spec (length (x :: l)) 16); [lia|]. rewrite E16, S16, D.
      unfold blk. rewrite decrypt_encrypt by apply xor_iv_length.
      rewrite xor_iv_twice by (rewrite firstn_length; lia). now rewrite firstn_skipn.
Qed.

Lemma cbc_encrypt_app rk n : forall fuel1 fuel2 fuel3 iv a b c iv1, length a = 16 * n ->
  cbc_encrypt fuel1 rk iv a = Some (c, iv1) -> n <= fuel1 -> length b <= fuel2 -> length a + length b <= fuel3 ->
  cbc_encrypt fuel3 rk iv (a ++ b) =
    match cbc_encrypt fuel2 rk iv1 b with Some (d, iv2) => Some (c ++ d, iv2) | None => None end.
Proof.
  induction n as [|n IH]; intros fuel1 fuel2 fuel3 iv a b c iv1 HL E H1 H2 H3.
  - destruct a; [|discriminate HL]. assert (c = [] /\ iv1 = iv) by (destruct fuel1; injection E; auto).
    destruct H as [-> ->]. cbn [app].
    assert (G : forall k1 k2 iv b, length b <= k1 -> length b <= k2 -> cbc_encrypt k1 rk iv b = cbc_encrypt k2 rk iv b).
    { clear. induction k1 as [|k1 IH]; intros k2 iv b H1 H2.
      - destruct b; [destruct k2; reflexivity|simpl in H1; lia].
      - destruct b as [|x b]; [destruct k2; reflexivity|]. destruct k2 as [|k2]; [simpl in H2; lia|].
        cbn [cbc_encrypt]. destruct (length (x :: b) <? 16); [reflexivity|].
        rewrite (IH k2); [reflexivity| |]; rewrite skipn_length; simpl in *; lia. }
    cbn [length] in H3. rewrite (G fuel3 fuel2) by lia.
    destruct (cbc_encrypt fuel2 rk iv b) as [[? ?]|]; reflexivity.
  - destruct fuel1 as [|fuel1]; [lia|]. destruct fuel3 as [|fuel3]; [lia|].
    destruct a as [|x a]; [discriminate HL|]. cbn [cbc_encrypt] in E. cbn [cbc_encrypt app].
    change (x :: a ++ b) with ((x :: a) ++ b).
    destruct (Nat.ltb_spec (length (x :: a)) 16); [lia|].
    destruct (Nat.ltb_spec (length ((x :: a) ++ b)) 16) as [Hl|Hl]; [rewrite app_length in Hl; lia|].
    assert (E16 : firstn 16 ((x :: a) ++ b) = firstn 16 (x :: a)).
    { rewrite firstn_app. replace (16 - length (x :: a)) with 0 by lia. now rewrite firstn_O, app_nil_r. }
    assert (S16 : skipn 16 ((x :: a) ++ b) = skipn 16 (x :: a) ++ b).
    { rewrite skipn_app. replace (16 - length (x :: a)) with 0 by lia. reflexivity. }
    rewrite E16, S16. set (blk := Cipher _ _) in *. clearbody blk.
    destruct (cbc_encrypt fuel1 rk blk (skipn 16 (x :: a))) as [[c' iv']|] eqn:Ec; [|discriminate].
    injection E as <- <-.
    rewrite (IH fuel1 fuel2 fuel3 blk (skipn 16 (x :: a)) b c' iv'); try lia; try exact Ec.
    + destruct (cbc_encrypt fuel2 rk iv' b) as [[d iv2]|]; [|reflexivity]. now rewrite app_assoc.
    + rewrite skipn_length. lia.
    + rewrite skipn_length. lia.
Qed.

(** *** CTR *)
Lemma ctr_involution rk buf : forall iv ks, 
  fst (ctr_loop rk iv ks (fst (ctr_loop rk iv ks buf))) = buf /\
  snd (ctr_loop rk iv ks (fst (ctr_loop rk iv ks buf))) = snd (ctr_loop rk iv ks buf).
Proof.
  induction buf as [|b t IH]; intros iv ks; [split; reflexivity|].
  cbn [ctr_loop].
  set (p := match ks with [] => (Cipher rk iv, increment iv) | _ :: _ => (ks, iv) end).
  destruct p as [ks1 iv1] eqn:Ep.
  destruct (IH iv1 (tl ks1)) as [I1 I2].
  destruct (ctr_loop rk iv1 (tl ks1) t) as [r iv'] eqn:E. cbn [fst snd] in *. cbn [ctr_loop]. fold p. rewrite Ep.
  destruct (ctr_loop rk iv1 (tl ks1) r) as [r2 iv2]. cbn [fst snd] in *. subst r2 iv2.
  rewrite !xor_add, add_cancel. auto.
Qed.

(** *** The file *)
Lemma blocks_concat bs : forall fuel, Forall (fun b => length b = 16) bs -> length bs <= fuel ->
  blocks fuel (concat bs) = bs.
Proof.
  induction bs as [|b bs IH]; intros fuel F H; [destruct fuel; reflexivity|].
  destruct fuel as [|fuel]; [simpl in H; lia|]. cbn [concat].
  pose proof (Forall_inv F) as Hb. cbv beta in Hb.
  destruct (nonempty_app b (concat bs)) as (x & l & E); [lia|].
  cbn [blocks]. rewrite E. rewrite <- E.
  rewrite firstn_app, Hb, Nat.sub_diag, firstn_O, app_nil_r, firstn_all2 by lia.
  rewrite skipn_app, Hb, Nat.sub_diag, skipn_O, skipn_all2 by lia. cbn [app].
  rewrite IH; [reflexivity|exact (Forall_inv_tail F)|simpl in H; lia].
Qed.

Lemma file_is rk ps : close rk (fold_left (write rk) ps new_writer) =
  concat (map (AES_ECB_encrypt rk) (blocks (S (length (concat ps))) (pkcs7 (concat ps)))).
Proof.
  pose proof (writes_wrote rk ps _ _ (new_wrote rk)) as W. cbn [app] in W.
  destruct (close_spec rk _ _ W) as (bs & F & C & ->). 
  assert (E : pkcs7 (concat ps) = concat bs).
  { rewrite C. unfold pkcs7, pad, npad, u8. rewrite N.mod_small by lia. reflexivity. }
  rewrite E, blocks_concat; [reflexivity|exact F|].
  pose proof (concat_length bs F) as L. rewrite C in L. unfold pad, npad in L.
  rewrite app_length, repeat_length in L.
  pose proof (Nat.mod_upper_bound (length (concat ps)) 16). lia.
Qed.
