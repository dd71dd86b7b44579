(** Proofs about the encrypted file streams. *)
From Coq Require Import Init.Byte NArith ZArith List Bool Arith Lia.
From Verif Require Import AesModel AesProofs AesProofs2 AesStreamModel AesStreamSpec.
Import ListNotations.

Section Stream.
Variable rk : list byte.
Notation enc := (AES_ECB_encrypt rk).
Notation dec := (AES_ECB_decrypt rk).

Definition block (b : list byte) : Prop := length b = 16.

Lemma enc_length b : length (enc b) = 16.
Proof. apply Cipher_length. Qed.
Lemma dec_length b : length (dec b) = 16.
Proof. apply InvCipher_length. Qed.
Lemma dec_enc_block b : block b -> dec (enc b) = b.
Proof. apply decrypt_encrypt. Qed.

Definition encs (bs : list (list byte)) : list byte := concat (map enc bs).
Definition npad (n : nat) : nat := 16 - n mod 16.
Definition pad (l : list byte) : list byte :=
  l ++ repeat (u8 (N.of_nat (npad (length l)))) (npad (length l)).

(** *** Writing *)
Definition wrote (w : writer) (l : list byte) : Prop :=
  exists bs, Forall block bs /\ out w = encs bs /\ concat bs ++ pending w = l /\ length (pending w) <= 16.

Lemma encs_app a b : encs (a ++ b) = encs a ++ encs b.
Proof. unfold encs. now rewrite map_app, concat_app. Qed.

Lemma write_loop_wrote k : forall w l b, wrote w l -> length b + (if length (pending w) =? 16 then 1 else 0) < k ->
  wrote (write_loop k rk w b) (l ++ b).
Proof.
  induction k as [|k IH]; intros w l b H Hk; [lia|].
  cbn [write_loop]. destruct b as [|x b]; [now rewrite app_nil_r|].
  destruct H as (bs & F & E & C & L).
  destruct (Nat.leb_spec (length (x :: b)) (16 - length (pending w))) as [Hs|Hs].
  - exists bs. split; [exact F|]. split; [exact E|]. cbn [pending out]. split.
    + rewrite app_assoc, C. reflexivity.
    + rewrite app_length. lia.
  - set (n := 16 - length (pending w)) in *. set (bb := x :: b) in *.
    assert (Hn : length (firstn n bb) = n) by (rewrite firstn_length; lia).
    replace (l ++ bb) with ((l ++ firstn n bb) ++ skipn n bb) by (rewrite <- app_assoc, firstn_skipn; reflexivity).
    apply IH.
    + exists (bs ++ [pending w ++ firstn n bb]). cbn [pending out]. split; [|split; [|split]].
      * apply Forall_app. split; [exact F|]. constructor; [|constructor]. unfold block. rewrite app_length, Hn. unfold n. lia.
      * rewrite encs_app, E. unfold encs at 3. cbn [map concat]. now rewrite app_nil_r.
      * rewrite concat_app. cbn [concat]. rewrite !app_nil_r, app_assoc, C. reflexivity.
      * simpl. lia.
    + cbn [pending length Nat.eqb]. rewrite skipn_length. destruct (Nat.eqb_spec (length (pending w)) 16); lia.
Qed.

Lemma write_wrote w l b : wrote w l -> wrote (write rk w b) (l ++ b).
Proof. intros H. apply write_loop_wrote; [exact H|]. destruct (_ =? _); lia. Qed.

Lemma writes_wrote ps : forall w l, wrote w l -> wrote (fold_left (write rk) ps w) (l ++ concat ps).
Proof.
  induction ps as [|p ps IH]; intros w l H; simpl; [now rewrite app_nil_r|].
  rewrite app_assoc. apply IH, write_wrote, H.
Qed.

Lemma new_wrote : wrote new_writer [].
Proof. exists []. repeat split; [constructor|simpl; lia]. Qed.

Lemma skipn_repeat {A} (x : A) n m : skipn n (repeat x m) = repeat x (m - n).
Proof. revert m. induction n as [|n IH]; intros [|m]; simpl; auto. Qed.

Lemma concat_length bs : Forall block bs -> length (concat bs) = 16 * length bs.
Proof.
  induction 1 as [|b bs Hb _ IH]; [reflexivity|]. cbn [concat length]. rewrite app_length, IH, Hb. lia.
Qed.

Lemma close_spec w l : wrote w l -> exists bs, Forall block bs /\ concat bs = pad l /\ close rk w = encs bs.
Proof.
  intros (bs & F & E & C & L). unfold close.
  assert (HL : length l = 16 * length bs + length (pending w)).
  { rewrite <- C, app_length, concat_length by exact F. reflexivity. }
  destruct (Nat.eqb_spec (length (pending w)) 16) as [H16|H16].
  - exists (bs ++ [pending w; repeat (u8 16) 16]). cbn [pending out length]. split; [|split].
    + apply Forall_app. split; [exact F|]. constructor; [exact H16|]. constructor; [reflexivity|constructor].
    + rewrite concat_app. cbn [concat]. rewrite app_nil_r, app_assoc, C. unfold pad. f_equal.
      assert (En : npad (length l) = 16).
      { unfold npad. rewrite HL, H16. replace (16 * length bs + 16) with ((length bs + 1) * 16) by lia.
        now rewrite Nat.mod_mul by lia. }
      now rewrite En.
    + rewrite encs_app, E. unfold encs. cbn [map concat]. rewrite app_nil_r, app_assoc. reflexivity.
  - exists (bs ++ [pending w ++ repeat (u8 (N.of_nat (npad (length l)))) (npad (length l))]).
    assert (En : npad (length l) = 16 - length (pending w)).
    { unfold npad. rewrite HL, Nat.add_comm, (Nat.mul_comm 16), Nat.mod_add by lia. rewrite Nat.mod_small by lia. reflexivity. }
    split; [|split].
    + apply Forall_app. split; [exact F|]. constructor; [|constructor]. unfold block.
      rewrite app_length, repeat_length, En. lia.
    + rewrite concat_app. cbn [concat]. rewrite app_nil_r, app_assoc, C. reflexivity.
    + rewrite encs_app, E, skipn_repeat, <- En. unfold encs. cbn [map concat]. now rewrite app_nil_r.
Qed.

Lemma skipn_skipn' {A} (n m : nat) : forall l : list A, skipn n (skipn m l) = skipn (m + n) l.
Proof. induction m as [|m IH]; intros l; [reflexivity|]. destruct l; [now rewrite !skipn_nil|]. apply IH. Qed.

(** *** Reading *)
Local Open Scope Z_scope.

Definition unread (r : reader) : list byte :=
  firstn (Z.to_nat (datalen r - offset r)) (skipn (Z.to_nat (offset r)) (master r)).

Definition seconds (r : reader) : list (list byte) := match second r with Some b => [b] | None => [] end.

Record inv (r : reader) (rem : list byte) : Prop := mkInv {
  i_off : 0 <= offset r <= datalen r;
  i_len : datalen r <= 16;
  i_master : length (master r) = 16%nat;
  i_state : if eof r then rem = unread r
            else exists bs tail, Forall block (seconds r ++ bs) /\ rest r = encs bs /\
                 concat (seconds r ++ bs) = pad tail /\ rem = unread r ++ tail
}.

Lemma pad_length_block l : exists k, length (pad l) = (16 * S k)%nat.
Proof.
  exists (length l / 16)%nat. unfold pad. rewrite app_length, repeat_length. unfold npad.
  pose proof (Nat.div_mod (length l) 16 ltac:(lia)). pose proof (Nat.mod_upper_bound (length l) 16 ltac:(lia)). lia.
Qed.

Lemma pad_last_block b tail : block b -> b = pad tail ->
  Z.of_nat (length tail) = 16 - Z.of_N (byte_N (at_ b 15)) /\ (length tail < 16)%nat /\
  firstn (length tail) b = tail.
Proof.
  intros Hb E. assert (HL : length (pad tail) = 16%nat) by (rewrite <- E; exact Hb).
  unfold pad in HL. rewrite app_length, repeat_length in HL.
  assert (Hn : (length tail < 16)%nat).
  { unfold npad in HL. pose proof (Nat.mod_upper_bound (length tail) 16 ltac:(lia)). lia. }
  assert (En : npad (length tail) = (16 - length tail)%nat) by lia.
  split; [|split; [exact Hn|]].
  - rewrite E. unfold pad. rewrite En. unfold at_. rewrite app_nth2 by lia.
    set (p := u8 _). rewrite (nth_indep _ x00 p) by (rewrite repeat_length; lia).
    rewrite nth_repeat. unfold p.
    clear - Hn. remember (length tail) as n. clear Heqn.
    do 16 (destruct n as [|n]; [reflexivity|]). lia.
  - rewrite E at 1. unfold pad. rewrite firstn_app, Nat.sub_diag, firstn_O, app_nil_r. apply firstn_all.
Qed.

Lemma pad_cons_block b bs tail : block b -> Forall block bs -> bs <> [] -> concat (b :: bs) = pad tail ->
  exists tail', tail = b ++ tail' /\ concat bs = pad tail'.
Proof.
  intros Hb Hbs Hne E. cbn [concat] in E.
  assert (HL : length (pad tail) = (16 + length (concat bs))%nat) by (rewrite <- E, app_length, Hb; reflexivity).
  assert (Hc : (16 <= length (concat bs))%nat).
  { rewrite concat_length by exact Hbs. destruct bs; [congruence|]. simpl. lia. }
  unfold pad in HL. rewrite app_length, repeat_length in HL.
  assert (Hge : (16 <= length tail)%nat).
  { unfold npad in HL. pose proof (Nat.mod_upper_bound (length tail) 16 ltac:(lia)). lia. }
  exists (skipn 16 tail).
  assert (Eb : b = firstn 16 tail).
  { apply (f_equal (firstn 16)) in E. rewrite firstn_app, Hb, Nat.sub_diag, firstn_O, app_nil_r in E.
    rewrite firstn_all2 in E by (rewrite Hb; lia). rewrite E. unfold pad. rewrite firstn_app.
    replace (16 - length tail)%nat with 0%nat by lia. now rewrite firstn_O, app_nil_r. }
  split; [rewrite Eb; symmetry; apply firstn_skipn|].
  apply (f_equal (skipn 16)) in E. rewrite skipn_app, Hb, Nat.sub_diag, skipn_O in E.
  rewrite skipn_all2 in E by (rewrite Hb; lia). cbn [app] in E. rewrite E.
  unfold pad. rewrite skipn_app. replace (16 - length tail)%nat with 0%nat by lia. rewrite skipn_O.
  rewrite skipn_length.
  assert (En : npad (length tail) = npad (length tail - 16)).
  { unfold npad. f_equal. replace (length tail) with (length tail - 16 + 1 * 16)%nat at 1 by lia.
    apply Nat.mod_add. lia. }
  now rewrite En.
Qed.

Lemma encs_length bs : length (encs bs) = (16 * length bs)%nat.
Proof.
  unfold encs. rewrite concat_length; [now rewrite map_length|]. apply Forall_forall. intros x Hx.
  apply in_map_iff in Hx. destruct Hx as (y & <- & _). apply enc_length.
Qed.

Lemma fetch_block r c bs : rest r = encs (c :: bs) ->
  fetch r = (Block (enc c), mkReader (encs bs) (eof r) (master r) (datalen r) (offset r) (second r)).
Proof.
  intros E. unfold fetch. rewrite E. unfold encs. cbn [map concat].
  rewrite firstn_app, enc_length, Nat.sub_diag, firstn_O, app_nil_r, firstn_all2 by (rewrite enc_length; lia).
  rewrite skipn_app, enc_length, Nat.sub_diag, skipn_O, skipn_all2 by (rewrite enc_length; lia).
  rewrite app_length, enc_length. cbn [Nat.eqb app].
  destruct (Nat.ltb_spec (16 + length (concat (map enc bs))) 16); [lia|].
  now rewrite orb_false_r.
Qed.

Lemma fetch_end r : rest r = [] ->
  fetch r = (Nothing, mkReader [] true (master r) (datalen r) (offset r) (second r)).
Proof. intros E. unfold fetch. rewrite E. simpl. now rewrite orb_true_r. Qed.

Lemma to_size_small z : 0 <= z < 18446744073709551616 -> to_size z = z.
Proof. apply Z.mod_small. Qed.

Lemma copy_front r n : 0 <= n <= 16 -> copy_master r 0 n = Some (firstn (Z.to_nat n) (master r)).
Proof.
  intros H. unfold copy_master. destruct (Z.ltb_spec 0 0); [lia|]. destruct (Z.ltb_spec 16 (0 + n)); [lia|].
  reflexivity.
Qed.

Lemma unread_zero r : datalen r = offset r -> unread r = [].
Proof. intros E. unfold unread. rewrite E, Z.sub_diag. reflexivity. Qed.

Lemma firstn_more {A} (acc l : list A) n : 0 <= n -> Z.of_nat (length acc) <= n ->
  acc ++ firstn (Z.to_nat (n - Z.of_nat (length acc))) l = firstn (Z.to_nat n) (acc ++ l).
Proof.
  intros H1 H2. rewrite firstn_app, (firstn_all2 acc) by lia. f_equal. f_equal. lia.
Qed.

Lemma read_loop_spec fuel : forall r rem acc size,
  inv r rem -> unread r = [] -> eof r = false -> datalen r = offset r ->
  Z.of_nat (length acc) <= size <= 2147483647 ->
  (length (rest r) + 16 * length (seconds r) <= 16 * fuel)%nat ->
  exists r', read_loop fuel rk r acc size = (Got (firstn (Z.to_nat size) (acc ++ rem)), r') /\
    inv r' (skipn (Z.to_nat size) (acc ++ rem)).
Proof.
  induction fuel as [|k IH]; intros r rem acc size I Hu He Hd Hs Hf.
  { exfalso. destruct I as [_ _ _ I4]. rewrite He in I4. destruct I4 as (bs & tail & F & E & C & _).
    destruct (pad_length_block tail) as (j & Hj). rewrite <- C in Hj.
    rewrite concat_length in Hj by exact F. rewrite E in Hf.
    assert (HL : length (encs bs) = (16 * length bs)%nat) by apply encs_length.
    rewrite app_length in Hj. lia. }
  cbn [read_loop]. destruct (Z.leb_spec size (Z.of_nat (length acc))) as [Hle|Hlt].
  { assert (size = Z.of_nat (length acc)) by lia. subst size. exists r. rewrite Nat2Z.id.
    rewrite firstn_app, Nat.sub_diag, firstn_O, app_nil_r, firstn_all.
    rewrite skipn_app, Nat.sub_diag, skipn_all. split; [reflexivity|exact I]. }
  destruct I as [I1 I2 I3 I4]. rewrite He in I4. destruct I4 as (bs & tail & F & E & C & ER).
  rewrite Hu in ER. cbn [app] in ER. subst rem.
  (* the first fetch *)
  assert (G : exists b bs1 r1, seconds r ++ bs = b :: bs1 /\ rest r1 = encs bs1 /\ eof r1 = false /\
     (length (rest r1) <= 16 * k)%nat /\
     match second r with
     | Some b => (Block b, r)
     | None => match fetch r with
               | (Block b, r1) => (Block (dec b), r1)
               | fr => fr
               end
     end = (Block b, r1)).
  { unfold seconds in *. destruct (second r) as [b|] eqn:E2.
    - exists b, bs, r. split; [reflexivity|]. split; [exact E|]. split; [exact He|]. split; [|reflexivity].
      cbn [length] in Hf. lia.
    - destruct bs as [|b bs].
      { exfalso. cbn [app concat] in C. destruct (pad_length_block tail) as (j & Hj). rewrite <- C in Hj. discriminate Hj. }
      rewrite (fetch_block r b bs E).
      exists b, bs, (mkReader (encs bs) (eof r) (master r) (datalen r) (offset r) (second r)). split; [reflexivity|]. split; [reflexivity|].
      split; [exact He|]. cbn [rest]. split.
      + rewrite E in Hf. unfold encs in *. cbn [map concat] in Hf. rewrite app_length, enc_length in Hf. lia.
      + rewrite dec_enc_block; [reflexivity|]. apply Forall_inv in F. exact F. }
  destruct G as (b & bs1 & r1 & Es & E1 & He1 & Hk & ->).
  rewrite Es in F, C. pose proof (Forall_inv F) as Hb. apply Forall_inv_tail in F.
  set (r2 := mkReader (rest r1) (eof r1) b 16 0 None).
  destruct bs1 as [|c bs2].
  - (* last block *)
    rewrite (fetch_end r2 E1). cbn [with_second rest eof master datalen offset second r2].
    cbn [concat] in C. rewrite app_nil_r in C.
    destruct (pad_last_block b tail Hb C) as (P1 & P2 & P3).
    rewrite <- P1. rewrite to_size_small by lia.
    set (r4 := with_second _ None).
    assert (M4 : master r4 = b) by reflexivity.
    destruct (Z.leb_spec size (Z.of_nat (length acc) + Z.of_nat (length tail))) as [H1|H1].
    + rewrite copy_front by lia. rewrite M4.
      eexists. split.
      * f_equal. f_equal. rewrite <- firstn_more by lia. f_equal.
        rewrite <- P3 at 1. rewrite firstn_firstn. f_equal. lia.
      * split; cbn [offset datalen master eof]; try lia; [exact Hb|].
        unfold unread. cbn [offset datalen master eof r4 with_second].
        rewrite skipn_app, (skipn_all2 acc) by lia. cbn [app].
        rewrite <- P3 at 1.
        replace (Z.to_nat size - length acc)%nat with (Z.to_nat (size - Z.of_nat (length acc))) by lia.
        replace (Z.to_nat (Z.of_nat (length tail) - (size - Z.of_nat (length acc))))
          with (length tail - Z.to_nat (size - Z.of_nat (length acc)))%nat by lia.
        apply skipn_firstn_comm.
    + rewrite copy_front by lia. rewrite M4. rewrite Nat2Z.id, P3.
      eexists. split.
      * f_equal. f_equal. symmetry. apply firstn_all2. rewrite app_length. lia.
      * split; cbn [offset datalen master eof]; try lia; [exact Hb|].
        rewrite skipn_all2 by (rewrite app_length; lia). reflexivity.
  - (* more blocks *)
    rewrite (fetch_block r2 c bs2 E1). cbn [with_second rest eof master datalen offset second r2].
    pose proof (Forall_inv F) as Hc. rewrite dec_enc_block by exact Hc.
    destruct (pad_cons_block b (c :: bs2) tail Hb F ltac:(discriminate) C) as (tail' & Et & C').
    rewrite to_size_small by lia.
    set (r4 := with_second _ _).
    assert (M4 : master r4 = b) by reflexivity.
    destruct (Z.leb_spec size (Z.of_nat (length acc) + 16)) as [H1|H1].
    + rewrite copy_front by lia. rewrite M4. eexists. split.
      * f_equal. f_equal. rewrite <- firstn_more by lia. f_equal. rewrite Et.
        rewrite firstn_app. replace (Z.to_nat (size - Z.of_nat (length acc)) - length b)%nat with 0%nat
          by (rewrite Hb; lia). now rewrite firstn_O, app_nil_r.
      * split; cbn [offset datalen master eof]; try lia; [exact Hb|].
        change (eof r4) with (eof r1). rewrite He1.
        exists bs2, tail'. split; [exact F|]. split; [reflexivity|]. split; [exact C'|].
        unfold unread. cbn [offset datalen master].
        rewrite skipn_app, (skipn_all2 acc) by lia. cbn [app]. rewrite Et, skipn_app.
        replace (Z.to_nat size - length acc - length b)%nat with 0%nat by (rewrite Hb; lia). rewrite skipn_O.
        f_equal. try rewrite M4.
        replace (Z.to_nat (size - Z.of_nat (length acc))) with (Z.to_nat size - length acc)%nat by lia.
        symmetry. apply firstn_all2. rewrite skipn_length, Hb. lia.
    + rewrite copy_front by lia. rewrite M4. rewrite firstn_all2 by (rewrite Hb; reflexivity).
      rewrite Et, app_assoc. apply IH.
      * split; cbn [offset datalen master eof]; try lia; [exact Hb|].
        change (eof r4) with (eof r1). rewrite He1.
        exists bs2, tail'. split; [exact F|]. split; [reflexivity|]. split; [exact C'|]. reflexivity.
      * reflexivity.
      * exact He1.
      * reflexivity.
      * rewrite app_length, Hb. lia.
      * cbn [rest r4 with_second seconds second length].
        rewrite E1 in Hk. unfold encs in Hk. cbn [map concat] in Hk. rewrite app_length, enc_length in Hk.
        unfold encs. lia.
Qed.

Lemma read_spec r rem size : inv r rem -> int_size size ->
  exists a r', read rk r size = (a, r') /\
    ((a = Got (firstn (Z.to_nat size) rem) /\ inv r' (skipn (Z.to_nat size) rem)) \/
     (a = Error /\ rem = [] /\ 0 < size /\ inv r' [])).
Proof.
  intros I [Hs1 Hs2]. unfold read. pose proof I as [I1 I2 I3 I4].
  rewrite to_size_small by lia.
  assert (Lu : length (unread r) = Z.to_nat (datalen r - offset r)).
  { unfold unread. rewrite firstn_length, skipn_length, I3. lia. }
  assert (Hrem : exists t, rem = unread r ++ t).
  { destruct (eof r); [exists []; now rewrite app_nil_r|]. destruct I4 as (? & t & _ & _ & _ & ->). eauto. }
  destruct (Z.leb_spec size (datalen r - offset r)) as [H|H].
  - unfold copy_master. destruct (Z.ltb_spec (offset r) 0); [lia|].
    destruct (Z.ltb_spec 16 (offset r + size)); [lia|]. cbn [orb]. eexists _, _. split; [reflexivity|]. left.
    assert (U : forall n, (n <= Z.to_nat (datalen r - offset r))%nat ->
      firstn n (skipn (Z.to_nat (offset r)) (master r)) = firstn n (unread r)).
    { intros n Hn. unfold unread. rewrite firstn_firstn. f_equal. lia. }
    split.
    + f_equal. rewrite U by lia. destruct Hrem as [t ->]. rewrite firstn_app.
      replace (Z.to_nat size - length (unread r))%nat with 0%nat by lia. now rewrite firstn_O, app_nil_r.
    + assert (U2 : unread (mkReader (rest r) (eof r) (master r) (datalen r) (offset r + size) (second r))
                   = skipn (Z.to_nat size) (unread r)).
      { unfold unread. cbn [offset datalen master]. rewrite skipn_firstn_comm, skipn_skipn'.
        f_equal; [lia|]. f_equal. lia. }
      split; cbn [offset datalen master eof]; try lia; try exact I3.
      destruct (eof r); [rewrite I4, U2; reflexivity|].
      destruct I4 as (bs & t & F & E & C & ->). exists bs, t. split; [exact F|]. split; [exact E|].
      split; [exact C|]. rewrite U2. rewrite skipn_app.
      replace (Z.to_nat size - length (unread r))%nat with 0%nat by lia. now rewrite skipn_O.
  - set (p := if 0 <? datalen r - offset r then _ else _).
    assert (Hp : exists r1, p = (unread r, r1) /\ eof r1 = eof r /\ rest r1 = rest r /\ second r1 = second r /\
                  datalen r1 = offset r1 /\ 0 <= offset r1 <= 16 /\ master r1 = master r).
    { unfold p. destruct (Z.ltb_spec 0 (datalen r - offset r)).
      - eexists. split; [reflexivity|]. cbn. repeat split; lia.
      - exists r. split; [f_equal; symmetry; apply unread_zero; lia|]. repeat split; lia. }
    clearbody p. destruct Hp as (r1 & -> & E1 & E2 & E3 & E4 & E5 & E6). cbv beta iota. rewrite E1.
    destruct (eof r) eqn:Ee.
    + rewrite I4 in *. destruct (unread r) as [|x u] eqn:Eu.
      * eexists _, _. split; [reflexivity|]. right. repeat split; try lia.
        -- rewrite E6. exact I3.
        -- rewrite E1. symmetry. apply unread_zero, E4.
      * eexists _, _. split; [reflexivity|]. left. rewrite <- Eu. split.
        -- f_equal. symmetry. apply firstn_all2. rewrite Eu. lia.
        -- split; try lia; try (rewrite E6; exact I3). rewrite E1, (unread_zero r1) by exact E4.
           apply skipn_all2. rewrite Eu. lia.
    + destruct I4 as (bs & t & F & E & C & ->).
      destruct (read_loop_spec (S (length (rest r1)) + 1) r1 t (unread r) size) as (r' & Er & Ir).
      * split; try lia; try (rewrite E6; exact I3). rewrite E1. exists bs, t. unfold seconds in *. rewrite E3, E2.
        split; [exact F|]. split; [exact E|]. split; [exact C|]. now rewrite unread_zero by exact E4.
      * apply unread_zero, E4.
      * exact E1.
      * exact E4.
      * lia.
      * assert (length (seconds r1) <= 1)%nat by (unfold seconds; destruct (second r1); simpl; lia). lia.
      * eexists _, _. split; [exact Er|]. left. auto.
Qed.

Lemma reads_spec sizes : forall r rem, inv r rem -> Forall int_size sizes ->
  delivers rem sizes (reads rk r sizes).
Proof.
  induction sizes as [|n ns IH]; intros r rem I F; [exact Logic.I|]. cbn [reads].
  destruct (read_spec r rem n I (Forall_inv F)) as (a & r' & -> & H). apply Forall_inv_tail in F.
  destruct H as [[-> Hi]|(-> & -> & Hn & Hi)]; cbn [delivers].
  - split; [reflexivity|]. apply IH; assumption.
  - split; [reflexivity|]. split; [exact Hn|]. apply IH; assumption.
Qed.

Lemma new_reader_inv bs data : Forall block bs -> concat bs = pad data -> inv (new_reader (encs bs)) data.
Proof.
  intros F C. split; cbn; try lia. exists bs, data. cbn. auto.
Qed.

Lemma round_trip ps sizes : Forall int_size sizes ->
  delivers (concat ps) sizes (reads rk (new_reader (close rk (fold_left (write rk) ps new_writer))) sizes).
Proof.
  intros F. pose proof (writes_wrote ps _ _ new_wrote) as W. cbn [app] in W.
  destruct (close_spec _ _ W) as (bs & Fb & C & ->). apply reads_spec; [|exact F].
  apply new_reader_inv; assumption.
Qed.
End Stream.
