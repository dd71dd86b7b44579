(** Properties of the encryption code: the AES block cipher, its modes, and the
    encrypted file streams. *)
From Coq Require Import Init.Byte NArith ZArith List Bool Arith Lia.
From Verif Require Import AesModel AesSpec AesProofs AesProofs2 AesStreamModel AesStreamSpec
  AesStreamProofs AesStreamProofs2 AesModeProofs.
Import ListNotations.

(** ** C17: with the same key, decrypting a block gives back what was encrypted
    and encrypting gives back what was decrypted. *)
Theorem C17_ecb_inverse (key block : list byte) : length block = 16 ->
  AES_ECB_decrypt (AES_init_ctx key) (AES_ECB_encrypt (AES_init_ctx key) block) = block /\
  AES_ECB_encrypt (AES_init_ctx key) (AES_ECB_decrypt (AES_init_ctx key) block) = block.
Proof.
  intros H. unfold AES_ECB_decrypt, AES_ECB_encrypt.
  split; [exact (decrypt_encrypt _ _ H)|exact (encrypt_decrypt _ _ H)].
Qed.
Print Assumptions C17_ecb_inverse.

(** different blocks have different encryptions, of the same size *)
Theorem C17_ecb_injective (key a b : list byte) : length a = 16 -> length b = 16 ->
  AES_ECB_encrypt (AES_init_ctx key) a = AES_ECB_encrypt (AES_init_ctx key) b -> a = b.
Proof.
  intros Ha Hb E. destruct (C17_ecb_inverse key a Ha) as [A _], (C17_ecb_inverse key b Hb) as [B _].
  rewrite <- A, <- B, E. reflexivity.
Qed.
Print Assumptions C17_ecb_injective.

(** ** C65: the cipher is AES-256 as FIPS 197 defines it, and its key is the
    caller's, completed from the default key when shorter than 32 bytes and
    cut after 32 bytes when longer. *)
Theorem C65_fips197 (key block : list byte) (w : nat -> nat -> byte) : length key = 32 -> length block = 16 ->
  key_schedule key w -> AES_ECB_encrypt (AES_init_ctx key) block = fips_cipher w block.
Proof.
  intros Hk Hb Hw. unfold AES_ECB_encrypt, AES_init_ctx.
  assert (E : padded_key key = key).
  { unfold padded_key. rewrite firstn_all2 by lia. rewrite skipn_all2 by (rewrite Hk; apply le_n).
    apply app_nil_r. }
  rewrite E. apply cipher_fips; [|exact Hb]. exact (KeyExpansion_same key w Hk Hw).
Qed.
Print Assumptions C65_fips197.

Theorem C65_any_key (key block : list byte) : length block = 16 ->
  exists w, key_schedule (firstn 32 (key ++ skipn (length key) default_key)) w /\
    AES_ECB_encrypt (AES_init_ctx key) block = fips_cipher w block.
Proof.
  intros Hb. exists (kw (KeyExpansion (padded_key key))).
  assert (E : firstn 32 (key ++ skipn (length key) default_key) = padded_key key).
  { rewrite firstn_app. unfold padded_key. f_equal.
    rewrite firstn_all2; [reflexivity|]. rewrite skipn_length. change (length default_key) with 32. lia. }
  rewrite E. split; [exact (KeyExpansion_schedule _ (padded_key_length key))|].
  unfold AES_ECB_encrypt, AES_init_ctx. apply cipher_fips; [|exact Hb].
  exact (KeyExpansion_same _ _ (padded_key_length key) (KeyExpansion_schedule _ (padded_key_length key))).
Qed.
Print Assumptions C65_any_key.

(** FIPS 197, appendix C.3 *)
Definition c3_key : list byte :=
  [x00; x01; x02; x03; x04; x05; x06; x07; x08; x09; x0a; x0b; x0c; x0d; x0e; x0f;
   x10; x11; x12; x13; x14; x15; x16; x17; x18; x19; x1a; x1b; x1c; x1d; x1e; x1f].
Definition c3_plain : list byte :=
  [x00; x11; x22; x33; x44; x55; x66; x77; x88; x99; xaa; xbb; xcc; xdd; xee; xff].
Example C65_example :
  AES_ECB_encrypt (AES_init_ctx c3_key) c3_plain =
  [x8e; xa2; xb7; xca; x51; x67; x45; xbf; xea; xfc; x49; x90; x4b; x49; x60; x89].
Proof. vm_compute. reflexivity. Qed.
Example C17_example :
  AES_ECB_decrypt (AES_init_ctx c3_key)
    [x8e; xa2; xb7; xca; x51; x67; x45; xbf; xea; xfc; x49; x90; x4b; x49; x60; x89] = c3_plain.
Proof. vm_compute. reflexivity. Qed.

(** ** C18: whatever the key, whatever pieces the data is written in and
    whatever sizes it is read in, the reader delivers what was written. *)
Theorem C18_stream_round_trip (key : list byte) (pieces : list (list byte)) (sizes : list Z) :
  Forall int_size sizes ->
  delivers (concat pieces) sizes (read_back key (written key pieces) sizes).
Proof. intros F. unfold read_back, written. exact (round_trip (AES_init_ctx key) pieces sizes F). Qed.
Print Assumptions C18_stream_round_trip.

(** The file is the PKCS#7-padded data, encrypted block by block: it depends
    only on the key and the data, not on how the data was cut into pieces. *)
Theorem C18_file_contents (key : list byte) (pieces : list (list byte)) :
  let data := concat pieces in
  written key pieces =
  concat (map (AES_ECB_encrypt (AES_init_ctx key)) (blocks (S (length data)) (pkcs7 data))).
Proof. unfold written. exact (file_is (AES_init_ctx key) pieces). Qed.
Print Assumptions C18_file_contents.

Example C18_example :
  read_back [x41; x42] (written [x41; x42] [c3_plain; [x01; x02]; c3_key]) [5; 20; 0; 25; 9; 3]%Z =
  [Got [x00; x11; x22; x33; x44];
   Got [x55; x66; x77; x88; x99; xaa; xbb; xcc; xdd; xee; xff; x01; x02; x00; x01; x02; x03; x04; x05; x06];
   Got [];
   Got [x07; x08; x09; x0a; x0b; x0c; x0d; x0e; x0f; x10; x11; x12; x13; x14; x15; x16; x17; x18; x19; x1a; x1b;
        x1c; x1d; x1e; x1f]; Error; Error].
Proof. vm_compute. reflexivity. Qed.

(** ** C19: a file whose blocks all decrypt to a padding count of at most 16
    is never over-read, whatever its bytes and its length; *)
Theorem C19_no_overread_partial (key file : list byte) (sizes : list Z) :
  (forall a b, file = a ++ b -> length b = 16 -> length a mod 16 = 0 ->
     (byte_N (at_ (AES_ECB_decrypt (AES_init_ctx key) b) 15) <= 16)%N) ->
  Forall int_size sizes -> ~ In Undef (read_back key file sizes).
Proof.
  intros H F. unfold read_back. apply reads_safe; [|exact F]. apply new_reader_safe.
  intros a b E Hb Ha. unfold pad_ok. specialize (H a b E Hb Ha). lia.
Qed.
Print Assumptions C19_no_overread_partial.

(** one whose last block decrypts to a larger count is: a file of one block,
    opened with the right key. *)
Theorem C19_corrupt_file_refuted : exists key file size,
  length file = 16 /\ int_size size /\ read_back key file [size] = [Undef].
Proof.
  exists c3_key, (AES_ECB_encrypt (AES_init_ctx c3_key) c3_plain), 40%Z.
  split; [apply Cipher_length|]. split; [unfold int_size; lia|]. vm_compute. reflexivity.
Qed.
Print Assumptions C19_corrupt_file_refuted.

Example C19_example :
  read_back c3_key (firstn 37 (written c3_key [c3_plain; c3_key])) [10; 10; 10]%Z = 
  [Got (firstn 10 c3_plain); Error; Got (firstn 10 c3_key)].
Proof. vm_compute. reflexivity. Qed.

(** ** C66: the chained modes.  CBC decryption inverts CBC encryption of any
    whole number of blocks and leaves the same vector for the next call. *)
Theorem C66_cbc_inverse (key iv buf : list byte) (n : nat) : length buf = 16 * n ->
  exists c iv', AES_CBC_encrypt_buffer (AES_init_ctx key) iv buf = Some (c, iv') /\
    length c = length buf /\ AES_CBC_decrypt_buffer (AES_init_ctx key) iv c = Some (buf, iv').
Proof.
  intros H. generalize (AES_init_ctx key). intros rk. unfold AES_CBC_encrypt_buffer, AES_CBC_decrypt_buffer.
  destruct (cbc_round_trip rk n (length buf) (length buf) iv buf H) as (c & iv' & A & B & C); try lia.
  exists c, iv'. split; [exact A|]. split; [congruence|]. rewrite B, <- H. exact C.
Qed.
Print Assumptions C66_cbc_inverse.

(** Encrypting in several calls is encrypting at once. *)
Theorem C66_cbc_pieces (key iv a b c d iv1 iv2 : list byte) (n : nat) : length a = 16 * n ->
  AES_CBC_encrypt_buffer (AES_init_ctx key) iv a = Some (c, iv1) ->
  AES_CBC_encrypt_buffer (AES_init_ctx key) iv1 b = Some (d, iv2) ->
  AES_CBC_encrypt_buffer (AES_init_ctx key) iv (a ++ b) = Some (c ++ d, iv2).
Proof.
  generalize (AES_init_ctx key). intros rk Ha A B. unfold AES_CBC_encrypt_buffer in *.
  rewrite (cbc_encrypt_app rk n (length a) (length b) (length (a ++ b)) iv a b c iv1 Ha A);
    try (rewrite ?app_length; lia). now rewrite B.
Qed.
Print Assumptions C66_cbc_pieces.

(** CTR applied twice gives the data back, for every length. *)
Theorem C66_ctr_involution (key iv buf : list byte) :
  fst (AES_CTR_xcrypt_buffer (AES_init_ctx key) iv (fst (AES_CTR_xcrypt_buffer (AES_init_ctx key) iv buf))) = buf.
Proof.
  generalize (AES_init_ctx key). intros rk. unfold AES_CTR_xcrypt_buffer.
  exact (proj1 (ctr_involution rk buf iv [])).
Qed.
Print Assumptions C66_ctr_involution.

(** CBC is the chaining of SP 800-38A: every encrypted block is the encryption
    of the plain block added to the encrypted block before it, the first one to
    the vector; the vector left behind is the last encrypted block. *)
Theorem C66_cbc_chain (key iv buf c iv' : list byte) (n : nat) : length buf = 16 * n -> length iv = 16 ->
  AES_CBC_encrypt_buffer (AES_init_ctx key) iv buf = Some (c, iv') ->
  length c = length buf /\
  iv' = (match n with O => iv | S m => block_of m c end) /\
  forall k, k < n -> block_of k c =
    AES_ECB_encrypt (AES_init_ctx key)
      (add_blocks (block_of k buf) (match k with O => iv | S m => block_of m c end)).
Proof.
  generalize (AES_init_ctx key). intros rk L Hi E. unfold AES_CBC_encrypt_buffer in E.
  apply (cbc_chain rk n) in E; try assumption. destruct E as (A & _ & B & C).
  split; [congruence|]. split; [exact B|exact C].
Qed.
Print Assumptions C66_cbc_chain.

(** CTR: byte [i] is added to byte [i mod 16] of the encryption of the block
    that is the vector, as a 128-bit big-endian number, plus [i / 16]. *)
Theorem C66_ctr_key_stream (key iv buf c : list byte) (i : nat) : length iv = 16 -> length c = 16 ->
  big_endian c = ((big_endian iv + N.of_nat (i / 16)) mod 2 ^ 128)%N -> i < length buf ->
  nth i (fst (AES_CTR_xcrypt_buffer (AES_init_ctx key) iv buf)) x00 =
  add (nth i buf x00) (nth (i mod 16) (AES_ECB_encrypt (AES_init_ctx key) c) x00).
Proof.
  generalize (AES_init_ctx key). intros rk Hi Hc E L. unfold AES_CTR_xcrypt_buffer, AES_ECB_encrypt.
  rewrite ctr_loop_gen; destruct (ctr_gen_spec (Cipher rk) (Cipher_length rk) buf iv []) as (_ & H & _). specialize (H i L). unfold at_ in H. rewrite H.
  rewrite xor_add. f_equal. unfold stream_at. cbn [length]. change (i <? 0) with false. cbv iota.
  rewrite Nat.sub_0_r. unfold at_. do 2 f_equal.
  apply be_inj; [rewrite nth_counter_length; congruence|]. rewrite nth_counter_value, Hi, E. reflexivity.
Qed.
Print Assumptions C66_ctr_key_stream.

(** and the vector left behind has advanced by the number of blocks used, the
    last one counted even if only some of it was used. *)
Theorem C66_ctr_vector (key iv buf : list byte) : length iv = 16 ->
  length (snd (AES_CTR_xcrypt_buffer (AES_init_ctx key) iv buf)) = 16 /\
  big_endian (snd (AES_CTR_xcrypt_buffer (AES_init_ctx key) iv buf)) =
  ((big_endian iv + N.of_nat ((length buf + 15) / 16)) mod 2 ^ 128)%N.
Proof.
  generalize (AES_init_ctx key). intros rk Hi. unfold AES_CTR_xcrypt_buffer.
  rewrite ctr_loop_gen; destruct (ctr_gen_spec (Cipher rk) (Cipher_length rk) buf iv []) as (_ & _ & E). rewrite E. cbn [length]. rewrite Nat.sub_0_r.
  split; [now rewrite nth_counter_length|]. rewrite nth_counter_value, Hi. reflexivity.
Qed.
Print Assumptions C66_ctr_vector.

(** the counter carries from one byte into the next, and wraps *)
Example C66_carry_example :
  snd (AES_CTR_xcrypt_buffer (AES_init_ctx c3_key) (repeat x00 14 ++ [x01; xff]) c3_plain) =
    repeat x00 14 ++ [x02; x00] /\
  snd (AES_CTR_xcrypt_buffer (AES_init_ctx c3_key) (repeat xff 16) c3_plain) = repeat x00 16.
Proof. vm_compute. split; reflexivity. Qed.

(** NIST SP 800-38A F.2.5, F.5.5: first block of CBC and CTR with AES-256 *)
Definition nist_key : list byte :=
  [x60; x3d; xeb; x10; x15; xca; x71; xbe; x2b; x73; xae; xf0; x85; x7d; x77; x81;
   x1f; x35; x2c; x07; x3b; x61; x08; xd7; x2d; x98; x10; xa3; x09; x14; xdf; xf4].
Definition nist_plain : list byte :=
  [x6b; xc1; xbe; xe2; x2e; x40; x9f; x96; xe9; x3d; x7e; x11; x73; x93; x17; x2a].
Example C66_example :
  AES_CBC_encrypt_buffer (AES_init_ctx nist_key) (firstn 16 c3_key) nist_plain =
    Some ([xf5; x8c; x4c; x04; xd6; xe5; xf1; xba; x77; x9e; xab; xfb; x5f; x7b; xfb; xd6],
          [xf5; x8c; x4c; x04; xd6; xe5; xf1; xba; x77; x9e; xab; xfb; x5f; x7b; xfb; xd6]) /\
  fst (AES_CTR_xcrypt_buffer (AES_init_ctx nist_key)
     [xf0; xf1; xf2; xf3; xf4; xf5; xf6; xf7; xf8; xf9; xfa; xfb; xfc; xfd; xfe; xff] nist_plain) =
    [x60; x1e; xc3; x13; x77; x57; x89; xa5; xb7; xa7; xf5; x04; xbb; xf3; xd2; x28].
Proof. vm_compute. split; reflexivity. Qed.

(** ** C67: every context function completes a short key.  AES_init_ctx does;
    AES_init_ctx_iv reads 32 bytes of the caller's key instead. *)
Theorem C67_whole_key_partial (key iv : list byte) : length key = 32 -> length iv = 16 ->
  AES_init_ctx_iv key iv = Some (AES_init_ctx key, iv).
Proof.
  intros H Hi. unfold AES_init_ctx_iv, AES_init_ctx. rewrite H. change (32 <? 32) with false. cbv iota.
  assert (E : padded_key key = key).
  { unfold padded_key. rewrite firstn_all2 by lia. rewrite skipn_all2 by (rewrite H; apply le_n).
    apply app_nil_r. }
  rewrite E. f_equal. f_equal. rewrite firstn_all2 by lia. rewrite skipn_all2 by (rewrite Hi; apply le_n).
  apply app_nil_r.
Qed.
Print Assumptions C67_whole_key_partial.

Theorem C67_short_key_refuted : exists key iv, key <> [] /\ AES_init_ctx_iv key iv = None.
Proof. exists [x41; x42], []. split; [discriminate|reflexivity]. Qed.
Print Assumptions C67_short_key_refuted.
