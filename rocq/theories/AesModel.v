(** Model of the AES-256 implementation (src/encryption/aes.cpp).

    A byte is a value of Coq's [byte]; C arithmetic on bytes is done on [N]
    and cut to 8 bits on assignment.  The state is the buffer of 16 bytes,
    state[i][j] being byte 4*i+j; the round keys are the 240 bytes of
    ctx->RoundKey.  Loops over fixed index ranges are written as maps where
    the iterations are independent. *)
From Coq Require Import Init.Byte NArith List Bool Arith.
From Coq Require Strings.Byte.
Import ListNotations.

Definition byte_N (b : byte) : N := Strings.Byte.to_N b.
(** assignment to uint8_t *)
Definition u8 (n : N) : byte :=
  match Strings.Byte.of_N (n mod 256)%N with Some b => b | None => x00 end.

(** 80-97 *)
Definition sbox : list byte :=
  [x63; x7c; x77; x7b; xf2; x6b; x6f; xc5; x30; x01; x67; x2b; xfe; xd7; xab; x76;
   xca; x82; xc9; x7d; xfa; x59; x47; xf0; xad; xd4; xa2; xaf; x9c; xa4; x72; xc0;
   xb7; xfd; x93; x26; x36; x3f; xf7; xcc; x34; xa5; xe5; xf1; x71; xd8; x31; x15;
   x04; xc7; x23; xc3; x18; x96; x05; x9a; x07; x12; x80; xe2; xeb; x27; xb2; x75;
   x09; x83; x2c; x1a; x1b; x6e; x5a; xa0; x52; x3b; xd6; xb3; x29; xe3; x2f; x84;
   x53; xd1; x00; xed; x20; xfc; xb1; x5b; x6a; xcb; xbe; x39; x4a; x4c; x58; xcf;
   xd0; xef; xaa; xfb; x43; x4d; x33; x85; x45; xf9; x02; x7f; x50; x3c; x9f; xa8;
   x51; xa3; x40; x8f; x92; x9d; x38; xf5; xbc; xb6; xda; x21; x10; xff; xf3; xd2;
   xcd; x0c; x13; xec; x5f; x97; x44; x17; xc4; xa7; x7e; x3d; x64; x5d; x19; x73;
   x60; x81; x4f; xdc; x22; x2a; x90; x88; x46; xee; xb8; x14; xde; x5e; x0b; xdb;
   xe0; x32; x3a; x0a; x49; x06; x24; x5c; xc2; xd3; xac; x62; x91; x95; xe4; x79;
   xe7; xc8; x37; x6d; x8d; xd5; x4e; xa9; x6c; x56; xf4; xea; x65; x7a; xae; x08;
   xba; x78; x25; x2e; x1c; xa6; xb4; xc6; xe8; xdd; x74; x1f; x4b; xbd; x8b; x8a;
   x70; x3e; xb5; x66; x48; x03; xf6; x0e; x61; x35; x57; xb9; x86; xc1; x1d; x9e;
   xe1; xf8; x98; x11; x69; xd9; x8e; x94; x9b; x1e; x87; xe9; xce; x55; x28; xdf;
   x8c; xa1; x89; x0d; xbf; xe6; x42; x68; x41; x99; x2d; x0f; xb0; x54; xbb; x16].

(** 99-115 *)
Definition rsbox : list byte :=
  [x52; x09; x6a; xd5; x30; x36; xa5; x38; xbf; x40; xa3; x9e; x81; xf3; xd7; xfb;
   x7c; xe3; x39; x82; x9b; x2f; xff; x87; x34; x8e; x43; x44; xc4; xde; xe9; xcb;
   x54; x7b; x94; x32; xa6; xc2; x23; x3d; xee; x4c; x95; x0b; x42; xfa; xc3; x4e;
   x08; x2e; xa1; x66; x28; xd9; x24; xb2; x76; x5b; xa2; x49; x6d; x8b; xd1; x25;
   x72; xf8; xf6; x64; x86; x68; x98; x16; xd4; xa4; x5c; xcc; x5d; x65; xb6; x92;
   x6c; x70; x48; x50; xfd; xed; xb9; xda; x5e; x15; x46; x57; xa7; x8d; x9d; x84;
   x90; xd8; xab; x00; x8c; xbc; xd3; x0a; xf7; xe4; x58; x05; xb8; xb3; x45; x06;
   xd0; x2c; x1e; x8f; xca; x3f; x0f; x02; xc1; xaf; xbd; x03; x01; x13; x8a; x6b;
   x3a; x91; x11; x41; x4f; x67; xdc; xea; x97; xf2; xcf; xce; xf0; xb4; xe6; x73;
   x96; xac; x74; x22; xe7; xad; x35; x85; xe2; xf9; x37; xe8; x1c; x75; xdf; x6e;
   x47; xf1; x1a; x71; x1d; x29; xc5; x89; x6f; xb7; x62; x0e; xaa; x18; xbe; x1b;
   xfc; x56; x3e; x4b; xc6; xd2; x79; x20; x9a; xdb; xc0; xfe; x78; xcd; x5a; xf4;
   x1f; xdd; xa8; x33; x88; x07; xc7; x31; xb1; x12; x10; x59; x27; x80; xec; x5f;
   x60; x51; x7f; xa9; x19; xb5; x4a; x0d; x2d; xe5; x7a; x9f; x93; xc9; x9c; xef;
   xa0; xe0; x3b; x4d; xae; x2a; xf5; xb0; xc8; xeb; xbb; x3c; x83; x53; x99; x61;
   x17; x2b; x04; x7e; xba; x77; xd6; x26; xe1; x69; x14; x63; x55; x21; x0c; x7d].

(** 119-120 *)
Definition Rcon : list byte := [x8d; x01; x02; x04; x08; x10; x20; x40; x80; x1b; x36].

(** 135-149 *)
Definition getSBoxValue (b : byte) : byte := nth (N.to_nat (byte_N b)) sbox x00.
Definition getSBoxInvert (b : byte) : byte := nth (N.to_nat (byte_N b)) rsbox x00.

(** the operator ^ on uint8_t *)
Definition xor (a b : byte) : byte := u8 (N.lxor (byte_N a) (byte_N b)).

Definition at_ (l : list byte) (i : nat) : byte := nth i l x00.

Fixpoint set (l : list byte) (i : nat) (b : byte) : list byte :=
  match l, i with
  | [], _ => []
  | _ :: r, O => b :: r
  | x :: r, S i' => x :: set r i' b
  end.

(** 167-222: one iteration of the second loop *)
Definition expand_step (rk : list byte) (i : nat) : list byte :=
  let k := (i - 1) * 4 in
  let t := [at_ rk k; at_ rk (k + 1); at_ rk (k + 2); at_ rk (k + 3)] in
  let t := if i mod 8 =? 0
           then let t := [at_ t 1; at_ t 2; at_ t 3; at_ t 0] in
                let t := map getSBoxValue t in
                set t 0 (xor (at_ t 0) (at_ Rcon (i / 8)))
           else t in
  let t := if i mod 8 =? 4 then map getSBoxValue t else t in
  let k := (i - 8) * 4 in
  rk ++ [xor (at_ rk k) (at_ t 0); xor (at_ rk (k + 1)) (at_ t 1);
         xor (at_ rk (k + 2)) (at_ t 2); xor (at_ rk (k + 3)) (at_ t 3)].

(** 152-223; [Key] has 32 bytes *)
Definition KeyExpansion (Key : list byte) : list byte :=
  fold_left expand_step (seq 8 52) (firstn 32 Key).

(** 227-228, 246 *)
Definition default_key : list byte :=
  [x60; x3d; xeb; x10; x15; xca; x71; xbe; x2b; x73; xae; xf0; x85; x7d; x77; x81;
   x1f; x35; x2c; x07; x3b; x61; x08; xd7; x2d; x98; x10; xa3; x09; x14; xdf; xf4].
Definition default_iv : list byte :=
  [xf0; xf1; xf2; xf3; xf4; xf5; xf6; xf7; xf8; xf9; xfa; xfb; xfc; xfd; xfe; xff].

(** 225-238: the first min(32, length) bytes of the key replace those of the
    default key *)
Definition padded_key (key : list byte) : list byte :=
  firstn 32 key ++ skipn (length key) default_key.
Definition AES_init_ctx (key : list byte) : list byte := KeyExpansion (padded_key key).

(** 241-269: the padded key is computed but KeyExpansion is applied to the
    caller's [key], of which 32 bytes are read; [None] when it is shorter *)
Definition AES_init_ctx_iv (key : list byte) (iv : list byte) : option (list byte * list byte) :=
  if length key <? 32 then None
  else Some (KeyExpansion key, firstn 16 iv ++ skipn (length iv) default_iv).

(** 279-289 *)
Definition AddRoundKey (round : nat) (rk s : list byte) : list byte :=
  map (fun k => xor (at_ s k) (at_ rk (round * 16 + k))) (seq 0 16).

(** 293-303, 405-415 *)
Definition SubBytes (s : list byte) : list byte := map getSBoxValue s.
Definition InvSubBytes (s : list byte) : list byte := map getSBoxInvert s.

(** 308-334 *)
Definition ShiftRows (s : list byte) : list byte :=
  let temp := at_ s 1 in
  let s := set s 1 (at_ s 5) in
  let s := set s 5 (at_ s 9) in
  let s := set s 9 (at_ s 13) in
  let s := set s 13 temp in
  let temp := at_ s 2 in
  let s := set s 2 (at_ s 10) in
  let s := set s 10 temp in
  let temp := at_ s 6 in
  let s := set s 6 (at_ s 14) in
  let s := set s 14 temp in
  let temp := at_ s 3 in
  let s := set s 3 (at_ s 15) in
  let s := set s 15 (at_ s 11) in
  let s := set s 11 (at_ s 7) in
  set s 7 temp.

(** 417-443 *)
Definition InvShiftRows (s : list byte) : list byte :=
  let temp := at_ s 13 in
  let s := set s 13 (at_ s 9) in
  let s := set s 9 (at_ s 5) in
  let s := set s 5 (at_ s 1) in
  let s := set s 1 temp in
  let temp := at_ s 2 in
  let s := set s 2 (at_ s 10) in
  let s := set s 10 temp in
  let temp := at_ s 6 in
  let s := set s 6 (at_ s 14) in
  let s := set s 14 temp in
  let temp := at_ s 3 in
  let s := set s 3 (at_ s 7) in
  let s := set s 7 (at_ s 11) in
  let s := set s 11 (at_ s 15) in
  set s 15 temp.

(** 336-339 *)
Definition xtime (x : byte) : byte :=
  u8 (N.lxor (N.shiftl (byte_N x) 1) (N.land (N.shiftr (byte_N x) 7) 1 * 27)).

(** 342-355: one iteration, on the column (s0, s1, s2, s3) *)
Definition mix_column (c : list byte) : list byte :=
  let s0 := at_ c 0 in let s1 := at_ c 1 in let s2 := at_ c 2 in let s3 := at_ c 3 in
  let t := s0 in
  let Tmp := xor (xor (xor s0 s1) s2) s3 in
  let s0 := xor s0 (xor (xtime (xor s0 s1)) Tmp) in
  let s1 := xor s1 (xor (xtime (xor s1 s2)) Tmp) in
  let s2 := xor s2 (xor (xtime (xor s2 s3)) Tmp) in
  let s3 := xor s3 (xor (xtime (xor s3 t)) Tmp) in
  [s0; s1; s2; s3].

Definition columns (f : list byte -> list byte) (s : list byte) : list byte :=
  concat (map (fun i => f (firstn 4 (skipn (4 * i) s))) (seq 0 4)).

Definition MixColumns (s : list byte) : list byte := columns mix_column s.

(** 371-377 (the macro): the product of bit n of y with x *)
Definition bit_times (y n : N) (x : byte) : byte := if N.testbit y n then x else x00.
Definition Multiply (x : byte) (y : N) : byte :=
  xor (xor (xor (xor (bit_times y 0 x) (bit_times y 1 (xtime x)))
                (bit_times y 2 (xtime (xtime x))))
           (bit_times y 3 (xtime (xtime (xtime x)))))
      (bit_times y 4 (xtime (xtime (xtime (xtime x))))).

(** 384-401 *)
Definition inv_mix_column (c : list byte) : list byte :=
  let a := at_ c 0 in let b := at_ c 1 in let c' := at_ c 2 in let d := at_ c 3 in
  [xor (xor (xor (Multiply a 14) (Multiply b 11)) (Multiply c' 13)) (Multiply d 9);
   xor (xor (xor (Multiply a 9) (Multiply b 14)) (Multiply c' 11)) (Multiply d 13);
   xor (xor (xor (Multiply a 13) (Multiply b 9)) (Multiply c' 14)) (Multiply d 11);
   xor (xor (xor (Multiply a 11) (Multiply b 13)) (Multiply c' 9)) (Multiply d 14)].
Definition InvMixColumns (s : list byte) : list byte := columns inv_mix_column s.

(** 447-470 *)
Definition cipher_round (rk : list byte) (s : list byte) (round : nat) : list byte :=
  AddRoundKey round rk (MixColumns (ShiftRows (SubBytes s))).
Definition Cipher (rk s : list byte) : list byte :=
  let s := AddRoundKey 0 rk s in
  let s := fold_left (cipher_round rk) (seq 1 13) s in
  AddRoundKey 14 rk (ShiftRows (SubBytes s)).

(** 473-496: round counts down from 13 to 1 *)
Definition inv_cipher_round (rk : list byte) (s : list byte) (round : nat) : list byte :=
  InvMixColumns (AddRoundKey round rk (InvSubBytes (InvShiftRows s))).
Definition InvCipher (rk s : list byte) : list byte :=
  let s := AddRoundKey 14 rk s in
  let s := fold_left (inv_cipher_round rk) (rev (seq 1 13)) s in
  AddRoundKey 0 rk (InvSubBytes (InvShiftRows s)).

(** 505-515; the buffer has 16 bytes *)
Definition AES_ECB_encrypt (rk buf : list byte) : list byte := Cipher rk buf.
Definition AES_ECB_decrypt (rk buf : list byte) : list byte := InvCipher rk buf.

(** 527-534 *)
Definition XorWithIv (buf iv : list byte) : list byte :=
  map (fun i => xor (at_ buf i) (at_ iv i)) (seq 0 16).

(** 536-550: the loop goes on while i < length in steps of 16; [None] when
    the last block is not entirely inside the buffer *)
Fixpoint cbc_encrypt (fuel : nat) (rk iv buf : list byte) : option (list byte * list byte) :=
  match fuel, buf with
  | _, [] => Some ([], iv)
  | O, _ => None
  | S k, _ =>
      if length buf <? 16 then None
      else let blk := Cipher rk (XorWithIv (firstn 16 buf) iv) in
           match cbc_encrypt k rk blk (skipn 16 buf) with
           | Some (r, iv') => Some (blk ++ r, iv')
           | None => None
           end
  end.
Definition AES_CBC_encrypt_buffer (rk iv buf : list byte) : option (list byte * list byte) :=
  cbc_encrypt (length buf) rk iv buf.

(** 552-566 *)
Fixpoint cbc_decrypt (fuel : nat) (rk iv buf : list byte) : option (list byte * list byte) :=
  match fuel, buf with
  | _, [] => Some ([], iv)
  | O, _ => None
  | S k, _ =>
      if length buf <? 16 then None
      else let storeNextIv := firstn 16 buf in
           let blk := XorWithIv (InvCipher rk storeNextIv) iv in
           match cbc_decrypt k rk storeNextIv (skipn 16 buf) with
           | Some (r, iv') => Some (blk ++ r, iv')
           | None => None
           end
  end.
Definition AES_CBC_decrypt_buffer (rk iv buf : list byte) : option (list byte * list byte) :=
  cbc_decrypt (length buf) rk iv buf.

(** 588-598: incrementing the counter, most significant byte first; [r] is
    the counter reversed *)
Fixpoint inc_rev (r : list byte) : list byte :=
  match r with
  | [] => []
  | b :: t => if N.eqb (byte_N b) 255 then x00 :: inc_rev t else u8 (byte_N b + 1) :: t
  end.
Definition increment (iv : list byte) : list byte := rev (inc_rev (rev iv)).

(** 574-604: [ks] is the unused rest of the current key-stream block *)
Fixpoint ctr_loop (rk iv ks buf : list byte) : list byte * list byte :=
  match buf with
  | [] => ([], iv)
  | b :: t =>
      let (ks, iv) := match ks with [] => (Cipher rk iv, increment iv) | _ => (ks, iv) end in
      let (r, iv') := ctr_loop rk iv (tl ks) t in
      (xor b (at_ ks 0) :: r, iv')
  end.
Definition AES_CTR_xcrypt_buffer (rk iv buf : list byte) : list byte * list byte :=
  ctr_loop rk iv [] buf.
