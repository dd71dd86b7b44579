(** Proofs about the AES model. *)
From Coq Require Import Init.Byte NArith List Bool Arith Lia Btauto.
From Coq Require Strings.Byte.
From Verif Require Import AesModel AesSpec.
Import ListNotations.

Definition all_bytes : list byte := map (fun n => of_num (N.of_nat n)) (seq 0 256).

Lemma all_bytes_in b : In b all_bytes.
Proof.
  replace b with (of_num (N.of_nat (N.to_nat (to_num b)))).
  - unfold all_bytes. apply in_map_iff. exists (N.to_nat (to_num b)). split; [reflexivity|].
    apply in_seq. unfold to_num. pose proof (Strings.Byte.to_N_bounded b). lia.
  - rewrite N2Nat.id. unfold of_num, to_num. now rewrite Strings.Byte.of_to_N.
Qed.

Definition byte_eqb (a b : byte) : bool := N.eqb (to_num a) (to_num b).
Lemma byte_eqb_eq a b : byte_eqb a b = true -> a = b.
Proof.
  unfold byte_eqb, to_num. intros H. apply N.eqb_eq in H.
  pose proof (Strings.Byte.of_to_N a) as H1. pose proof (Strings.Byte.of_to_N b) as H2. congruence.
Qed.

Lemma check1 (f g : byte -> byte) :
  forallb (fun b => byte_eqb (f b) (g b)) all_bytes = true -> forall b, f b = g b.
Proof. intros H b. rewrite forallb_forall in H. apply byte_eqb_eq, H, all_bytes_in. Qed.

Lemma check2 (f g : byte -> byte -> byte) :
  forallb (fun a => forallb (fun b => byte_eqb (f a b) (g a b)) all_bytes) all_bytes = true ->
  forall a b, f a b = g a b.
Proof.
  intros H a b. rewrite forallb_forall in H. specialize (H a (all_bytes_in a)). cbv beta in H.
  rewrite forallb_forall in H. apply byte_eqb_eq, H, all_bytes_in.
Qed.

Lemma xor_add : forall a b, xor a b = add a b.
Proof. apply check2. vm_compute. reflexivity. Qed.

Lemma to_bits_inj a b : Byte.to_bits a = Byte.to_bits b -> a = b.
Proof. intros H. rewrite <- (Byte.of_bits_to_bits a), <- (Byte.of_bits_to_bits b). now rewrite H. Qed.

Lemma to_bits_add a b : Byte.to_bits (add a b) =
  let '(a0, (a1, (a2, (a3, (a4, (a5, (a6, a7))))))) := Byte.to_bits a in
  let '(b0, (b1, (b2, (b3, (b4, (b5, (b6, b7))))))) := Byte.to_bits b in
  (xorb a0 b0, (xorb a1 b1, (xorb a2 b2, (xorb a3 b3,
  (xorb a4 b4, (xorb a5 b5, (xorb a6 b6, xorb a7 b7))))))).
Proof.
  unfold add. destruct (Byte.to_bits a) as (a0 & a1 & a2 & a3 & a4 & a5 & a6 & a7).
  destruct (Byte.to_bits b) as (b0 & b1 & b2 & b3 & b4 & b5 & b6 & b7).
  apply Byte.to_bits_of_bits.
Qed.

Lemma add_comm a b : add a b = add b a.
Proof.
  apply to_bits_inj. rewrite !to_bits_add.
  destruct (Byte.to_bits a) as (a0 & a1 & a2 & a3 & a4 & a5 & a6 & a7).
  destruct (Byte.to_bits b) as (b0 & b1 & b2 & b3 & b4 & b5 & b6 & b7).
  repeat (apply f_equal2; [apply xorb_comm|]). apply xorb_comm.
Qed.
Lemma add_assoc a b c : add (add a b) c = add a (add b c).
Proof.
  apply to_bits_inj. rewrite !to_bits_add.
  destruct (Byte.to_bits a) as (a0 & a1 & a2 & a3 & a4 & a5 & a6 & a7).
  destruct (Byte.to_bits b) as (b0 & b1 & b2 & b3 & b4 & b5 & b6 & b7).
  destruct (Byte.to_bits c) as (c0 & c1 & c2 & c3 & c4 & c5 & c6 & c7).
  now rewrite !xorb_assoc.
Qed.
Lemma add_self a : add a a = x00.
Proof. revert a. apply check1. vm_compute. reflexivity. Qed.
Lemma add_0_r a : add a x00 = a.
Proof. revert a. apply check1. vm_compute. reflexivity. Qed.
Lemma add_0_l a : add x00 a = a.
Proof. revert a. apply check1. vm_compute. reflexivity. Qed.
Lemma add_cancel a b : add (add a b) b = a.
Proof. now rewrite add_assoc, add_self, add_0_r. Qed.

Lemma xtime_add a b : xtime (add a b) = add (xtime a) (xtime b).
Proof. revert a b. apply check2. vm_compute. reflexivity. Qed.
Lemma mul_02 : forall a, mul x02 a = xtime a.
Proof. apply check1. vm_compute. reflexivity. Qed.
Lemma mul_03 : forall a, mul x03 a = add (xtime a) a.
Proof. apply check1. vm_compute. reflexivity. Qed.
Lemma sub_box : forall b, getSBoxValue b = sub b.
Proof. apply check1. vm_compute. reflexivity. Qed.
Lemma box_inverse : forall b, getSBoxInvert (getSBoxValue b) = b.
Proof. apply check1. vm_compute. reflexivity. Qed.
Lemma box_inverse' : forall b, getSBoxValue (getSBoxInvert b) = b.
Proof. apply check1. vm_compute. reflexivity. Qed.

(** normalising sums: a commutative monoid with a + a = 0 *)
Ltac bits_of x :=
  let H := fresh in
  destruct (Byte.to_bits x) as [? [? [? [? [? [? [? ?]]]]]]] eqn:H; clear H.
Ltac by_bits := apply to_bits_inj; rewrite ?to_bits_add;
  repeat match goal with |- context [Byte.to_bits ?x] => bits_of x end;
  repeat (apply f_equal2; [btauto|]); btauto.

Lemma mix_column_spec a b c d : mix_column [a; b; c; d] =
  [add (add (add (mul x02 a) (mul x03 b)) c) d;
   add (add (add (mul x02 b) (mul x03 c)) d) a;
   add (add (add (mul x02 c) (mul x03 d)) a) b;
   add (add (add (mul x02 d) (mul x03 a)) b) c].
Proof.
  unfold mix_column, at_. cbn [nth]. rewrite !xor_add, !mul_02, !mul_03, !xtime_add.
  repeat (apply f_equal2; [by_bits|]). reflexivity.
Qed.

Lemma add_swap a b c d : add (add a b) (add c d) = add (add a c) (add b d).
Proof. rewrite !add_assoc. f_equal. rewrite <- !add_assoc. f_equal. apply add_comm. Qed.

(** a sum of sums is the sum of the left parts and that of the right parts *)
Ltac sum_split := repeat (etransitivity; [|symmetry; apply add_swap]; apply f_equal2); reflexivity.

(** *** InvMixColumns undoes MixColumns, by linearity *)
Definition vadd (u v : list byte) : list byte := map (fun i => add (at_ u i) (at_ v i)) (seq 0 4).

Lemma mix_column_add u v : mix_column (vadd u v) = vadd (mix_column u) (mix_column v).
Proof.
  unfold mix_column, vadd, at_. cbn [seq map nth]. rewrite !xor_add, !xtime_add.
  repeat (apply f_equal2; [sum_split|]). reflexivity.
Qed.

Lemma bit_times_add y n a b : bit_times y n (add a b) = add (bit_times y n a) (bit_times y n b).
Proof. unfold bit_times. destruct (N.testbit y n); [reflexivity|]. now rewrite add_0_r. Qed.

Lemma multiply_add y a b : Multiply (add a b) y = add (Multiply a y) (Multiply b y).
Proof.
  unfold Multiply. rewrite !xor_add, !xtime_add, !bit_times_add.
  sum_split.
Qed.

Lemma inv_mix_column_add u v : inv_mix_column (vadd u v) = vadd (inv_mix_column u) (inv_mix_column v).
Proof.
  unfold inv_mix_column, vadd. cbn [seq map at_ nth]. rewrite !multiply_add, !xor_add.
  repeat (apply f_equal2; [sum_split|]). reflexivity.
Qed.

Lemma split_column a b c d : [a; b; c; d] =
  vadd (vadd (vadd [a; x00; x00; x00] [x00; b; x00; x00]) [x00; x00; c; x00]) [x00; x00; x00; d].
Proof. unfold vadd, at_. cbn [seq map nth]. now rewrite !add_0_r, !add_0_l. Qed.

Ltac each_byte b := destruct b; vm_compute; reflexivity.

Lemma units_inverse a : 
  inv_mix_column (mix_column [a; x00; x00; x00]) = [a; x00; x00; x00] /\
  inv_mix_column (mix_column [x00; a; x00; x00]) = [x00; a; x00; x00] /\
  inv_mix_column (mix_column [x00; x00; a; x00]) = [x00; x00; a; x00] /\
  inv_mix_column (mix_column [x00; x00; x00; a]) = [x00; x00; x00; a] /\
  mix_column (inv_mix_column [a; x00; x00; x00]) = [a; x00; x00; x00] /\
  mix_column (inv_mix_column [x00; a; x00; x00]) = [x00; a; x00; x00] /\
  mix_column (inv_mix_column [x00; x00; a; x00]) = [x00; x00; a; x00] /\
  mix_column (inv_mix_column [x00; x00; x00; a]) = [x00; x00; x00; a].
Proof. destruct a; vm_compute; repeat split. Qed.

Lemma inv_mix_mix a b c d : inv_mix_column (mix_column [a; b; c; d]) = [a; b; c; d].
Proof.
  rewrite (split_column a b c d), !mix_column_add, !inv_mix_column_add.
  destruct (units_inverse a) as (-> & _). destruct (units_inverse b) as (_ & -> & _).
  destruct (units_inverse c) as (_ & _ & -> & _). destruct (units_inverse d) as (_ & _ & _ & -> & _).
  reflexivity.
Qed.

Lemma mix_inv_mix a b c d : mix_column (inv_mix_column [a; b; c; d]) = [a; b; c; d].
Proof.
  rewrite (split_column a b c d), !inv_mix_column_add, !mix_column_add.
  destruct (units_inverse a) as (_ & _ & _ & _ & -> & _).
  destruct (units_inverse b) as (_ & _ & _ & _ & _ & -> & _).
  destruct (units_inverse c) as (_ & _ & _ & _ & _ & _ & -> & _).
  destruct (units_inverse d) as (_ & _ & _ & _ & _ & _ & _ & ->).
  reflexivity.
Qed.
