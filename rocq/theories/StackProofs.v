(** Lemmas about stack frames. *)
From Coq Require Import List ZArith Lia Bool.
From Verif Require Import StackModel.
Import ListNotations.

Section StackProofs.
Context {V : Type}.

(** A stack whose current frame is [fr], above the caller's cells [lo]. *)
Definition fs (lo fr : list V) (bs : list nat) : stack V :=
  mkStack (lo ++ fr) (length lo) bs.

Lemma index_fs lo fr bs i : index (fs lo fr bs) (Z.of_nat i) = nth_error fr i.
Proof.
  unfold index, rel2abs, fs. simpl.
  destruct (Z.leb_spec 0 (Z.of_nat i)); [|lia].
  destruct (Z.ltb_spec (Z.of_nat (length lo) + Z.of_nat i) 0); [lia|].
  replace (Z.to_nat (Z.of_nat (length lo) + Z.of_nat i)) with (length lo + i)%nat by lia.
  rewrite nth_error_app2 by lia. f_equal. lia.
Qed.

Lemma push_at_fs lo fr bs i v :
  nth_error fr i = Some v ->
  push_at (fs lo fr bs) (Z.of_nat i) = Done tt (fs lo (fr ++ [v]) bs).
Proof.
  intros H. unfold push_at. rewrite index_fs, H. unfold push, with_cells, fs. simpl.
  now rewrite app_assoc.
Qed.

Lemma set_nth_app (a : list V) x b y n : n = length a -> set_nth (a ++ x :: b) n y = a ++ y :: b.
Proof. intros ->. induction a; simpl; congruence. Qed.

Lemma swap_fs lo bs a x b y c i j :
  i = length (a ++ x :: b) -> j = length a ->
  swap (fs lo (a ++ x :: b ++ y :: c) bs) (Z.of_nat i) (Z.of_nat j)
  = Done tt (fs lo (a ++ y :: b ++ x :: c) bs).
Proof.
  intros -> ->. unfold swap. rewrite !index_fs.
  replace (a ++ x :: b ++ y :: c) with ((a ++ x :: b) ++ y :: c) by (now rewrite <- app_assoc).
  rewrite nth_error_app2 by lia. rewrite Nat.sub_diag. simpl.
  rewrite <- app_assoc. rewrite nth_error_app2 by lia. rewrite Nat.sub_diag. simpl.
  unfold rel2abs, fs. simpl.
  destruct (Z.leb_spec 0 (Z.of_nat (length (a ++ x :: b)))); [|lia].
  destruct (Z.leb_spec 0 (Z.of_nat (length a))); [|lia].
  unfold with_cells. simpl. f_equal. f_equal.
  replace (lo ++ a ++ x :: b ++ y :: c) with ((lo ++ a ++ x :: b) ++ y :: c)
    by (rewrite <- !app_assoc; reflexivity).
  rewrite set_nth_app by (rewrite !app_length; simpl; rewrite ?app_length; simpl; lia).
  replace ((lo ++ a ++ x :: b) ++ x :: c) with ((lo ++ a) ++ x :: b ++ x :: c)
    by (rewrite <- !app_assoc; reflexivity).
  rewrite set_nth_app by (rewrite !app_length; simpl; lia).
  now rewrite <- app_assoc.
Qed.

Lemma erase_fs_keep lo a b bs :
  (1 <= length b)%nat ->
  erase (fs lo (a ++ b) bs) 0 (- Z.of_nat (length b)) = Done tt (fs lo b bs).
Proof.
  intros H. unfold erase, rel2abs, fs. simpl.
  destruct (Z.leb_spec 0 (- Z.of_nat (length b))); [lia|].
  rewrite !app_length.
  destruct (Z.leb_spec 0 (Z.of_nat (length lo) + 0)); [|lia].
  destruct (Z.leb_spec (Z.of_nat (length lo) + 0)
     (Z.of_nat (length lo + (length a + length b)) + - Z.of_nat (length b))); [|lia].
  destruct (Z.leb_spec (Z.of_nat (length lo + (length a + length b)) + - Z.of_nat (length b))
     (Z.of_nat (length lo + (length a + length b)))); [|lia].
  simpl. unfold with_cells. simpl. f_equal. f_equal.
  replace (Z.to_nat (Z.of_nat (length lo) + 0)) with (length lo + 0)%nat by lia.
  rewrite firstn_app_2. simpl. rewrite app_nil_r.
  replace (Z.to_nat (Z.of_nat (length lo + (length a + length b)) + - Z.of_nat (length b)))
    with (length (lo ++ a)) by (rewrite app_length; lia).
  rewrite (app_assoc lo a b), skipn_app, skipn_all, Nat.sub_diag. reflexivity.
Qed.

(** erase(0, -0) keeps everything *)
Lemma erase_fs_zero lo fr bs : erase (fs lo fr bs) 0 0 = Done tt (fs lo fr bs).
Proof.
  unfold erase, rel2abs, fs. simpl.
  destruct (Z.leb_spec 0 (Z.of_nat (length lo) + 0)); [|lia].
  rewrite Z.leb_refl.
  destruct (Z.leb_spec (Z.of_nat (length lo) + 0) (Z.of_nat (length (lo ++ fr))));
    [|rewrite app_length in *; lia].
  simpl. unfold with_cells. simpl. f_equal. f_equal. apply firstn_skipn.
Qed.

Lemma push_base_fs lo a b bs :
  (1 <= length b)%nat ->
  push_base (fs lo (a ++ b) bs) (- Z.of_nat (length b))
  = Done tt (fs (lo ++ a) b (length lo :: bs)).
Proof.
  intros H. unfold push_base, rel2abs, fs. simpl. rewrite !app_length.
  destruct (Z.leb_spec 0 (- Z.of_nat (length b))); [lia|].
  destruct (Z.leb_spec 0 (Z.of_nat (length lo + (length a + length b)) + - Z.of_nat (length b))); [|lia].
  f_equal. f_equal; [now rewrite app_assoc|]. lia.
Qed.

Lemma size_fs lo fr bs : size (fs lo fr bs) = Z.of_nat (length fr).
Proof. unfold size, fs. simpl. rewrite app_length. lia. Qed.

Lemma frame_fs lo fr bs : frame (fs lo fr bs) = fr.
Proof. unfold frame, fs. simpl. rewrite skipn_app, skipn_all, Nat.sub_diag. reflexivity. Qed.

Lemma below_fs lo fr bs : below (fs lo fr bs) = lo.
Proof.
  unfold below, fs. simpl.
  replace (length lo) with (length lo + 0)%nat by lia.
  rewrite firstn_app_2. simpl. apply app_nil_r.
Qed.

Lemma apply_op_fs lo fr bs f :
  apply_op (fs lo fr bs) f =
  match f fr with
  | ORet fr' k => Done k (fs lo fr' bs)
  | OThrow fr' => Throw (fs lo fr' bs)
  end.
Proof. unfold apply_op. rewrite frame_fs, below_fs. destruct (f fr); reflexivity. Qed.

Definition lastn (m : nat) (l : list V) : list V := skipn (length l - m) l.

(** Complete behaviour of an operator instruction with at least one argument
    and at least one result. *)
Lemma op_instruction_fs f lo pre args bs m :
  (1 <= length args)%nat -> (1 <= m)%nat ->
  op_instruction f (Z.of_nat (length args)) (Z.of_nat m) (fs lo (pre ++ args) bs) =
  match f args with
  | ORet fr k =>
      if ((k =? Z.of_nat m) && (m <=? length fr)%nat)%Z
      then Done tt (fs lo (pre ++ lastn m fr) bs)
      else Throw (fs lo (pre ++ fr) bs)
  | OThrow fr => Throw (fs lo (pre ++ fr) bs)
  end.
Proof.
  intros Ha Hm. unfold op_instruction. rewrite size_fs, app_length.
  destruct (Z.ltb_spec (Z.of_nat (length pre + length args)) (Z.of_nat (length args))); [lia|].
  rewrite push_base_fs by lia. rewrite apply_op_fs.
  assert (Hpop : forall fr, pop_base (fs (lo ++ pre) fr (length lo :: bs)) = fs lo (pre ++ fr) bs).
  { intros. unfold pop_base, fs. simpl. now rewrite app_assoc. }
  destruct (f args) as [fr k|fr]; [|now rewrite Hpop].
  destruct (Z.eqb_spec k (Z.of_nat m)) as [->|Hk]; simpl; [|now rewrite Hpop].
  rewrite size_fs.
  destruct (Nat.leb_spec m (length fr)); destruct (Z.ltb_spec (Z.of_nat (length fr)) (Z.of_nat m)); try lia.
  - assert (Hl : length (skipn (length fr - m) fr) = m) by (rewrite skipn_length; lia).
    pose proof (erase_fs_keep (lo ++ pre) (firstn (length fr - m) fr) (skipn (length fr - m) fr)
                  (length lo :: bs)) as He.
    rewrite firstn_skipn, Hl in He. rewrite He by lia. now rewrite Hpop.
  - now rewrite Hpop.
Qed.

Lemma op_instruction_nullary f lo bs m :
  (1 <= m)%nat ->
  op_instruction f 0 (Z.of_nat m) (fs lo [] bs) =
  match f [] with
  | ORet fr k =>
      if ((k =? Z.of_nat m) && (m <=? length fr)%nat)%Z
      then Done tt (fs lo (lastn m fr) bs)
      else Throw (fs lo fr bs)
  | OThrow fr => Throw (fs lo fr bs)
  end.
Proof.
  intros Hm. unfold op_instruction. rewrite size_fs. simpl.
  assert (Hpb : push_base (fs lo [] bs) 0 = Done tt (fs lo [] (length lo :: bs))).
  { unfold push_base, rel2abs, fs. simpl. rewrite Z.add_0_r, Nat2Z.id.
    destruct (Z.leb_spec 0 (Z.of_nat (length lo))); [reflexivity|lia]. }
  rewrite Hpb, apply_op_fs.
  destruct (f []) as [fr k|fr]; [|reflexivity].
  destruct (Z.eqb_spec k (Z.of_nat m)) as [->|Hk]; simpl; [|reflexivity].
  rewrite size_fs.
  destruct (Nat.leb_spec m (length fr)); destruct (Z.ltb_spec (Z.of_nat (length fr)) (Z.of_nat m)); try lia.
  - assert (Hl : length (skipn (length fr - m) fr) = m) by (rewrite skipn_length; lia).
    pose proof (erase_fs_keep lo (firstn (length fr - m) fr) (skipn (length fr - m) fr)
                  (length lo :: bs)) as He.
    rewrite firstn_skipn, Hl in He. rewrite He by lia. reflexivity.
  - reflexivity.
Qed.

Lemma op_instruction_too_few f lo fr bs n m :
  (length fr < n)%nat ->
  op_instruction f (Z.of_nat n) m (fs lo fr bs) = Throw (fs lo fr bs).
Proof.
  intros H. unfold op_instruction. rewrite size_fs.
  destruct (Z.ltb_spec (Z.of_nat (length fr)) (Z.of_nat n)); [reflexivity|lia].
Qed.

Section WithTensors.
Variable packV : list V -> V.
Variable fieldV : V -> Z -> option V.

Lemma pack_instruction_fs lo pre args bs :
  pack_instruction packV (length args) (fs lo (pre ++ args) bs)
  = Done tt (fs lo (pre ++ [packV args]) bs).
Proof.
  unfold pack_instruction. rewrite size_fs, app_length.
  destruct (Z.ltb_spec (Z.of_nat (length pre + length args)) (Z.of_nat (length args))); [lia|].
  unfold popn, fs. simpl. rewrite !app_length.
  destruct (Nat.ltb_spec (length lo + (length pre + length args)) (length args)); [lia|].
  unfold push, with_cells. simpl. f_equal. f_equal.
  replace (length lo + (length pre + length args) - length args)%nat with (length (lo ++ pre))
    by (rewrite app_length; lia).
  rewrite (app_assoc lo pre args), skipn_app, skipn_all, Nat.sub_diag.
  replace (length (lo ++ pre)) with (length (lo ++ pre) + 0)%nat by lia.
  rewrite firstn_app_2. simpl. rewrite app_nil_r, <- app_assoc. reflexivity.
Qed.

Lemma field_instruction_fs lo pre a bs i v :
  fieldV a i = Some v ->
  field_instruction fieldV i (fs lo (pre ++ [a]) bs) = Done tt (fs lo (pre ++ [v]) bs).
Proof.
  intros H. unfold field_instruction, fs. simpl.
  rewrite (app_assoc lo pre [a]), rev_app_distr. simpl. rewrite H.
  rewrite removelast_last. unfold with_cells. simpl. now rewrite <- app_assoc.
Qed.
End WithTensors.
End StackProofs.
