(** Lemmas about running operators outside programs. *)
From Coq Require Import List ZArith Lia Bool.
From Verif Require Import StackModel StackProofs IntimeModel.
Import ListNotations.

Section IntimeProofs.
Context {V : Type}.
Variable packV : list V -> V.

Lemma push_all_fs (lo fr : list V) bs (l : list V) : push_all (fs lo fr bs) l = fs lo (fr ++ l) bs.
Proof.
  revert fr. induction l as [|x l IH]; intros fr; unfold push_all in *; simpl.
  - now rewrite app_nil_r.
  - replace (push (fs lo fr bs) x) with (fs lo (fr ++ [x]) bs).
    + rewrite IH. now rewrite <- app_assoc.
    + unfold push, with_cells, fs. simpl. now rewrite app_assoc.
Qed.

Lemma clear_fs (lo fr : list V) bs : clear (fs lo fr bs) = Done tt (fs lo [] bs).
Proof.
  unfold clear, erase. rewrite size_fs. unfold rel2abs, fs. simpl.
  destruct (Z.leb_spec 0 (Z.of_nat (length fr))); [|lia].
  rewrite app_length, Nat2Z.inj_add.
  destruct (Z.leb_spec 0 (Z.of_nat (length lo) + 0)); [|lia].
  destruct (Z.leb_spec (Z.of_nat (length lo) + 0) (Z.of_nat (length lo) + Z.of_nat (length fr))); [|lia].
  rewrite Z.leb_refl. simpl. unfold with_cells. simpl. f_equal. f_equal.
  replace (Z.to_nat (Z.of_nat (length lo) + 0)) with (length lo + 0)%nat by lia.
  rewrite firstn_app_2. simpl. rewrite app_nil_r.
  replace (Z.to_nat (Z.of_nat (length lo) + Z.of_nat (length fr))) with (length (lo ++ fr))
    by (rewrite app_length; lia).
  rewrite skipn_all. now rewrite ?app_nil_r.
Qed.

Lemma leave_fs (lo pre fr : list V) bs :
  leave (fs (lo ++ pre) fr (length lo :: bs)) = Done tt (fs lo pre bs).
Proof.
  unfold leave. rewrite clear_fs. unfold pop_base, fs. simpl. now rewrite app_nil_r.
Qed.

Lemma push_base_size_fs (lo fr : list V) bs :
  push_base (fs lo fr bs) (size (fs lo fr bs)) = Done tt (fs (lo ++ fr) [] (length lo :: bs)).
Proof.
  rewrite size_fs. unfold push_base, rel2abs, fs. simpl.
  destruct (Z.leb_spec 0 (Z.of_nat (length fr))); [|lia].
  destruct (Z.leb_spec 0 (Z.of_nat (length lo) + Z.of_nat (length fr))); [|lia].
  f_equal. f_equal.
  - now rewrite app_nil_r.
  - rewrite app_length. lia.
Qed.

(** Running with the whole frame as arguments. *)
Lemma run_operator_whole f (lo args : list V) bs :
  run_operator f (Z.of_nat (length args)) (fs lo args bs) =
  match f args with
  | ORet fr k =>
      if (Z.of_nat (length fr) <? k)%Z then Throw (fs lo fr bs)
      else match erase (fs lo fr (length lo :: bs)) 0 (- k) with
           | Done _ s => Done k (pop_base s)
           | Throw s => Throw (pop_base s)
           | Undef => Undef
           end
  | OThrow fr => Throw (fs lo fr bs)
  end.
Proof.
  unfold run_operator. rewrite size_fs, Z.ltb_irrefl.
  assert (Hpb : push_base (fs lo args bs) (- Z.of_nat (length args)) = Done tt (fs lo args (length lo :: bs))).
  { destruct args as [|a args].
    - unfold push_base, rel2abs, fs. simpl. rewrite Z.add_0_r, Nat2Z.id.
      destruct (Z.leb_spec 0 (Z.of_nat (length lo))); [reflexivity|lia].
    - pose proof (push_base_fs lo [] (a :: args) bs) as H. simpl app in H. rewrite app_nil_r in H.
      apply H. simpl. lia. }
  rewrite Hpb, apply_op_fs. destruct (f args) as [fr k|fr]; [|reflexivity].
  rewrite size_fs. destruct (Z.ltb_spec (Z.of_nat (length fr)) k); reflexivity.
Qed.

Lemma erase_fs_form (lo fr : list V) bs e : (e <= 0)%Z ->
  (exists fr', erase (fs lo fr bs) 0 e = Done tt (fs lo fr' bs)) \/ erase (fs lo fr bs) 0 e = Undef.
Proof.
  intros He. unfold erase, rel2abs, fs. simpl.
  destruct (_ && _ && _)%bool eqn:E; [left|now right].
  apply andb_prop in E as [E E3]. apply andb_prop in E as [E1 E2].
  unfold with_cells. simpl.
  exists (skipn (Z.to_nat (if (0 <=? e)%Z then Z.of_nat (length lo) + e else Z.of_nat (length (lo ++ fr)) + e)) (lo ++ fr)).
  f_equal. f_equal. f_equal.
  replace (Z.to_nat (Z.of_nat (length lo) + 0)) with (length lo + 0)%nat by lia.
  rewrite firstn_app_2. simpl. now rewrite app_nil_r.
Qed.

Lemma run_operator_one f (lo args : list V) bs fr v :
  f args = ORet (fr ++ [v]) 1 ->
  run_operator f (Z.of_nat (length args)) (fs lo args bs) = Done 1%Z (fs lo [v] bs).
Proof.
  intros Hf. rewrite run_operator_whole, Hf. rewrite app_length. simpl.
  destruct (Z.ltb_spec (Z.of_nat (length fr + 1)) 1); [lia|].
  pose proof (erase_fs_keep lo fr [v] (length lo :: bs)) as H'. simpl in H'.
  change (- (1))%Z with (-1)%Z. rewrite H' by lia. reflexivity.
Qed.

(** intime::run on an operator that returns one value, and its failure
    behaviour. *)
Lemma intime_run_one f (input : list V) fr v lo pre bs :
  f input = ORet (fr ++ [v]) 1 ->
  intime_run packV f input (fs lo pre bs) = Done v (fs lo pre bs).
Proof.
  intros Hf. unfold intime_run. rewrite push_base_size_fs. unfold online_run.
  rewrite push_all_fs, size_fs. simpl app.
  rewrite (run_operator_one f _ _ _ fr v Hf). unfold guarded. rewrite frame_fs, leave_fs. reflexivity.
Qed.

Lemma intime_run_throw f (input : list V) fr lo pre bs :
  f input = OThrow fr ->
  intime_run packV f input (fs lo pre bs) = Throw (fs lo pre bs).
Proof.
  intros Hf. unfold intime_run. rewrite push_base_size_fs. unfold online_run.
  rewrite push_all_fs, size_fs. simpl app.
  rewrite run_operator_whole, Hf. unfold guarded. rewrite leave_fs. reflexivity.
Qed.

Lemma offline_run_fs f (input : list V) fr k lo pre bs :
  f input = ORet fr (Z.of_nat k) -> (1 <= k <= length fr)%nat ->
  offline_run f input (fs lo pre bs) = Done (lastn k fr) (fs lo pre bs).
Proof.
  intros Hf Hk. unfold offline_run. rewrite push_base_size_fs, push_all_fs. simpl app.
  rewrite run_operator_whole, Hf.
  destruct (Z.ltb_spec (Z.of_nat (length fr)) (Z.of_nat k)); [lia|].
  assert (Hl : length (skipn (length fr - k) fr) = k) by (rewrite skipn_length; lia).
  pose proof (erase_fs_keep (lo ++ pre) (firstn (length fr - k) fr) (skipn (length fr - k) fr)
                (length (lo ++ pre) :: length lo :: bs)) as He.
  rewrite firstn_skipn, Hl in He. rewrite He by lia.
  assert (Hp : pop_base (fs (lo ++ pre) (skipn (length fr - k) fr) (length (lo ++ pre) :: length lo :: bs))
          = fs (lo ++ pre) (skipn (length fr - k) fr) (length lo :: bs)) by reflexivity.
  rewrite Hp, size_fs, Hl, Z.eqb_refl. unfold guarded. rewrite leave_fs, frame_fs, Nat2Z.id.
  f_equal. unfold lastn. rewrite <- Hl at 1. apply firstn_all.
Qed.

Lemma offline_run_throw f (input : list V) fr lo pre bs :
  f input = OThrow fr -> offline_run f input (fs lo pre bs) = Throw (fs lo pre bs).
Proof.
  intros Hf. unfold offline_run. rewrite push_base_size_fs, push_all_fs. simpl app.
  rewrite run_operator_whole, Hf. unfold guarded. now rewrite leave_fs.
Qed.
End IntimeProofs.
