(** Packed tensors refine lists of plain tensors. *)
From Coq Require Import List ZArith Bool Lia Arith.
From Verif Require Import TensorModel TensorSpec.
Import ListNotations.

Section TensorProofs.
Context {S0 : Type}.
Variable empty : S0.

(** the calls of the model for plain tensors *)
Definition concrete (c : lcall S0) : tcall S0 :=
  match c with
  | LPack l => TPack (map simple l)
  | LSet o v => TSet o (simple v)
  | LRefield n => TRefield n
  end.

Definition represents (t : tensor S0) (l : list S0) : Prop := unpack t = map simple l.

Lemma update_split {A} (l : list A) i v : i < length l -> update l i v = firstn i l ++ v :: skipn (S i) l.
Proof.
  revert i. induction l as [|x l IH]; intros [|i] Hi; simpl in *; try lia; auto.
  f_equal. apply IH. lia.
Qed.

Lemma represents_inv t l : represents t l -> exists h r, l = h :: r /\ t = T h (map simple r).
Proof.
  unfold represents, unpack. destruct t as [h f]. simpl. destruct l as [|x r]; [discriminate|].
  simpl. intros H. injection H as -> ->. eauto.
Qed.

Lemma slot_case n o : 
  (exists i, slot n o = Some i /\ i < n /\ (if (0 <=? o)%Z then o else (Z.of_nat n + o)%Z) = Z.of_nat i) \/
  (slot n o = None /\ ((if (0 <=? o)%Z then o else (Z.of_nat n + o)%Z) < 0 \/
                       Z.of_nat n <= (if (0 <=? o)%Z then o else (Z.of_nat n + o)%Z))%Z).
Proof.
  unfold slot. destruct (Z.ltb_spec o 0); destruct (Z.leb_spec 0 o); try lia.
  - destruct (Z.ltb_spec (Z.of_nat n + o) 0); simpl; [right; split; auto; lia|].
    destruct (Z.leb_spec (Z.of_nat n) (Z.of_nat n + o)); simpl; [right; split; auto; lia|].
    left. exists (Z.to_nat (Z.of_nat n + o)). split; auto. lia.
  - destruct (Z.ltb_spec o 0); simpl; [right; split; auto; lia|].
    destruct (Z.leb_spec (Z.of_nat n) o); simpl; [right; split; auto; lia|].
    left. exists (Z.to_nat o). split; auto. lia.
Qed.

Lemma field_ok t l o : represents t l ->
  field t o = match slot (length l) o with
              | Some i => match nth_error l i with Some h => Some (simple h) | None => None end
              | None => None
              end.
Proof.
  intros H. apply represents_inv in H as (h & r & -> & ->). unfold field, fields_count. simpl t_fields. simpl t_head.
  rewrite map_length. change (S (length r)) with (length (h :: r)).
  destruct (slot_case (length (h :: r)) o) as [(i & -> & Hi & ->)|[-> Ho]].
  - destruct (Z.eqb_spec (Z.of_nat i) 0).
    + destruct i; [reflexivity|lia].
    + destruct i as [|i]; [lia|]. destruct (Z.ltb_spec (Z.of_nat (S i)) 0); [lia|].
      rewrite Nat2Z.id. simpl. rewrite Nat.sub_0_r. rewrite nth_error_map. now destruct (nth_error r i).
  - set (x := if (0 <=? o)%Z then o else (Z.of_nat (length (h :: r)) + o)%Z) in *.
    destruct (Z.eqb_spec x 0); [simpl in Ho; lia|]. destruct (Z.ltb_spec x 0); auto.
    apply nth_error_None. rewrite map_length. simpl in *. lia.
Qed.

Lemma step_ok t l c : represents t l -> (forall l', c = LPack l' -> l' <> []) ->
  represents (tstep empty t (concrete c)) (lstep empty l c).
Proof.
  intros H Hc. apply represents_inv in H as (h & r & -> & ->).
  destruct c as [l'|o v|n]; simpl concrete.
  - destruct l' as [|x l']; [now destruct (Hc [] eq_refl)|]. reflexivity.
  - unfold tstep, set_field, fields_count, lstep. simpl t_fields. simpl t_head.
    rewrite map_length. change (S (length r)) with (length (h :: r)).
    destruct (slot_case (length (h :: r)) o) as [(i & -> & Hi & ->)|[-> Ho]].
    + destruct (Z.eqb_spec (Z.of_nat i) 0).
      * destruct i; [reflexivity|lia].
      * destruct i as [|i]; [lia|]. destruct (Z.ltb_spec (Z.of_nat (S i)) 0); [lia|].
        rewrite Nat2Z.id. simpl in Hi. simpl. rewrite Nat.sub_0_r.
        destruct (Nat.ltb_spec i (length r)); [|lia].
        unfold represents, unpack. simpl. f_equal.
        rewrite update_split by (rewrite map_length; lia).
        rewrite map_app, firstn_map. cbn [map]. rewrite skipn_map. reflexivity.
    + set (x := if (0 <=? o)%Z then o else (Z.of_nat (length (h :: r)) + o)%Z) in *.
      destruct (Z.eqb_spec x 0); [simpl in Ho; lia|]. destruct (Z.ltb_spec x 0); [reflexivity|].
      destruct (Nat.ltb_spec (Z.to_nat x - 1) (length r)); [simpl in Ho; lia|reflexivity].
  - destruct n as [|n]; [reflexivity|]. unfold represents, unpack. simpl. f_equal.
    rewrite map_app, firstn_map, map_length. f_equal.
    induction (n - length r); simpl; auto. now f_equal.
Qed.

Lemma run_ok h : forall t l, represents t l -> Forall (fun c => forall l', c = LPack l' -> l' <> []) h ->
  represents (trun empty t (map concrete h)) (lrun empty l h).
Proof.
  induction h as [|c h IH]; intros t l H Hh; auto. inversion Hh; subst. simpl.
  apply IH; auto. now apply step_ok.
Qed.
End TensorProofs.
