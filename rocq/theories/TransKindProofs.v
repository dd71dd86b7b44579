(** The half precision rule never changes what existing nodes are. *)
From Coq Require Import List ZArith Bool Lia Arith.
From Verif Require Import StackModel GraphSpec GraphModel CompilerSpec TransModel TransSpec TransRulesModel.
Import ListNotations.

Definition keeps_kinds {V Opr} (r : rule V Opr) : Prop :=
  forall s n flag ap t s', r s n flag = (ap, t, s') ->
  gn s <= gn s' /\ (forall m, m < gn s -> kind (gg s') m = kind (gg s) m).

Section Kinds.
Context {V Opr : Type}.
Definition kk (s s' : gstate V Opr) : Prop :=
  gn s <= gn s' /\ (forall m, m < gn s -> kind (gg s') m = kind (gg s) m).
Lemma kk_refl s : kk s s. Proof. split; auto. Qed.
Lemma kk_trans a b c : kk a b -> kk b c -> kk a c.
Proof. intros [A1 A2] [B1 B2]. split; [lia|]. intros m Hm. rewrite B2, A2; auto; lia. Qed.
Lemma kk_new s k is : kk s (gnew s k is).
Proof. split; cbn [gnew gn gg kind]; [lia|]. intros m Hm. destruct (Nat.eqb_spec m (gn s)); [lia|auto]. Qed.

Lemma kk_rules (rules : list (rule V Opr)) : Forall keeps_kinds rules -> forall s n flag cur t s',
  try_rules rules s n flag cur = (t, s') -> kk s s'.
Proof.
  induction 1 as [|r rs Hr _ IH]; intros s n flag cur t s' E; cbn [try_rules] in E.
  - injection E as <- <-. apply kk_refl.
  - destruct (r s n flag) as [[ap x] s1] eqn:Er. apply Hr in Er.
    destruct ap; [injection E as <- <-; exact Er|]. eapply kk_trans; [exact Er|eauto].
Qed.

Lemma kk_list (rec : node -> tstate V Opr -> tres (node * tstate V Opr)) :
  (forall n st c st', rec n st = TOk (c, st') -> kk (tg st) (tg st')) ->
  forall is st cs st', translate_list rec is st = TOk (cs, st') -> kk (tg st) (tg st').
Proof.
  intros H. induction is as [|i is IH]; intros st cs st' E; cbn [translate_list] in E.
  - injection E as <- <-. apply kk_refl.
  - destruct (rec i st) as [[c st1]|] eqn:E1; [|discriminate].
    destruct (translate_list rec is st1) as [[cs' st2]|] eqn:E2; [|discriminate].
    injection E as <- <-. eapply kk_trans; eauto.
Qed.

Lemma kk_node (rules : list (rule V Opr)) : Forall keeps_kinds rules -> forall fuel flag n st c st',
  translate_node rules fuel flag n st = TOk (c, st') -> kk (tg st) (tg st').
Proof.
  intros HK. induction fuel as [|fuel IH]; intros flag n st c st' E; cbn [translate_node] in E; [discriminate|].
  destruct (lookup (ready st) n); [injection E as <- <-; apply kk_refl|].
  destruct (try_rules rules (tg st) n flag n) as [t s1] eqn:ER. apply kk_rules in ER; auto.
  destruct (translate_list _ _ _) as [[cs st2]|] eqn:EI; [|discriminate].
  apply kk_list in EI; [|intros; eapply IH; eauto]. cbn [tg] in EI.
  destruct (Nat.eqb t n); injection E as <- <-; cbn [tg].
  - eapply kk_trans; [exact ER|]. eapply kk_trans; [exact EI|apply kk_new].
  - eapply kk_trans; [exact ER|]. destruct EI as [A B]. split; auto.
Qed.

Lemma fp16_keeps half cast_to is_to_float mk_cast dtype :
  keeps_kinds (@fp16_rule V Opr half cast_to is_to_float mk_cast dtype).
Proof.
  assert (FI : forall self is s ok xs s', fp16_inputs half cast_to mk_cast dtype self is s ok = (xs, s') -> kk s s').
  { induction is as [|i is IH]; intros s ok xs s' E; cbn [fp16_inputs] in E.
    - injection E as <- <-. apply kk_refl.
    - destruct (stream half cast_to dtype (kind (gg s) i) ok) as [st ok1].
      destruct (if negb st && self && ok1 then _ else _) as [x s1] eqn:E1.
      destruct (fp16_inputs half cast_to mk_cast dtype self is s1 ok1) as [ys s2] eqn:E2.
      injection E as <- <-. apply IH in E2. eapply kk_trans; [|exact E2].
      destruct (negb st && self && ok1); [injection E1 as <- <-; apply kk_new|].
      destruct (st && negb self); injection E1 as <- <-; [apply kk_new|apply kk_refl]. }
  assert (FO : forall s n self ap t s', fp16_op half cast_to mk_cast dtype s n self = (ap, t, s') -> kk s s').
  { intros s n self ap t s' E. unfold fp16_op in E.
    destruct (fp16_inputs half cast_to mk_cast dtype self (ins (gg s) n) s true) as [xs s1] eqn:E1.
    injection E as <- <- <-. eapply kk_trans; [eapply FI; eauto|apply kk_new]. }
  intros s n flag ap t s' E. change (kk s s'). unfold fp16_rule, copy_rule in E.
  destruct (kind (gg s) n); try (injection E as <- <- <-; (apply kk_new || apply kk_refl)); eauto.
  destruct (cast_to o); [injection E as <- <- <-; apply kk_new|].
  destruct (is_to_float o); [injection E as <- <- <-; apply kk_new|].
  destruct (flag && half o); [injection E as <- <- <-; apply kk_new|]. eauto.
Qed.
End Kinds.

