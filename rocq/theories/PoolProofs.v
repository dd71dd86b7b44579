(** Proofs about the thread pool. *)
From Coq Require Import List Bool Arith Lia.
From Verif Require Import PoolModel.
From Verif Require Export PoolSpec.
Import ListNotations.

Fixpoint sum {A} (f : A -> nat) (l : list A) : nat :=
  match l with [] => 0 | x :: r => f x + sum f r end.

Definition b2n (b : bool) : nat := if b then 1 else 0.

Lemma sum_upd {A} (f : A -> nat) x : forall l i y, nth_error l i = Some y ->
  sum f (upd l i x) + f y = sum f l + f x.
Proof.
  induction l as [|z l IH]; intros [|i] y H; try discriminate H; simpl in *.
  - injection H as ->. lia.
  - specialize (IH i y H). lia.
Qed.

Lemma upd_length {A} (l : list A) i x : length (upd l i x) = length l.
Proof. revert i. induction l as [|y l IH]; intros [|i]; simpl; auto. Qed.

Lemma upd_nth_same {A} (l : list A) : forall i x y, nth_error l i = Some y ->
  nth_error (upd l i x) i = Some x.
Proof. induction l as [|z l IH]; intros [|i] x y H; try discriminate H; simpl in *; eauto. Qed.

Lemma upd_nth_other {A} (l : list A) : forall i j x, i <> j -> nth_error (upd l i x) j = nth_error l j.
Proof. induction l as [|z l IH]; intros [|i] [|j] x H; simpl; auto; try lia. Qed.

Lemma In_upd {A} (l : list A) : forall i x y, In y (upd l i x) -> y = x \/ In y l.
Proof.
  induction l as [|z l IH]; intros [|i] x y H; simpl in *; auto; intuition.
  destruct (IH _ _ _ H0); auto.
Qed.

Lemma upd_eq_nil {A} (l : list A) i x : upd l i x = [] -> l = [].
Proof. destruct l, i; simpl; congruence. Qed.

Lemma sum_ext {A} (f g : A -> nat) l : (forall x, f x = g x) -> sum f l = sum g l.
Proof. intros H. induction l; simpl; auto. Qed.

Lemma sum_map {A B} (f : B -> nat) (g : A -> B) l : sum f (map g l) = sum (fun x => f (g x)) l.
Proof. induction l; simpl; auto. Qed.

Lemma sum_nth {A} (f : A -> nat) l i x : nth_error l i = Some x -> f x <= sum f l.
Proof. revert i. induction l as [|y l IH]; intros [|i] H; try discriminate H; simpl in *;
  [injection H as ->; lia | specialize (IH i H); lia]. Qed.

Lemma sum_pos {A} (f : A -> nat) l : 0 < sum f l -> exists i x, nth_error l i = Some x /\ 0 < f x.
Proof.
  induction l as [|y l IH]; simpl; intros H; [lia|].
  destruct (f y) eqn:E.
  - destruct IH as (i & x & Hi & Hx); [lia|]. exists (S i), x. auto.
  - exists 0, y. simpl. split; [reflexivity|lia].
Qed.

(** *** Observations *)
Definition occ (p : event -> bool) (h : list event) : nat := length (filter p h).
Lemma occ_snoc p h e : occ p (h ++ [e]) = occ p h + b2n (p e).
Proof. unfold occ. rewrite filter_app, app_length. simpl. destruct (p e); simpl; lia. Qed.

(** *** Invariant *)
Definition is_handing (k : nat) (c : client) : nat := match c with Handing k' _ => b2n (k =? k') | _ => 0 end.
Definition is_pending (t : nat) (c : client) : nat :=
  match c with
  | Loading t' | LoadBlocked t' | Handing _ t' | Inline t' => b2n (t =? t')
  | _ => 0
  end.
Definition is_inline (t : nat) (c : client) : nat := match c with Inline t' => b2n (t =? t') | _ => 0 end.
Definition assigned (w : worker) : nat :=
  match task w, pc w with None, _ => 0 | Some _, Recycled => 0 | Some _, _ => 1 end.
Definition to_execute (t : nat) (w : worker) : nat :=
  match task w, pc w with
  | Some t', (Asleep | Awake | Executing) => b2n (t =? t')
  | _, _ => 0
  end.
Definition at_worker (f : worker -> nat) (c : config) (k : nat) : nat :=
  match nth_error (workers c) k with Some w => f w | None => 0 end.
Definition occ_nat (k : nat) (l : list nat) : nat := sum (fun x => b2n (k =? x)) l.

Definition worker_ok (w : worker) : Prop :=
  match pc w, task w with
  | Asleep, Some _ => False
  | (Executing | Executed | Recycled), None => False
  | _, _ => True
  end.

Record inv (h : list event) (c : config) : Prop := mkInv {
  i_token : forall k, occ_nat k (idle c) + sum (is_handing k) (clients c) + at_worker assigned c k
                      = b2n (k <? length (workers c));
  i_worker : forall w, In w (workers c) -> worker_ok w;
  i_load : forall t, In (LoadBlocked t) (clients c) -> idle c = [] /\ workers c <> [];
  i_join : In JoinBlocked (clients c) -> length (idle c) <> length (workers c);
  i_tjoin : forall k, In (ThreadJoining k) (clients c) \/ In (ThreadJoinBlocked k) (clients c) ->
            k < length (workers c);
  i_tjoinb : forall k w, In (ThreadJoinBlocked k) (clients c) -> nth_error (workers c) k = Some w ->
            task w <> None;
  i_calls : forall t, occ (is_call t) h = sum (is_pending t) (clients c) + occ (is_return t) h;
  i_exec : forall t, occ (is_return t) h + sum (is_inline t) (clients c)
                     = occ (is_execute t) h + sum (to_execute t) (workers c);
  i_exec_at : forall k t, occ (is_return_at k t) h + (if k =? 0 then sum (is_inline t) (clients c) else 0)
                     = occ (is_execute_at k t) h + at_worker (to_execute t) c k
}.

Lemma occ_nat_in k l : 0 < occ_nat k l <-> In k l.
Proof.
  unfold occ_nat. induction l as [|x l IH]; simpl; [lia|].
  destruct (Nat.eqb_spec k x); simpl; split; intros H; auto; try lia.
  - right. apply IH. lia.
  - destruct H as [H|H]; [congruence|]. apply IH in H. lia.
Qed.

Lemma occ_nat_nodup l : (forall k, occ_nat k l <= 1) -> NoDup l.
Proof.
  induction l as [|x l IH]; intros H; constructor.
  - intros Hin. apply occ_nat_in in Hin. specialize (H x). unfold occ_nat in *. simpl in H.
    rewrite Nat.eqb_refl in H. simpl in H. lia.
  - apply IH. intros k. specialize (H k). unfold occ_nat in *. simpl in H. lia.
Qed.

Lemma idle_nodup h c : inv h c -> NoDup (idle c) /\ (forall k, In k (idle c) -> k < length (workers c)).
Proof.
  intros I. split.
  - apply occ_nat_nodup. intros k. pose proof (i_token _ _ I k) as H.
    destruct (k <? length (workers c)); simpl in H; lia.
  - intros k Hk. apply occ_nat_in in Hk. pose proof (i_token _ _ I k) as H.
    destruct (Nat.ltb_spec k (length (workers c))); [assumption|]. simpl in H. lia.
Qed.

Lemma idle_length h c : inv h c -> length (idle c) <= length (workers c).
Proof.
  intros I. destruct (idle_nodup _ _ I) as [H1 H2].
  rewrite <- (seq_length (length (workers c)) 0). apply NoDup_incl_length; [exact H1|].
  intros k Hk. apply in_seq. specialize (H2 k Hk). lia.
Qed.

Lemma idle_full h c : inv h c -> length (idle c) = length (workers c) ->
  forall k, k < length (workers c) -> In k (idle c).
Proof.
  intros I HL k Hk. destruct (idle_nodup _ _ I) as [H1 H2].
  apply (NoDup_length_incl H1 (l' := seq 0 (length (workers c)))).
  - rewrite seq_length. lia.
  - intros x Hx. apply in_seq. specialize (H2 x Hx). lia.
  - apply in_seq. lia.
Qed.

(** a full idle list: nothing is assigned *)
Lemma full_unassigned h c : inv h c -> length (idle c) = length (workers c) ->
  forall k w, nth_error (workers c) k = Some w -> assigned w = 0.
Proof.
  intros I HL k w Hw. assert (Hk : k < length (workers c)) by (apply nth_error_Some; congruence).
  pose proof (idle_full _ _ I HL k Hk) as Hin. apply occ_nat_in in Hin.
  pose proof (i_token _ _ I k) as H. unfold at_worker in H. rewrite Hw in H.
  apply Nat.ltb_lt in Hk. rewrite Hk in H. simpl in H. lia.
Qed.

Lemma unassigned_done w t : assigned w = 0 -> to_execute t w = 0.
Proof. destruct w as [[x|] p]; unfold assigned, to_execute; destruct p; simpl; intros; try reflexivity; lia. Qed.

Lemma sum_zero {A} (f : A -> nat) l : (forall i x, nth_error l i = Some x -> f x = 0) -> sum f l = 0.
Proof.
  induction l as [|y l IH]; simpl; intros H; [reflexivity|].
  rewrite (H 0 y eq_refl), IH; [reflexivity|]. intros i x Hi. exact (H (S i) x Hi).
Qed.

Lemma repeat_nth {A} (x y : A) n i : nth_error (repeat x n) i = Some y -> y = x.
Proof. intros H. apply nth_error_In in H. apply repeat_spec in H. exact H. Qed.

Lemma occ_nat_seq k n : forall s, occ_nat k (seq s n) = b2n ((s <=? k) && (k <? s + n)).
Proof.
  unfold occ_nat. induction n as [|n IH]; intros s; simpl.
  - destruct (Nat.leb_spec s k), (Nat.ltb_spec k (s + 0)); simpl; lia.
  - rewrite IH. destruct (Nat.eqb_spec k s), (Nat.leb_spec (S s) k), (Nat.leb_spec s k),
      (Nat.ltb_spec k (S s + n)), (Nat.ltb_spec k (s + S n)); simpl; lia.
Qed.

Lemma inv_initial n m : inv [] (initial n m).
Proof.
  assert (HW : forall f, f (mkW None Awake) = 0 -> forall k, at_worker f (initial n m) k = 0).
  { intros f Hf k. unfold at_worker. simpl. destruct (nth_error (repeat _ n) k) eqn:E; [|reflexivity].
    apply repeat_nth in E. congruence. }
  assert (HC : forall f, f Free = 0 -> sum f (clients (initial n m)) = 0).
  { intros f Hf. apply sum_zero. intros i x Hx. apply repeat_nth in Hx. congruence. }
  assert (HN : forall x, In x (clients (initial n m)) -> x = Free).
  { intros x Hx. apply repeat_spec in Hx. exact Hx. }
  constructor.
  - intros k. rewrite HC by reflexivity. rewrite HW by reflexivity. simpl.
    rewrite occ_nat_seq, repeat_length. simpl. lia.
  - intros w Hw. apply repeat_spec in Hw. subst. exact I.
  - intros t Ht. apply HN in Ht. discriminate.
  - intros Ht. apply HN in Ht. discriminate.
  - intros k [Ht|Ht]; apply HN in Ht; discriminate.
  - intros k w Ht. apply HN in Ht. discriminate.
  - intros t. rewrite HC by reflexivity. reflexivity.
  - intros t. rewrite HC by reflexivity. simpl. symmetry. apply sum_zero.
    intros i x Hx. apply repeat_nth in Hx. subst. reflexivity.
  - intros k t. rewrite HC by reflexivity. rewrite HW by reflexivity. destruct (k =? 0); reflexivity.
Qed.

Lemma at_worker_upd f c k w x il cl j : nth_error (workers c) k = Some w ->
  at_worker f (mkConfig il (upd (workers c) k x) cl) j = if j =? k then f x else at_worker f c j.
Proof.
  intros H. unfold at_worker. simpl. destruct (Nat.eqb_spec j k) as [->|Hne].
  - rewrite (upd_nth_same _ _ _ _ H). reflexivity.
  - rewrite upd_nth_other by congruence. reflexivity.
Qed.

Lemma sum_wake_pool (f : client -> nat) l :
  (forall t, f (LoadBlocked t) = f (Loading t)) -> f JoinBlocked = f Joining ->
  sum f (wake_pool l) = sum f l.
Proof. intros H1 H2. unfold wake_pool. rewrite sum_map. apply sum_ext. intros []; auto. Qed.

Lemma sum_wake_thread (f : client -> nat) k l :
  (forall k, f (ThreadJoinBlocked k) = f (ThreadJoining k)) ->
  sum f (wake_thread k l) = sum f l.
Proof.
  intros H1. unfold wake_thread. rewrite sum_map. apply sum_ext. intros []; auto.
  destruct (_ =? _); auto.
Qed.

Lemma In_wake_pool x l : In x (wake_pool l) ->
  (forall t, x <> LoadBlocked t) /\ x <> JoinBlocked /\
  (In x l \/ (exists t, x = Loading t) \/ x = Joining).
Proof.
  unfold wake_pool. rewrite in_map_iff. intros (y & Hy & Hin).
  destruct y; subst x; (split; [intros; discriminate|]); (split; [discriminate|]); eauto.
Qed.

Lemma In_wake_thread x k l : In x (wake_thread k l) ->
  x <> ThreadJoinBlocked k /\ (In x l \/ (x = ThreadJoining k /\ In (ThreadJoinBlocked k) l)).
Proof.
  unfold wake_thread. rewrite in_map_iff. intros (y & Hy & Hin).
  destruct y; subst x; try (split; [discriminate|left; assumption]).
  destruct (Nat.eqb_spec k k0) as [<-|Hne].
  - split; [discriminate|right; auto].
  - split; [congruence|left; assumption].
Qed.

(** a step of client [i] alone that does not change [idle]'s length or the workers *)
Lemma client_step h e c i x y il :
  nth_error (clients c) i = Some x ->
  inv h c ->
  (forall k, occ_nat k il + is_handing k y = occ_nat k (idle c) + is_handing k x) ->
  length il <= length (idle c) ->
  (forall t, y = LoadBlocked t -> il = [] /\ workers c <> []) ->
  (y = JoinBlocked -> length il <> length (workers c)) ->
  (forall k, y = ThreadJoining k \/ y = ThreadJoinBlocked k -> k < length (workers c)) ->
  (forall k w, y = ThreadJoinBlocked k -> nth_error (workers c) k = Some w -> task w <> None) ->
  (forall t, b2n (is_call t e) + is_pending t x = is_pending t y + b2n (is_return t e)) ->
  (forall t, b2n (is_return t e) + is_inline t y = b2n (is_execute t e) + is_inline t x) ->
  (forall k t, b2n (is_return_at k t e) + (if k =? 0 then is_inline t y else 0)
      = b2n (is_execute_at k t e) + (if k =? 0 then is_inline t x else 0)) ->
  inv (h ++ [e]) (mkConfig il (workers c) (upd (clients c) i y)).
Proof.
  intros Hx I Htok Hlen HLB HJB HTJ HTJB Hcall Hexec Hexecat.
  pose proof (idle_length _ _ I) as Hil.
  destruct I as [I1 I2 I3 I4 I5 I6 I7 I8 I9].
  constructor; cbn [idle workers clients].
  - intros k. pose proof (sum_upd (is_handing k) y _ _ _ Hx). specialize (Htok k). specialize (I1 k).
    change (at_worker assigned (mkConfig il (workers c) (upd (clients c) i y)) k) with (at_worker assigned c k). lia.
  - exact I2.
  - intros t Ht. apply In_upd in Ht. destruct Ht as [Ht|Ht]; [eauto|].
    destruct (I3 t Ht) as [E ?]. rewrite E in Hlen. simpl in Hlen. split; [|assumption].
    destruct il; [reflexivity|simpl in Hlen; lia].
  - intros Ht. apply In_upd in Ht. destruct Ht as [Ht|Ht]; [auto|]. specialize (I4 Ht). lia.
  - intros k Ht. destruct Ht as [Ht|Ht]; apply In_upd in Ht; destruct Ht as [Ht|Ht]; eauto.
  - intros k w Ht. apply In_upd in Ht. destruct Ht as [Ht|Ht]; eauto.
  - intros t. rewrite !occ_snoc. pose proof (sum_upd (is_pending t) y _ _ _ Hx).
    specialize (Hcall t). specialize (I7 t). lia.
  - intros t. rewrite !occ_snoc. pose proof (sum_upd (is_inline t) y _ _ _ Hx).
    specialize (Hexec t). specialize (I8 t). lia.
  - intros k t. rewrite !occ_snoc. pose proof (sum_upd (is_inline t) y _ _ _ Hx).
    specialize (Hexecat k t). specialize (I9 k t).
    change (at_worker (to_execute t) (mkConfig il (workers c) (upd (clients c) i y)) k)
      with (at_worker (to_execute t) c k).
    destruct (k =? 0); lia.
Qed.

(** a step of worker [k] alone *)
Lemma worker_step h e c k w x :
  nth_error (workers c) k = Some w ->
  inv h c ->
  assigned x = assigned w -> worker_ok x ->
  (task x = None -> task w = None) ->
  (forall t, is_call t e = false /\ is_return t e = false /\
             to_execute t w = b2n (is_execute t e) + to_execute t x) ->
  (forall k' t, is_return_at k' t e = false /\
             b2n (is_execute_at k' t e) = if k' =? k then b2n (is_execute t e) else 0) ->
  inv (h ++ [e]) (mkConfig (idle c) (upd (workers c) k x) (clients c)).
Proof.
  intros Hw I Ha Hok Htask He He2.
  destruct I as [I1 I2 I3 I4 I5 I6 I7 I8 I9].
  constructor; cbn [idle workers clients]; rewrite ?upd_length.
  - intros j. rewrite (at_worker_upd assigned c k w x _ _ j Hw). specialize (I1 j).
    destruct (Nat.eqb_spec j k) as [->|]; [|exact I1].
    unfold at_worker in I1. rewrite Hw in I1. rewrite Ha. exact I1.
  - intros w' Hw'. apply In_upd in Hw'. destruct Hw' as [->|]; auto.
  - intros t Ht. destruct (I3 t Ht) as [E1 E2]. split; [exact E1|].
    intros E. apply E2. eapply upd_eq_nil; eauto.
  - exact I4.
  - exact I5.
  - intros k' w' Ht Hn. destruct (Nat.eq_dec k k') as [<-|Hne].
    + rewrite (upd_nth_same _ _ _ _ Hw) in Hn. injection Hn as <-.
      specialize (I6 k w Ht Hw). intros E. apply I6. auto.
    + rewrite upd_nth_other in Hn by exact Hne. eauto.
  - intros t. rewrite !occ_snoc. destruct (He t) as (E1 & E2 & _). rewrite E1, E2. simpl.
    specialize (I7 t). lia.
  - intros t. rewrite !occ_snoc. destruct (He t) as (E1 & E2 & E3). rewrite E2. simpl.
    specialize (I8 t). pose proof (sum_upd (to_execute t) x _ _ _ Hw). lia.
  - intros k' t. rewrite !occ_snoc. destruct (He2 k' t) as (E1 & E2). rewrite E1, E2.
    rewrite (at_worker_upd (to_execute t) c k w x _ _ k' Hw). specialize (I9 k' t).
    destruct (He t) as (_ & _ & E3).
    destruct (Nat.eqb_spec k' k) as [->|]; simpl; [|lia].
    unfold at_worker in I9. rewrite Hw in I9. lia.
Qed.

Ltac client :=
  eapply client_step; eauto; try (intros; discriminate); try (intros; simpl; lia);
  try (let k := fresh in let H := fresh in intros k H; destruct H; discriminate);
  try (let k := fresh in let t := fresh in intros k t; simpl;
       destruct (Nat.eqb_spec k 0) as [->|]; simpl; lia).

Lemma step_inv h c e c' : step c e c' -> inv h c -> inv (h ++ [e]) c'.
Proof.
  intros Hs. destruct Hs as
    [c i t Hx|c i Hx|c i k Hx Hk|c i t Hx Hn|c i t Hx|c i t Hx Hn Hi|c i t k r Hx Hn Hi
    |c i k t w Hx Hw Hm|c i Hx Hl|c i Hx Hl|c i k w Hx Hw Hm Ht|c i k w t Hx Hw Hm Ht
    |c k w Hw Hp Ht|c k w t Hw Hp Ht|c k w t Hw Hp Ht|c k w Hw Hp|c k w Hw Hp
    |c k w Hw Hp|c i t Hx|c i Hx|c i k Hx]; intros I.
  - client.
  - client.
  - client. intros k' H. destruct H; congruence.
  - (* inline *)
    client.
  - client.
  - client.
  - (* load *)
    client.
    { intros k'. rewrite Hi. unfold occ_nat. simpl. lia. }
    { rewrite Hi. simpl. lia. }
  - (* hand *)
    pose proof I as I'. destruct I' as [I1 I2 I3 I4 I5 I6 I7 I8 I9].
    assert (Hk : k < length (workers c)) by (apply nth_error_Some; congruence).
    assert (Htask : task w = None).
    { pose proof (I1 k) as H. unfold at_worker in H. rewrite Hw in H.
      pose proof (sum_nth (is_handing k) _ _ _ Hx) as Hh. simpl in Hh. rewrite Nat.eqb_refl in Hh. simpl in Hh.
      apply Nat.ltb_lt in Hk. rewrite Hk in H. simpl in H.
      assert (Ha : assigned w = 0) by lia. unfold assigned in Ha. unfold holds_mutex in Hm.
      destruct (task w); [|reflexivity]. destruct (pc w); simpl in *; try discriminate; lia. }
    set (x := mkW (Some t) (wake_worker (pc w))).
    assert (Hxa : assigned x = 1).
    { unfold x, assigned, wake_worker, holds_mutex in *. simpl. destruct (pc w); simpl in *; auto; discriminate. }
    assert (Hwa : assigned w = 0) by (unfold assigned; rewrite Htask; reflexivity).
    assert (Hwt : forall t', to_execute t' w = 0) by (intros; unfold to_execute; rewrite Htask; reflexivity).
    assert (Hxt : forall t', to_execute t' x = b2n (t' =? t)).
    { intros t'. unfold x, to_execute, wake_worker, holds_mutex in *. simpl. destruct (pc w); simpl in *; auto; discriminate. }
    constructor; cbn [idle workers clients]; rewrite ?upd_length.
    + intros j. rewrite (at_worker_upd assigned c k w x _ _ j Hw). rewrite sum_wake_thread by reflexivity.
      pose proof (sum_upd (is_handing j) Free _ _ _ Hx) as Hh. simpl in Hh. specialize (I1 j).
      unfold at_worker in I1.
      destruct (Nat.eqb_spec j k) as [->|]; simpl in Hh; [|unfold at_worker; lia].
      rewrite Hw in I1. lia.
    + intros w' Hw'. apply In_upd in Hw'. destruct Hw' as [->|]; auto.
      unfold x, worker_ok, wake_worker, holds_mutex in *. simpl. destruct (pc w); simpl in *; auto; discriminate.
    + intros t' Ht'. apply In_wake_thread in Ht'. destruct Ht' as [_ [Ht'|[Ht' _]]]; [|discriminate].
      apply In_upd in Ht'. destruct Ht' as [Ht'|Ht']; [discriminate|].
      destruct (I3 t' Ht') as [E1 E2]. split; [exact E1|]. intros E. apply E2. eapply upd_eq_nil; eauto.
    + intros Ht'. apply In_wake_thread in Ht'. destruct Ht' as [_ [Ht'|[Ht' _]]]; [|discriminate].
      apply In_upd in Ht'. destruct Ht' as [Ht'|Ht']; [discriminate|auto].
    + intros k' Ht'. destruct Ht' as [Ht'|Ht']; apply In_wake_thread in Ht';
        destruct Ht' as [_ [Ht'|[Ht' _]]]; try discriminate Ht'.
      * apply In_upd in Ht'. destruct Ht' as [Ht'|Ht']; [discriminate|eauto].
      * injection Ht' as ->. exact Hk.
      * apply In_upd in Ht'. destruct Ht' as [Ht'|Ht']; [discriminate|eauto].
    + intros k' w' Ht' Hn. apply In_wake_thread in Ht'. destruct Ht' as [Hne [Ht'|[Ht' _]]]; [|discriminate].
      apply In_upd in Ht'. destruct Ht' as [Ht'|Ht']; [discriminate|].
      rewrite upd_nth_other in Hn by congruence. eauto.
    + intros t'. rewrite !occ_snoc. rewrite sum_wake_thread by reflexivity.
      pose proof (sum_upd (is_pending t') Free _ _ _ Hx) as Hh. simpl in *. specialize (I7 t'). lia.
    + intros t'. rewrite !occ_snoc. rewrite sum_wake_thread by reflexivity.
      pose proof (sum_upd (is_inline t') Free _ _ _ Hx) as Hh. simpl in *. specialize (I8 t').
      pose proof (sum_upd (to_execute t') x _ _ _ Hw) as Hh2. rewrite Hwt, Hxt in Hh2. lia.
    + intros k' t'. rewrite !occ_snoc. rewrite sum_wake_thread by reflexivity.
      pose proof (sum_upd (is_inline t') Free _ _ _ Hx) as Hh. simpl in *. specialize (I9 k' t').
      rewrite (at_worker_upd (to_execute t') c k w x _ _ k' Hw). rewrite Hxt.
      unfold at_worker in *.
      destruct (Nat.eqb_spec k' k) as [->|]; simpl; [rewrite Hw, Hwt in I9|]; destruct (_ =? 0); lia.
  - client.
  - client.
  - client.
  - client.
    { intros k' H. eapply i_tjoin; eauto. destruct H as [H|H]; [discriminate|].
      left. injection H as <-. eapply nth_error_In; eauto. }
    { intros k' w' H Hn. injection H as <-. congruence. }
  - (* sleep *)
    eapply worker_step; eauto.
    + unfold assigned. simpl. rewrite Ht. reflexivity.
    + exact Logic.I.
    + intros t. split; [reflexivity|]. split; [reflexivity|]. unfold to_execute. simpl. rewrite Ht. reflexivity.
    + intros k' t. split; [reflexivity|]. simpl. destruct (_ =? _); reflexivity.
  - eapply worker_step; eauto.
    + unfold assigned. simpl. rewrite Ht, Hp. reflexivity.
    + exact Logic.I.
    + simpl. discriminate.
    + intros t'. split; [reflexivity|]. split; [reflexivity|]. unfold to_execute. simpl. rewrite Ht, Hp. reflexivity.
    + intros k' t'. split; [reflexivity|]. simpl. destruct (_ =? _); reflexivity.
  - eapply worker_step; eauto.
    + unfold assigned. simpl. rewrite Ht, Hp. reflexivity.
    + exact Logic.I.
    + simpl. discriminate.
    + intros t'. split; [reflexivity|]. split; [reflexivity|]. unfold to_execute. simpl. rewrite Ht, Hp. lia.
    + intros k' t'. split; [reflexivity|]. simpl. destruct (_ =? _); reflexivity.
  - (* recycle *)
    pose proof (idle_length _ _ I) as Hil0.
    destruct I as [I1 I2 I3 I4 I5 I6 I7 I8 I9].
    assert (Hk : k < length (workers c)) by (apply nth_error_Some; congruence).
    assert (exists t, task w = Some t) as [t Ht].
    { pose proof (I2 w (nth_error_In _ _ Hw)) as H. unfold worker_ok in H. rewrite Hp in H.
      destruct (task w); [eauto|destruct H]. }
    set (x := mkW (task w) Recycled).
    assert (Hxt : forall t', to_execute t' x = to_execute t' w).
    { intros. unfold x, to_execute. simpl. rewrite Ht, Hp. reflexivity. }
    constructor; cbn [idle workers clients]; rewrite ?upd_length.
    + intros j. rewrite (at_worker_upd assigned c k w x _ _ j Hw).
      rewrite sum_wake_pool by (intros; reflexivity). specialize (I1 j). unfold at_worker in I1.
      unfold occ_nat in *. simpl. destruct (Nat.eqb_spec j k) as [->|]; simpl; [|unfold at_worker; lia].
      rewrite Hw in I1. unfold x, assigned in *. simpl. rewrite Ht, Hp in *. lia.
    + intros w' Hw'. apply In_upd in Hw'. destruct Hw' as [->|]; auto.
      unfold x, worker_ok. simpl. rewrite Ht. exact Logic.I.
    + intros t' Ht'. apply In_wake_pool in Ht'. destruct Ht' as [H _]. exfalso. exact (H t' eq_refl).
    + intros Ht'. apply In_wake_pool in Ht'. destruct Ht' as [_ [H _]]. exfalso. exact (H eq_refl).
    + intros k' Ht'. apply I5. destruct Ht' as [Ht'|Ht']; apply In_wake_pool in Ht';
        destruct Ht' as (_ & _ & [H|[[t' H]|H]]); try discriminate; auto.
    + intros k' w' Ht' Hn. apply In_wake_pool in Ht'. destruct Ht' as (_ & _ & [H|[[t' H]|H]]); try discriminate.
      destruct (Nat.eq_dec k k') as [<-|Hne].
      * rewrite (upd_nth_same _ _ _ _ Hw) in Hn. injection Hn as <-. simpl. congruence.
      * rewrite upd_nth_other in Hn by exact Hne. eauto.
    + intros t'. rewrite !occ_snoc. rewrite sum_wake_pool by (intros; reflexivity). simpl. specialize (I7 t'). lia.
    + intros t'. rewrite !occ_snoc. rewrite sum_wake_pool by (intros; reflexivity). simpl. specialize (I8 t').
      pose proof (sum_upd (to_execute t') x _ _ _ Hw) as Hh2. rewrite Hxt in Hh2. lia.
    + intros k' t'. rewrite !occ_snoc. rewrite sum_wake_pool by (intros; reflexivity). simpl. specialize (I9 k' t').
      rewrite (at_worker_upd (to_execute t') c k w x _ _ k' Hw). rewrite Hxt. unfold at_worker in *.
      destruct (Nat.eqb_spec k' k) as [->|]; [rewrite Hw in I9|]; lia.
  - (* clear *)
    destruct I as [I1 I2 I3 I4 I5 I6 I7 I8 I9].
    assert (Hk : k < length (workers c)) by (apply nth_error_Some; congruence).
    set (x := mkW None Asleep).
    assert (Hxt : forall t', to_execute t' w = 0).
    { intros. unfold to_execute. rewrite Hp. destruct (task w); reflexivity. }
    assert (Hxa : assigned w = 0).
    { unfold assigned. rewrite Hp. destruct (task w); reflexivity. }
    constructor; cbn [idle workers clients]; rewrite ?upd_length.
    + intros j. rewrite (at_worker_upd assigned c k w x _ _ j Hw).
      rewrite sum_wake_thread by (intros; reflexivity). specialize (I1 j). unfold at_worker in I1.
      destruct (Nat.eqb_spec j k) as [->|]; simpl; [|unfold at_worker; lia].
      rewrite Hw in I1. simpl. unfold x, assigned in *; simpl in *. lia.
    + intros w' Hw'. apply In_upd in Hw'. destruct Hw' as [->|]; auto. exact Logic.I.
    + intros t' Ht'. apply In_wake_thread in Ht'. destruct Ht' as [_ [Ht'|[Ht' _]]]; [|discriminate].
      destruct (I3 t' Ht') as [E1 E2]. split; [exact E1|]. intros E. apply E2. eapply upd_eq_nil; eauto.
    + intros Ht'. apply In_wake_thread in Ht'. destruct Ht' as [_ [Ht'|[Ht' _]]]; [|discriminate]. auto.
    + intros k' Ht'. destruct Ht' as [Ht'|Ht']; apply In_wake_thread in Ht';
        destruct Ht' as [_ [Ht'|[Ht' _]]]; try discriminate Ht'; eauto.
      injection Ht' as ->. exact Hk.
    + intros k' w' Ht' Hn. apply In_wake_thread in Ht'. destruct Ht' as [Hne [Ht'|[Ht' _]]]; [|discriminate].
      rewrite upd_nth_other in Hn by congruence. eauto.
    + intros t'. rewrite !occ_snoc. rewrite sum_wake_thread by (intros; reflexivity). simpl. specialize (I7 t'). lia.
    + intros t'. rewrite !occ_snoc. rewrite sum_wake_thread by (intros; reflexivity). simpl. specialize (I8 t').
      pose proof (sum_upd (to_execute t') x _ _ _ Hw) as Hh2. rewrite Hxt in Hh2. simpl in Hh2. unfold x in *.
      unfold to_execute in Hh2 at 3. simpl in Hh2. lia.
    + intros k' t'. rewrite !occ_snoc. rewrite sum_wake_thread by (intros; reflexivity). simpl. specialize (I9 k' t').
      rewrite (at_worker_upd (to_execute t') c k w x _ _ k' Hw). unfold at_worker in *.
      destruct (Nat.eqb_spec k' k) as [->|]; [rewrite Hw, Hxt in I9; unfold x, to_execute; simpl|]; lia.
  - (* spurious worker *)
    assert (Ht : task w = None).
    { pose proof (i_worker _ _ I w (nth_error_In _ _ Hw)) as H. unfold worker_ok in H. rewrite Hp in H.
      destruct (task w); [destruct H|reflexivity]. }
    eapply worker_step; eauto.
    + unfold assigned. simpl. rewrite Ht. reflexivity.
    + rewrite Ht. exact Logic.I.
    + intros t. split; [reflexivity|]. split; [reflexivity|]. unfold to_execute. simpl. rewrite Ht. reflexivity.
    + intros k' t. split; [reflexivity|]. simpl. destruct (_ =? _); reflexivity.
  - client.
  - client.
  - client.
    { intros k' H. eapply i_tjoin; eauto. destruct H as [H|H]; [|discriminate].
      right. injection H as <-. eapply nth_error_In; eauto. }
Qed.
