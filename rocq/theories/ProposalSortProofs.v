(** SortProposals ends, stays inside its rows and puts the best first. *)
From Coq Require Import List ZArith Bool QArith Permutation Lia Lqa FinFun.
From Verif Require Import ShapeModel KernelBase KernelProofs ResizeModel NmsModel NmsProofs DetectModel ProposalModel.
Import ListNotations.
Local Open Scope Z_scope.

Section Proofs.
Context {A : Type}.
Variable score : A -> Q.
Definition at_row (l : list A) (i : Z) : option A := nth_error l (Z.to_nat i).
Definition ge (l : list A) (i : Z) (q : Q) : Prop := exists x, at_row l i = Some x /\ (q <= score x)%Q.
Definition le (l : list A) (i : Z) (q : Q) : Prop := exists x, at_row l i = Some x /\ (score x <= q)%Q.
(** only the rows s to e are moved, among themselves *)
Definition moved (s e : Z) (l l' : list A) : Prop :=
  length l' = length l /\ Permutation l l' /\
  (forall i, 0 <= i -> ~ (s <= i <= e) -> at_row l' i = at_row l i) /\
  (forall i, 0 <= i -> s <= i <= e -> exists j, 0 <= j /\ s <= j <= e /\ at_row l' i = at_row l j).

Lemma at_some l i : 0 <= i < Z.of_nat (length l) -> exists x, at_row l i = Some x.
Proof. intros H. unfold at_row. destruct (nth_error l (Z.to_nat i)) eqn:E; [eauto|]. apply nth_error_None in E. lia. Qed.
Lemma load_row l i x : 0 <= i -> at_row l i = Some x -> load l i = SOk x.
Proof. intros H E. apply load_inv. auto. Qed.
Lemma moved_refl s e l : moved s e l l.
Proof. split; [reflexivity|]. split; [apply Permutation_refl|]. split; [reflexivity|]. intros i Hi H. exists i. auto. Qed.
Lemma moved_trans s e l l' l'' : moved s e l l' -> moved s e l' l'' -> moved s e l l''.
Proof.
  intros (L & P & O & I) (L' & P' & O' & I'). split; [congruence|]. split; [now transitivity l'|]. split.
  - intros i Hi H. rewrite O' by assumption. now apply O.
  - intros i Hi H. destruct (I' i Hi H) as (j & Hj & B & E). destruct (I j Hj B) as (k & Hk & B' & E'). exists k. rewrite E. auto.
Qed.
Lemma moved_wider s e s' e' l l' : s' <= s -> e <= e' -> moved s e l l' -> moved s' e' l l'.
Proof.
  intros Hs He (L & P & O & I). split; [exact L|]. split; [exact P|]. split.
  - intros i Hi H. apply O; [exact Hi|lia].
  - intros i Hi H. destruct (Z_le_dec s i); [destruct (Z_le_dec i e)|].
    + destruct (I i Hi) as (j & Hj & B & E); [lia|]. exists j. split; [exact Hj|]. split; [lia|exact E].
    + exists i. split; [exact Hi|]. split; [lia|]. apply O; lia.
    + exists i. split; [exact Hi|]. split; [lia|]. apply O; lia.
Qed.

Lemma swap_perm (l : list A) i j x y : nth_error l i = Some x -> nth_error l j = Some y ->
  let l' := set_nth j x (set_nth i y l) in
  length l' = length l /\ Permutation l l' /\ nth_error l' i = Some y /\ nth_error l' j = Some x /\
  forall k, k <> i -> k <> j -> nth_error l' k = nth_error l k.
Proof.
  intros X Y l'. assert (LI : (i < length l)%nat) by (apply nth_error_Some; congruence). assert (LJ : (j < length l)%nat) by (apply nth_error_Some; congruence).
  assert (LL : length l' = length l) by (unfold l'; now rewrite !set_nth_length).
  assert (J : nth_error l' j = Some x) by (unfold l'; apply set_nth_same; now rewrite set_nth_length).
  assert (I : nth_error l' i = Some y).
  { destruct (Nat.eq_dec i j) as [<-|N]; [rewrite J; congruence|]. unfold l'. rewrite set_nth_other by auto. now apply set_nth_same. }
  assert (K : forall k, k <> i -> k <> j -> nth_error l' k = nth_error l k) by (intros k Ki Kj; unfold l'; now rewrite !set_nth_other by auto).
  split; [exact LL|]. split; [|auto].
  apply Permutation_nth_error. split; [now symmetry|].
  exists (fun k => if Nat.eqb k i then j else if Nat.eqb k j then i else k). split.
  - intros a b. destruct (Nat.eqb_spec a i), (Nat.eqb_spec a j), (Nat.eqb_spec b i), (Nat.eqb_spec b j); lia.
  - intros k. destruct (Nat.eqb_spec k i) as [->|Ni]; [congruence|]. destruct (Nat.eqb_spec k j) as [->|Nj]; [congruence|]. now apply K.
Qed.
Lemma swap_ok l i j : 0 <= i < Z.of_nat (length l) -> 0 <= j < Z.of_nat (length l) ->
  exists l', swap l i j = SOk l' /\ length l' = length l /\ Permutation l l' /\ at_row l' i = at_row l j /\ at_row l' j = at_row l i /\
    forall k, 0 <= k -> k <> i -> k <> j -> at_row l' k = at_row l k.
Proof.
  intros I J. destruct (at_some l i I) as (x & X). destruct (at_some l j J) as (y & Y).
  unfold swap. rewrite (load_row l i x), (load_row l j y) by (tauto || lia). cbn [bind2].
  destruct (swap_perm l (Z.to_nat i) (Z.to_nat j) x y X Y) as (L & P & SI & SJ & K).
  eexists. split; [reflexivity|]. split; [exact L|]. split; [exact P|]. split; [unfold at_row in *; congruence|]. split; [unfold at_row in *; congruence|].
  intros k Hk Ki Kj. apply K; lia.
Qed.
Lemma swap_moved l l' i j s e : 0 <= s -> s <= i <= e -> s <= j <= e -> length l' = length l -> Permutation l l' -> at_row l' i = at_row l j -> at_row l' j = at_row l i ->
  (forall k, 0 <= k -> k <> i -> k <> j -> at_row l' k = at_row l k) -> moved s e l l'.
Proof.
  intros Hs I J L P SI SJ K. split; [exact L|]. split; [exact P|]. split.
  - intros k Hk H. apply K; lia.
  - intros k Hk H. destruct (Z.eq_dec k i) as [->|Ni]; [exists j; split; [lia|]; auto|]. destruct (Z.eq_dec k j) as [->|Nj]; [exists i; split; [lia|]; auto|].
    exists k. auto.
Qed.

Lemma go_up_ok pivot l last : last < Z.of_nat (length l) -> forall f left, 0 <= left -> Z.max 0 (last - left + 1) < Z.of_nat f ->
  exists r, go_up score f l left last pivot = SOk r /\ left <= r /\ (r <= last + 1 \/ r = left) /\
    (forall i, left <= i < r -> ge l i pivot) /\ (r <= last -> exists x, at_row l r = Some x /\ (score x < pivot)%Q).
Proof.
  intros HL. induction f as [|f IH]; intros left H0 HF; [cbn in HF; lia|]. cbn [go_up].
  destruct (Z.leb_spec left last) as [C|C].
  - destruct (at_some l left) as (x & X); [lia|]. rewrite (load_row l left x H0 X). cbn [bind2]. destruct (Qle_bool pivot (score x)) eqn:E.
    + apply Qle_bool_iff in E. destruct (IH (left + 1)) as (r & R & B & C' & G & S); [lia|lia|]. exists r. split; [exact R|]. split; [lia|]. split; [lia|]. split; [|exact S].
      intros i Hi. destruct (Z.eq_dec i left) as [->|]; [exists x; auto|apply G; lia].
    + exists left. split; [reflexivity|]. split; [lia|]. split; [lia|]. split; [intros; lia|]. intros _. exists x. split; [exact X|].
      apply Qnot_le_lt. intros Q. apply Qle_bool_iff in Q. congruence.
  - exists left. split; [reflexivity|]. split; [lia|]. split; [lia|]. split; intros; lia.
Qed.
Lemma go_down_ok pivot l start : 0 <= start -> forall f right, start <= right < Z.of_nat (length l) -> right - start < Z.of_nat f ->
  exists r, go_down score f l start right pivot = SOk r /\ start <= r <= right /\
    (forall i, r < i <= right -> le l i pivot) /\ (start < r -> exists x, at_row l r = Some x /\ (pivot < score x)%Q).
Proof.
  intros HS. induction f as [|f IH]; intros right H0 HF; [cbn in HF; lia|]. cbn [go_down].
  destruct (Z.ltb_spec start right) as [C|C].
  - destruct (at_some l right) as (x & X); [lia|]. rewrite (load_row l right x) by (lia || exact X). cbn [bind2]. destruct (Qle_bool (score x) pivot) eqn:E.
    + apply Qle_bool_iff in E. destruct (IH (right - 1)) as (r & R & B & G & S); [lia|lia|]. exists r. split; [exact R|]. split; [lia|]. split; [|exact S].
      intros i Hi. destruct (Z.eq_dec i right) as [->|]; [exists x; auto|apply G; lia].
    + exists right. split; [reflexivity|]. split; [lia|]. split; [intros; lia|]. intros _. exists x. split; [exact X|].
      apply Qnot_le_lt. intros Q. apply Qle_bool_iff in Q. congruence.
  - exists right. split; [reflexivity|]. split; [lia|]. split; intros; lia.
Qed.
Lemma partition_ok pivot start last : 0 <= start -> forall f l left right, last < Z.of_nat (length l) -> start + 1 <= left -> start <= right <= last ->
  Z.max 0 (right - left + 1) < Z.of_nat f ->
  (forall i, start < i < left -> i <= last -> ge l i pivot) -> (forall i, right < i <= last -> le l i pivot) ->
  exists l' r, partition score f l start last left right pivot = SOk (l', r) /\ moved (start + 1) last l l' /\ start <= r <= last /\
    (forall i, start < i <= r -> ge l' i pivot) /\ (forall i, r < i <= last -> le l' i pivot).
Proof.
  intros HS. induction f as [|f IH]; intros l left right HL HB HR HF G S; [cbn in HF; lia|]. cbn [partition].
  destruct (Z.leb_spec left right) as [C|C].
  - destruct (go_up_ok pivot l last HL (Datatypes.S (length l)) left) as (a & EA & A1 & A2 & GA & SA); [lia|lia|]. rewrite EA. cbn [bind2].
    destruct (go_down_ok pivot l start HS (Datatypes.S (length l)) right) as (b & EB & B1 & SB & GB); [lia|lia|]. rewrite EB. cbn [bind2].
    assert (GE : forall i, start < i < a -> i <= last -> ge l i pivot).
    { intros i Hi Hl. destruct (Z_lt_dec i left); [apply G; lia|apply GA; lia]. }
    assert (LE : forall i, b < i <= last -> le l i pivot).
    { intros i Hi. destruct (Z_le_dec i right); [apply SB; lia|apply S; lia]. }
    destruct (Z.leb_spec a b) as [D|D].
    + destruct (swap_ok l a b) as (m & EM & L & P & SI & SJ & K); [lia|lia|]. rewrite EM. cbn [bind2].
      destruct SA as (x & X & SX); [lia|]. destruct GB as (y & Y & GY); [lia|].
      destruct (IH m (a + 1) (b - 1)) as (l' & r & E & M & R & U & V); [lia|lia|lia|lia| | |].
      * intros i Hi Hl. destruct (Z.eq_dec i a) as [->|N].
        -- exists y. rewrite SI. split; [exact Y|lra].
        -- destruct (Z.eq_dec i b) as [->|N2]; [lia|]. destruct (GE i) as (z & Z1 & Z2); [lia|lia|]. exists z. rewrite K by lia. auto.
      * intros i Hi. destruct (Z.eq_dec i b) as [->|N].
        -- exists x. rewrite SJ. split; [exact X|lra].
        -- destruct (LE i) as (z & Z1 & Z2); [lia|]. exists z. rewrite K by lia. auto.
      * exists l', r. split; [exact E|]. split; [|auto]. apply moved_trans with m; [|exact M]. apply swap_moved with a b; auto; lia.
    + destruct (IH l a b) as (l' & r & E & M & R & U & V); [lia|lia|lia|lia|exact GE|exact LE|]. exists l', r. auto.
  - exists l, right. split; [reflexivity|]. split; [apply moved_refl|]. split; [lia|]. split; [intros i Hi; apply G; lia|exact S].
Qed.
Lemma moved_ge s e l l' p q : moved s e l l' -> 0 <= s -> (forall i, s <= i <= e -> ge l i q) -> 0 <= p -> s <= p <= e -> ge l' p q.
Proof. intros (_ & _ & _ & I) Hs G Hp B. destruct (I p Hp B) as (j & Hj & Bj & E). destruct (G j Bj) as (x & X & Q). exists x. rewrite E. auto. Qed.
Lemma moved_le s e l l' p q : moved s e l l' -> 0 <= s -> (forall i, s <= i <= e -> le l i q) -> 0 <= p -> s <= p <= e -> le l' p q.
Proof. intros (_ & _ & _ & I) Hs G Hp B. destruct (I p Hp B) as (j & Hj & Bj & E). destruct (G j Bj) as (x & X & Q). exists x. rewrite E. auto. Qed.
Lemma moved_out s e l l' p : moved s e l l' -> 0 <= p -> ~ (s <= p <= e) -> at_row l' p = at_row l p.
Proof. intros (_ & _ & O & _). apply O. Qed.
Lemma moved_length s e l l' : moved s e l l' -> length l' = length l.
Proof. now intros (L & _). Qed.

Definition before (l : list A) (i j : Z) : Prop := exists x y, at_row l i = Some x /\ at_row l j = Some y /\ (score y <= score x)%Q.
Lemma sort_ok top : forall f l start last, 0 <= start <= last -> last < Z.of_nat (length l) -> last - start < Z.of_nat f ->
  exists l', sort_proposals score f l start last top = SOk l' /\ moved start last l l' /\
    forall i j, start <= i < j -> j <= last -> i < top -> before l' i j.
Proof.
  induction f as [|f IH]; intros l start last HS HL HF; [cbn in HF; lia|]. cbn [sort_proposals].
  destruct (at_some l start) as (p & P); [lia|]. rewrite (load_row l start p) by (lia || exact P). cbn [bind2].
  destruct (partition_ok (score p) start last ltac:(lia) (Datatypes.S (length l)) l (start + 1) last) as (l1 & r & E1 & M1 & R & GE & LE); [lia|lia|lia|lia|intros; lia|intros; lia|].
  rewrite E1. cbn [bind2 fst snd]. pose proof (moved_length _ _ _ _ M1) as L1.
  assert (P1 : at_row l1 start = Some p) by (rewrite <- P; apply (moved_out _ _ _ _ _ M1); lia).
  assert (X : exists l2, (if start <? r then swap l1 start r else SOk l1) = SOk l2 /\ moved start last l1 l2 /\ at_row l2 r = Some p /\
     (forall i, start <= i < r -> ge l2 i (score p)) /\ (forall i, r < i <= last -> le l2 i (score p))).
  { destruct (Z.ltb_spec start r) as [C|C].
    - destruct (swap_ok l1 start r) as (l2 & E2 & L2 & PM & SI & SJ & K); [lia|lia|]. exists l2. split; [exact E2|].
      split; [apply swap_moved with start r; auto; lia|]. split; [congruence|]. split.
      + intros i Hi. destruct (Z.eq_dec i start) as [->|N].
        * destruct (GE r) as (x & X & Q); [lia|]. exists x. split; [congruence|exact Q].
        * destruct (GE i) as (x & X & Q); [lia|]. exists x. rewrite K by lia. auto.
      + intros i Hi. destruct (LE i Hi) as (x & X & Q). exists x. rewrite K by lia. auto.
    - exists l1. split; [reflexivity|]. split; [apply moved_refl|]. assert (r = start) as -> by lia. split; [exact P1|]. split; [intros; lia|exact LE]. }
  destruct X as (l2 & E2 & M2 & P2 & GE2 & LE2). rewrite E2. cbn [bind2]. pose proof (moved_length _ _ _ _ M2) as L2.
  assert (X : exists l3, (if start <? r - 1 then sort_proposals score f l2 start (r - 1) top else SOk l2) = SOk l3 /\ moved start (r - 1) l2 l3 /\
     forall i j, start <= i < j -> j <= r - 1 -> i < top -> before l3 i j).
  { destruct (Z.ltb_spec start (r - 1)) as [C|C].
    - destruct (IH l2 start (r - 1)) as (l3 & E3 & M3 & B3); [lia|lia|lia|]. exists l3. auto.
    - exists l2. split; [reflexivity|]. split; [apply moved_refl|]. intros; lia. }
  destruct X as (l3 & E3 & M3 & B3). rewrite E3. cbn [bind2]. pose proof (moved_length _ _ _ _ M3) as L3.
  assert (X : exists l4, (if (r + 1 <? top) && (r + 1 <? last) then sort_proposals score f l3 (r + 1) last top else SOk l3) = SOk l4 /\ moved (r + 1) last l3 l4 /\
     forall i j, r + 1 <= i < j -> j <= last -> i < top -> before l4 i j).
  { destruct (Z.ltb_spec (r + 1) top) as [C|C]; [destruct (Z.ltb_spec (r + 1) last) as [C'|C']|]; cbn [andb].
    - destruct (IH l3 (r + 1) last) as (l4 & E4 & M4 & B4); [lia|lia|lia|]. exists l4. auto.
    - exists l3. split; [reflexivity|]. split; [apply moved_refl|]. intros; lia.
    - exists l3. split; [reflexivity|]. split; [apply moved_refl|]. intros; lia. }
  destruct X as (l4 & E4 & M4 & B4). exists l4. split; [exact E4|]. split.
  - apply moved_trans with l1; [apply (moved_wider (start + 1) last); [lia|lia|exact M1]|]. apply moved_trans with l2; [exact M2|].
    apply moved_trans with l3; [apply (moved_wider start (r - 1)); [lia|lia|exact M3]|]. apply (moved_wider (r + 1) last); [lia|lia|exact M4].
  - assert (LOW : forall i, start <= i < r -> ge l4 i (score p)).
    { intros i Hi. destruct (moved_ge start (r - 1) l2 l3 i (score p) M3) as (x & X & Q); [lia|intros k Hk; apply GE2; lia|lia|lia|].
      exists x. rewrite (moved_out _ _ _ _ i M4) by lia. auto. }
    assert (MID : at_row l4 r = Some p) by (rewrite (moved_out _ _ _ _ r M4), (moved_out _ _ _ _ r M3) by lia; exact P2).
    assert (HIGH : forall i, r < i <= last -> le l4 i (score p)).
    { intros i Hi. apply (moved_le (r + 1) last l3 l4 i (score p) M4); [lia| |lia|lia]. intros k Hk.
      destruct (LE2 k) as (x & X & Q); [lia|]. exists x. rewrite (moved_out _ _ _ _ k M3) by lia. auto. }
    intros i j Hi Hj Ht. destruct (Z_lt_dec j r) as [J|J].
    + destruct (B3 i j) as (x & y & X & Y & Q); [lia|lia|lia|]. exists x, y. rewrite !(moved_out _ _ _ _ _ M4) by lia. auto.
    + destruct (Z_lt_dec i r) as [I|I].
      * destruct (LOW i) as (x & X & Q); [lia|]. destruct (Z.eq_dec j r) as [->|N]; [exists x, p; auto|].
        destruct (HIGH j) as (y & Y & Q'); [lia|]. exists x, y. split; [exact X|]. split; [exact Y|lra].
      * destruct (Z.eq_dec i r) as [->|N].
        -- destruct (HIGH j) as (y & Y & Q'); [lia|]. exists p, y. auto.
        -- apply B4; lia.
Qed.
End Proofs.
