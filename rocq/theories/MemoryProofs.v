(** Proofs about HardMemory and the pattern fill. *)
From Coq Require Import ZArith List Bool Arith Lia Permutation.
From Verif Require Import VatModel VatSpec VatProofs VatProofs2 MemoryModel MemsetModel MemorySpec.
Import ListNotations.

Section Hard.
Local Open Scope Z_scope.

(** the block of the memory is one of those handed out *)
Definition owns (h : hard) (led : list region) : Prop :=
  (h_data h = 0 /\ h_cap h = 0) \/ (0 < h_data h /\ 0 < h_cap h /\ In (h_data h, h_cap h) led).

Fixpoint ledger (c : calls) (led : list region) : list region :=
  match c with [] => led | (o, a) :: r => ledger r (next_ledger led o a) end.
Lemma ledger_app a b led : ledger (a ++ b) led = ledger b (ledger a led).
Proof. revert led. induction a as [|[o r] a IH]; intros led; cbn; auto. Qed.

(** freeing a handed out block succeeds *)
Lemma free_done w led ptr n : inv w -> led_ok w led -> In (ptr, n) led ->
  exists w', step w (Free ptr) = Some (Done, w') /\ inv w' /\ led_ok w' (next_ledger led (Free ptr) Done).
Proof.
  intros I L Hin. destruct (step_spec w led (Free ptr) I L Logic.I) as (a & w' & E & I' & L').
  assert (a = Done); [|subst; eauto]. destruct L as [L1 _].
  apply (Permutation_in _ (Permutation_sym L1)) in Hin. apply in_map_iff in Hin.
  destruct Hin as ([k p] & Ee & Hp). unfold entry in Ee. cbn [fst snd] in Ee. assert (k = ptr) by congruence. subst k.
  cbn [step] in E. destruct (ptr =? 0); [congruence|].
  destruct (lookup (dict (pool w)) ptr) eqn:El; [|exfalso; exact (lookup_none _ _ El p Hp)].
  assert (F : forall v b, finish Done (pots (pool w)) v (live w) = Some (a, b) -> a = Done).
  { intros v b Hf. apply finish_pool in Hf. apply Hf. }
  destruct (is_deprecated (pool w)); [eapply F; eauto|].
  destruct (binary_find _ _) as [i|]; [|discriminate]. destruct (_ || _); [discriminate|]. eapply F; eauto.
Qed.

Lemma free_null w : step w (Free 0) = Some (Done, w).
Proof. reflexivity. Qed.

Lemma malloc_ptr w led n a : inv w -> led_ok w led -> asks w (Malloc n (Some a)) -> 0 < n ->
  exists p w', step w (Malloc n (Some a)) = Some (Ptr p, w') /\ inv w' /\ led_ok w' ((p, n) :: led) /\ 0 < p.
Proof.
  intros I L A Hn. assert (Hn0 : n <> 0) by lia.
  destruct (step_spec w led (Malloc n (Some a)) I L A) as (r & w' & E & I' & L').
  destruct (malloc_spec w n (Some a) I A Hn0) as (r2 & w2 & E2 & I2 & C & (p & h & Ep & Eh & _)).
  rewrite E in E2. assert (r2 = r /\ w2 = w') as [-> ->] by (split; congruence).
  destruct C as [(-> & _)|(p' & -> & Hu & Hc & Ed)].
  - exfalso. rewrite (malloc_step _ _ _ _ _ Hn0 Ep) in E. unfold pot_malloc in E.
    destruct (n >? cap p); apply finish_pool in E; destruct E; discriminate.
  - exists (data p'), w'. split; [exact E|]. split; [exact I'|]. cbn [next_ledger] in L'.
    destruct (Z.eqb_spec n 0); [lia|]. split; [exact L'|].
    apply (i_pos w' I'). eapply dict_pots. rewrite Ed. now left.
Qed.

Lemma next_malloc led n sys p : n <> 0 -> next_ledger led (Malloc n sys) (Ptr p) = (p, n) :: led.
Proof. intros H. cbn [next_ledger]. destruct (Z.eqb_spec n 0); [contradiction|reflexivity]. Qed.

Lemma managed_spec w h n sys led msz : inv w -> led_ok w led -> owns h led -> answers w h n sys ->
  msz = 0 \/ (msz = h_cap h) ->
  exists c r w', managed w n (h_data h) msz sys = Some (c, r, w') /\ inv w' /\ led_ok w' (ledger c led) /\
    match r with
    | Some p => owns (mkHard p n) (ledger c led)
    | None => c = [] /\ w' = w
    end.
Proof.
  intros I L O (Hn & a & -> & Ha) Hm. unfold managed.
  destruct (Z.eqb_spec n 0) as [->|Hn0]; [|assert (Hn1 : 0 < n) by lia].
  - destruct O as [(Hd & Hc)|(Hd & Hc & Hin)].
    + rewrite Hd, free_null. exists [(Free 0, Done)], (Some 0), w. split; [reflexivity|]. split; [exact I|]. cbn [ledger].
      destruct (step_spec w led (Free 0) I L Logic.I) as (r & w' & E & I' & L'). rewrite free_null in E.
      assert (r = Done /\ w' = w) as [-> ->] by (split; congruence). split; [exact L'|]. left. auto.
    + destruct (free_done w led _ _ I L Hin) as (w' & -> & I' & L').
      exists [(Free (h_data h), Done)], (Some 0), w'. split; [reflexivity|]. split; [exact I'|]. split; [exact L'|]. left. auto.
  - destruct O as [(Hd & Hc)|(Hd & Hc & Hin)].
    + rewrite Hd in *. change (negb (0 =? 0)) with false. cbv iota.
      destruct (malloc_ptr w led n a I L (Ha _ _ (free_null w)) Hn1) as (p & w' & -> & I' & L' & Hp).
      exists [(Malloc n (Some a), Ptr p)], (Some p), w'. split; [reflexivity|]. split; [exact I'|].
      cbn [ledger next_ledger]. destruct (Z.eqb_spec n 0); [lia|]. split; [exact L'|]. right. cbn [h_data h_cap].
      split; [exact Hp|]. split; [lia|]. now left.
    + destruct (Z.eqb_spec (h_data h) 0); [lia|]. cbn [negb].
      destruct (Z.ltb_spec 0 msz).
      { exists [], None, w. auto. }
      destruct (free_done w led _ _ I L Hin) as (w1 & E1 & I1 & L1). rewrite E1.
      destruct (malloc_ptr w1 _ n a I1 L1 (Ha _ _ E1) Hn1) as (p & w' & -> & I' & L' & Hp).
      exists [(Free (h_data h), Done); (Malloc n (Some a), Ptr p)], (Some p), w'. split; [reflexivity|]. split; [exact I'|].
      cbn [ledger]. rewrite next_malloc by exact Hn0. split; [exact L'|]. right. cbn [h_data h_cap].
      split; [exact Hp|]. split; [lia|]. now left.
Qed.

Lemma mem_step_spec w h o led : inv w -> led_ok w led -> owns h led -> good_call w h o ->
  exists c b h' w', mem_step w h o = Some (c, b, h', w') /\ inv w' /\ led_ok w' (ledger c led) /\ owns h' (ledger c led).
Proof.
  intros I L O G. destruct o as [[n sys|n sys|n sys|]|o]; cbn [mem_step hard_step].
  - destruct (negb (n =? h_cap h)).
    + destruct (managed_spec w h n sys led 0 I L O G) as (c & r & w' & -> & I' & L' & C); [now left|].
      destruct r as [p|]; cbn [assign].
      * exists c, true, (mkHard p n), w'. auto.
      * destruct C as [-> ->]. exists [], false, h, w. auto.
    + exists [], true, h, w. auto.
  - destruct (h_cap h <? n).
    + destruct (managed_spec w h n sys led (h_cap h) I L O G) as (c & r & w' & -> & I' & L' & C); [now right|].
      destruct r as [p|]; cbn [assign].
      * exists c, true, (mkHard p n), w'. auto.
      * destruct C as [-> ->]. exists [], false, h, w. auto.
    + exists [], true, h, w. auto.
  - destruct (n <? h_cap h).
    + destruct (managed_spec w h n sys led (h_cap h) I L O G) as (c & r & w' & -> & I' & L' & C); [now right|].
      destruct r as [p|]; cbn [assign].
      * exists c, true, (mkHard p n), w'. auto.
      * destruct C as [-> ->]. exists [], false, h, w. auto.
    + exists [], true, h, w. auto.
  - destruct G.
  - assert (A : asks w o) by (destruct o; cbn in *; auto).
    destruct (step_spec w led o I L A) as (a & w' & E & I' & L'). rewrite E.
    eexists _, _, _, _. split; [reflexivity|]. split; [exact I'|]. split; [exact L'|]. cbn [ledger].
    destruct O as [O|(Hd & Hc & Hin)]; [now left|]. right. split; [exact Hd|]. split; [exact Hc|].
    destruct o as [n sys|p| | | |]; cbn [next_ledger]; cbn in G; try contradiction; auto.
    + destruct a; auto. destruct (n =? 0); [auto|now right].
    + destruct a; auto. apply filter_In. split; [exact Hin|]. cbn [fst].
      destruct (Z.eqb_spec (h_data h) p); [lia|reflexivity].
Qed.

Lemma mem_steps_spec l : forall w h led, inv w -> led_ok w led -> owns h led -> good_history w h l ->
  exists c bs h' w', mem_steps w h l = Some (c, bs, h', w') /\ inv w' /\ led_ok w' (ledger c led) /\ owns h' (ledger c led).
Proof.
  induction l as [|o l IH]; intros w h led I L O G.
  - exists [], [], h, w. auto.
  - destruct G as [G1 G2]. destruct (mem_step_spec w h o led I L O G1) as (c & b & h1 & w1 & E & I1 & L1 & O1).
    rewrite E in G2. destruct (IH w1 h1 _ I1 L1 O1 G2) as (cs & bs & h2 & w2 & E2 & I2 & L2 & O2).
    cbn [mem_steps]. rewrite E, E2. exists (c ++ cs), (b :: bs), h2, w2. rewrite ledger_app. auto.
Qed.

Lemma destroy_ok w h led : inv w -> led_ok w led -> owns h led -> exists w', destroy w h = Some (true, w').
Proof.
  intros I L O. unfold destroy, managed. change (0 =? 0) with true. cbv iota.
  destruct O as [(-> & _)|(_ & _ & Hin)].
  - rewrite free_null. eexists. reflexivity.
  - destruct (free_done w led _ _ I L Hin) as (w' & -> & _). eexists. reflexivity.
Qed.
End Hard.

(** *** The pattern fill *)
Section Memset.
Context {byte : Type}.
Variable x0 : byte.

Lemma nth_skipn' (l : list byte) n i : nth i (skipn n l) x0 = nth (n + i) l x0.
Proof.
  revert n. induction l as [|x l IH]; intros [|n]; cbn; auto. now destruct i.
Qed.
Lemma nth_firstn' (l : list byte) n i : i < n -> nth i (firstn n l) x0 = nth i l x0.
Proof.
  revert n i. induction l as [|x l IH]; intros [|n] [|i] H; cbn; auto; try lia. apply IH. lia.
Qed.

Lemma copy_within_spec (d : list byte) n k : k <= n -> n + k <= length d ->
  exists d', copy_within d n k = Some d' /\ length d' = length d /\
    forall i, nth i d' x0 = if (n <=? i) && (i <? n + k) then nth (i - n) d x0 else nth i d x0.
Proof.
  intros H1 H2. unfold copy_within.
  destruct (Nat.leb_spec (n + k) (length d)); [|lia]. destruct (Nat.leb_spec k n); [|lia]. cbn [andb].
  eexists. split; [reflexivity|]. split.
  - rewrite !app_length, !firstn_length, skipn_length. lia.
  - intros i. destruct (Nat.leb_spec n i) as [Hi|Hi]; cbn [andb].
    + rewrite app_nth2 by (rewrite firstn_length; lia). rewrite firstn_length.
      replace (i - Nat.min n (length d)) with (i - n) by lia.
      destruct (Nat.ltb_spec i (n + k)) as [Hk|Hk].
      * rewrite app_nth1 by (rewrite firstn_length; lia). apply nth_firstn'. lia.
      * rewrite app_nth2 by (rewrite firstn_length; lia). rewrite firstn_length, nth_skipn'. f_equal. lia.
    + rewrite app_nth1 by (rewrite firstn_length; lia). apply nth_firstn'. lia.
Qed.

Variable src : list byte.
Hypothesis src_pos : 0 < length src.
Definition repeats (d : list byte) (k : nat) : Prop :=
  forall i, i < k -> i < length d -> nth i d x0 = nth (i mod length src) src x0.

Lemma fill_loop_spec fuel : forall d n, 0 < n -> n mod length src = 0 -> repeats d n -> length d < n + fuel ->
  0 < fuel -> exists d', fill_loop fuel d n = Filled d' /\ length d' = length d /\ repeats d' (length d).
Proof.
  induction fuel as [|k IH]; intros d n Hn Hm R Hf H0; [lia|]. cbn [fill_loop].
  assert (Hdiv : 2 * (length d / 2) <= length d) by (apply Nat.mul_div_le; lia).
  assert (Hdiv2 : length d < 2 * (length d / 2) + 2).
  { pose proof (Nat.div_mod (length d) 2 ltac:(lia)). pose proof (Nat.mod_upper_bound (length d) 2 ltac:(lia)). lia. }
  assert (M : forall i, n <= i -> (i - n) mod length src = i mod length src).
  { intros i Hi. apply Nat.mod_divides in Hm; [|lia]. destruct Hm as (c & Hc).
    replace i with ((i - n) + c * length src) at 2 by lia. now rewrite Nat.mod_add by lia. }
  destruct (Nat.leb_spec n (length d / 2)) as [H|H].
  - destruct (copy_within_spec d n n) as (d' & -> & L & S); [lia|lia|].
    destruct (IH d' (2 * n)) as (d2 & E & L2 & R2); try lia.
    + rewrite <- Nat.mul_mod_idemp_r, Hm, Nat.mul_0_r by lia. apply Nat.mod_0_l. lia.
    + intros i Hi Hl. rewrite S. destruct (Nat.leb_spec n i); cbn [andb].
      * destruct (Nat.ltb_spec i (n + n)); [|lia]. rewrite R by lia. f_equal. apply M. lia.
      * apply R; lia.
    + exists d2. rewrite L in L2, R2. auto.
  - destruct (Nat.ltb_spec n (length d)) as [H1|H1].
    + destruct (copy_within_spec d n (length d - n)) as (d' & -> & L & S); [lia|lia|].
      exists d'. split; [reflexivity|]. split; [exact L|]. intros i Hi Hl. rewrite S.
      destruct (Nat.leb_spec n i); cbn [andb].
      * destruct (Nat.ltb_spec i (n + (length d - n))); [|lia]. rewrite R by lia. f_equal. apply M. lia.
      * apply R; lia.
    + exists d. split; [reflexivity|]. split; [reflexivity|]. intros i Hi Hl. apply R; lia.
Qed.

Lemma memset_spec dst : exists d, memset (length dst + 1) dst src = Filled d /\ length d = length dst /\
  forall i, i < length dst -> nth i d x0 = nth (i mod length src) src x0.
Proof.
  unfold memset. set (n := Nat.min (length dst) (length src)). set (d0 := firstn n src ++ skipn n dst).
  assert (L0 : length d0 = length dst) by (unfold d0; rewrite app_length, firstn_length, skipn_length; lia).
  destruct (fill_loop_spec (length dst + 1) d0 (length src)) as (d & E & L & R); try lia.
  - apply Nat.mod_same. lia.
  - intros i Hi Hl. rewrite Nat.mod_small by lia. unfold d0. rewrite app_nth1 by (rewrite firstn_length; lia).
    apply nth_firstn'. lia.
  - exists d. split; [exact E|]. split; [congruence|]. intros i Hi. apply R; lia.
Qed.

Lemma fill_fuel fuel : forall (d : list byte) n (d' : list byte), fill_loop fuel d n = Filled d' -> forall k, fill_loop (fuel + k) d n = Filled d'.
Proof.
  induction fuel as [|f IH]; intros d n d' H k; [discriminate|]. cbn [fill_loop Nat.add] in *.
  destruct (n <=? length d / 2); [|exact H]. destruct (copy_within d n n); [|discriminate]. now apply IH.
Qed.
End Memset.

Lemma memset_empty_diverges {byte : Type} (dst : list byte) fuel : memset fuel dst [] = OutOfFuel.
Proof.
  unfold memset. rewrite Nat.min_0_r. cbn [firstn skipn app length]. revert dst.
  induction fuel as [|k IH]; intros dst; [reflexivity|]. cbn [fill_loop]. change (0 <=? length dst / 2) with true. cbv iota.
  unfold copy_within. cbn [Nat.add andb Nat.leb firstn app skipn Nat.mul]. apply IH.
Qed.
