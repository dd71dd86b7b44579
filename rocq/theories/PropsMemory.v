(** Properties of the pooled allocator, of memories on it and of the pattern
    fill. *)
From Coq Require Import ZArith List Bool Arith Lia Permutation.
From Verif Require Import VatModel VatSpec VatProofs VatProofs2 MemoryModel MemsetModel MemorySpec MemoryProofs.
Import ListNotations.
Local Open Scope Z_scope.

(** ** C20: in every history of calls, above any correct system allocator,
    nothing undefined happens; the blocks handed out and not yet given back
    are at different places, do not overlap, and each lies within a region of
    the system allocator that is live and large enough for the request. *)
Theorem C20_blocks_do_not_overlap (ops : list op) : admissible new_world ops ->
  exists replies w, steps new_world ops = Some (replies, w) /\
    let blocks := outstanding ops replies [] in
    NoDup (map fst blocks) /\
    (forall b1 b2, In b1 blocks -> In b2 blocks -> b1 = b2 \/ disjoint b1 b2) /\
    (forall b, In b blocks -> exists r, In r (live w) /\ fst r = fst b /\ 0 < snd b <= snd r).
Proof.
  intros A. destruct (steps_spec ops new_world [] new_inv new_led A) as (rs & w & E & I & L).
  exists rs, w. split; [exact E|]. cbn zeta. pose proof (led_nodup w _ I L) as N. split; [exact N|]. split.
  - intros b1 b2 H1 H2. destruct (Z.eq_dec (fst b1) (fst b2)) as [Ef|Ef].
    + left. exact (NoDup_map_in fst _ N b1 b2 H1 H2 Ef).
    + right. exact (led_disjoint w _ b1 b2 I L H1 H2 Ef).
  - intros b Hb. exact (led_live w _ b I L Hb).
Qed.
Print Assumptions C20_blocks_do_not_overlap.

(** Giving back succeeds exactly for the blocks handed out (and null). *)
Theorem C20_free_answers (ops : list op) (replies : list reply) (w : world) (ptr : Z) : admissible new_world ops ->
  steps new_world ops = Some (replies, w) ->
  exists w', step w (Free ptr) =
    Some (if (ptr =? 0) || existsb (fun b => fst b =? ptr) (outstanding ops replies []) then Done else Throw, w').
Proof.
  intros A E. destruct (steps_spec ops new_world [] new_inv new_led A) as (rs & w1 & E1 & I & L).
  rewrite E in E1. assert (rs = replies /\ w1 = w) as [-> ->] by (split; congruence).
  destruct (Z.eqb_spec ptr 0) as [->|Hp]; [exists w; reflexivity|]. cbn [orb].
  destruct (existsb (fun b => fst b =? ptr) (outstanding ops replies [])) eqn:Ex.
  - apply existsb_exists in Ex. destruct Ex as ([k n] & Hin & Hk). apply Z.eqb_eq in Hk. cbn in Hk. subst k.
    destruct (free_done w _ ptr n I L Hin) as (w' & Ew & _). exists w'. exact Ew.
  - exists w. cbn [step]. destruct (Z.eqb_spec ptr 0); [contradiction|].
    destruct (lookup (dict (pool w)) ptr) as [p|] eqn:El; [|reflexivity]. exfalso.
    apply lookup_in in El. destruct L as [L1 _].
    assert (Hin : In (entry (ptr, p)) (outstanding ops replies [])).
    { apply (Permutation_in _ L1). now apply in_map. }
    assert (C : existsb (fun b => fst b =? ptr) (outstanding ops replies []) = true); [|congruence].
    apply existsb_exists. exists (entry (ptr, p)). split; [exact Hin|]. cbn. apply Z.eqb_refl.
Qed.
Print Assumptions C20_free_answers.

Local Lemma admissible_app_dispose : forall os w, admissible w os -> admissible w (os ++ [Dispose]).
Proof.
  induction os as [|o os IH]; intros w Ha; cbn [app admissible].
  - split; [exact I|]. destruct (step w Dispose) as [[? ?]|]; exact I.
  - destruct Ha as [H1 H2]. split; [exact H1|]. destruct (step w o) as [[a w1]|]; [|exact I]. now apply IH.
Qed.

(** Nothing is leaked: the system's live regions are exactly those the pool
    holds (idle or handed out), and dispose gives all of them back. *)
Theorem C20_dispose_releases_all (ops : list op) : admissible new_world ops ->
  exists replies w, steps new_world (ops ++ [Dispose]) = Some (replies, w) /\ live w = [].
Proof.
  intros A.
  destruct (steps_spec (ops ++ [Dispose]) new_world [] new_inv new_led (admissible_app_dispose _ _ A)) as (rs & w & E & Iw & _).
  exists rs, w. split; [exact E|].
  assert (P : heap (pool w) = [] /\ dict (pool w) = []).
  { clear - E. revert E. generalize new_world. revert rs. induction ops as [|o os IH]; intros rs w0 E.
    - cbn [app steps] in E. destruct (step w0 Dispose) as [[a w1]|] eqn:Es; [|discriminate].
      cbn [step] in Es. apply finish_pool in Es. assert (w = w1) by congruence. subst. destruct Es as [-> _]. auto.
    - cbn [app steps] in E. destruct (step w0 o) as [[a w1]|]; [|discriminate].
      destruct (steps w1 (os ++ [Dispose])) as [[as_ w2]|] eqn:E2; [|discriminate].
      assert (w2 = w) by congruence. subst. exact (IH _ _ E2). }
  destruct P as [P1 P2]. pose proof (i_perm w Iw) as Pm. unfold pots in Pm. rewrite P1, P2 in Pm.
  cbn in Pm. now apply Permutation_nil in Pm.
Qed.
Print Assumptions C20_dispose_releases_all.

(** ** C69: summary() is what the pool has obtained from the system and not
    given back. *)
Theorem C69_summary (ops : list op) (replies : list reply) (w : world) : admissible new_world ops ->
  steps new_world ops = Some (replies, w) -> summary (pool w) = total (live w).
Proof.
  intros A E. destruct (steps_spec ops new_world [] new_inv new_led A) as (rs & w1 & E1 & I & L).
  rewrite E in E1. assert (w1 = w) by congruence. subst. exact (summary_total w I).
Qed.
Print Assumptions C69_summary.

(** ** C21: the idle list is not always in order, *)
Theorem C21_idle_ordered_refuted : exists ops replies w, admissible new_world ops /\
  steps new_world ops = Some (replies, w) /\ ~ ordered (heap (pool w)).
Proof.
  exists [Malloc 5 (Some 100); Malloc 10 (Some 200); Free 100; Free 200],
    [Ptr 100; Ptr 200; Done; Done],
    (mkWorld (mkVat [mkPot 200 10 10; mkPot 100 5 5] [] false) [(200, 10); (100, 5)]).
  split; [|split; [reflexivity|]].
  - split; [split; [lia|split; [lia|intros r []]]|]. cbn [step]. cbn -[disjoint].
    split; [split; [lia|split; [lia|]]|repeat split].
    intros r [<-|[]]. unfold disjoint. cbn. lia.
  - cbn. lia.
Qed.
Print Assumptions C21_idle_ordered_refuted.

(** but all of it except its last entry is, *)
Theorem C21_idle_ordered_partial (ops : list op) (replies : list reply) (w : world) :
  steps new_world ops = Some (replies, w) -> ordered (removelast (heap (pool w))).
Proof.
  intros E. apply asc_ordered. apply (steps_near ops new_world replies w); [constructor|exact E].
Qed.
Print Assumptions C21_idle_ordered_partial.

(** and that is enough.  C68: when some idle block is large enough, malloc
    takes one that is (so it succeeds even if the system has no memory left,
    and asks for none), the smallest one but for the last entry. *)
Theorem C68_idle_blocks_are_reused (ops : list op) (replies : list reply) (w : world) (n : Z) (sys : option Z) :
  admissible new_world ops -> steps new_world ops = Some (replies, w) -> 0 < n -> asks w (Malloc n sys) ->
  (exists q, In q (heap (pool w)) /\ n <= cap q) ->
  exists p w', step w (Malloc n sys) = Some (Ptr (data p), w') /\
    Permutation (live w') (live w) /\
    In p (heap (pool w)) /\ n <= cap p /\
    (forall q, In q (removelast (heap (pool w))) -> n <= cap q -> cap p <= cap q) /\
    (ordered (heap (pool w)) -> forall q, In q (heap (pool w)) -> n <= cap q -> cap p <= cap q).
Proof.
  intros A E Hn Hs Hq. destruct (steps_spec ops new_world [] new_inv new_led A) as (rs & w1 & E1 & I & L).
  rewrite E in E1. assert (w1 = w) by congruence. subst w1.
  assert (N : near (heap (pool w))) by (apply (steps_near ops new_world replies w); [constructor|exact E]).
  destruct (malloc_spec w n sys I Hs ltac:(lia)) as (a & w' & Es & _ & _ & (p & h & Ep & _ & C)).
  destruct (pick_near w n p h N Ep Hq) as (Hc & Hmin). destruct (C Hc) as (-> & Pl).
  exists p, w'. split; [exact Es|]. split; [exact Pl|].
  destruct (pick_spec (pool w) n) as (p0 & h0 & E0 & D). rewrite Ep in E0.
  assert (p0 = p) by congruence. subst p0.
  destruct D as [(D & _)|(i & Ei & Hi & Hin & _)]; [destruct Hq as (q & Hq & _); rewrite D in Hq; destruct Hq|].
  assert (Hip : In p (heap (pool w))) by (eapply nth_error_In; exact Hin).
  split; [exact Hip|]. split; [exact Hc|]. split; [exact Hmin|].
  intros O q Hq' Hcq. apply ordered_asc in O.
  destruct (snoc_cases (heap (pool w))) as [Z|(l & x & Z)]; [rewrite Z in Hip; destruct Hip|].
  rewrite Z in *. rewrite removelast_snoc in Hmin. apply in_app_or in Hq'.
  destruct Hq' as [Hq'|[<-|[]]]; [now apply Hmin|]. apply in_app_or in Hip. destruct Hip as [Hip|[<-|[]]]; [|lia].
  apply asc_app in O. apply O; [exact Hip|now left].
Qed.
Print Assumptions C68_idle_blocks_are_reused.

Example C68_example : exists w, steps new_world
    [Malloc 5 (Some 100); Malloc 10 (Some 200); Free 100; Free 200; Malloc 7 None; Malloc 3 None; Malloc 1 None]
  = Some ([Ptr 100; Ptr 200; Done; Done; Ptr 200; Ptr 100; Throw], w) /\ summary (pool w) = 15.
Proof. eexists. split; reflexivity. Qed.

(** ** C70: a memory from a pool owns capacity() bytes at data(), whatever is
    done with it and with the pool, as long as dispose() is not called and the
    system allocator has memory; destroying it then succeeds.  The calls it
    makes are a history of the pool, so C20 applies to its block. *)
Theorem C70_memory_owns_its_block_partial (l : list mop) : good_history new_world new_hard l ->
  exists calls returns h w, mem_steps new_world new_hard l = Some (calls, returns, h, w) /\
    (h_cap h = 0 \/ In (h_data h, h_cap h) (outstanding (map fst calls) (map snd calls) [])) /\
    exists w', destroy w h = Some (true, w').
Proof.
  intros G. destruct (mem_steps_spec l new_world new_hard [] new_inv new_led) as (c & bs & h & w & E & I & L & O).
  - left. auto.
  - exact G.
  - assert (El : forall c led, outstanding (map fst c) (map snd c) led = ledger c led).
    { clear. induction c as [|[o a] c IH]; intros led; [reflexivity|]. cbn [map fst snd].
      rewrite outstanding_next. apply IH. }
    exists c, bs, h, w. split; [exact E|]. split.
    + rewrite El. destruct O as [(_ & Hc)|(_ & _ & Hin)]; auto.
    + exact (destroy_ok w h _ I L O).
Qed.
Print Assumptions C70_memory_owns_its_block_partial.

(** dispose() forgets to reset the capacity: resizing to the old size then
    gives a memory of 8 bytes at the null pointer; *)
Theorem C70_dispose_refuted : exists calls returns h w,
  mem_steps new_world new_hard [Memory (HResize 8 (Some 100)); Memory HDispose; Memory (HResize 8 (Some 200))]
    = Some (calls, returns, h, w) /\ h_cap h = 8 /\ h_data h = 0.
Proof. eexists _, _, _, _. split; [reflexivity|]. split; reflexivity. Qed.
Print Assumptions C70_dispose_refuted.

(** a resize that fails leaves the memory with the block it has given back,
    and its destructor throws. *)
Theorem C70_failed_resize_refuted : exists calls h w w',
  mem_steps new_world new_hard [Memory (HResize 8 (Some 100)); Memory (HResize 16 None)]
    = Some (calls, [true; false], h, w) /\
  h_cap h = 8 /\ outstanding (map fst calls) (map snd calls) [] = [] /\ destroy w h = Some (false, w').
Proof. eexists _, _, _, _. split; [reflexivity|]. split; [reflexivity|]. split; reflexivity. Qed.
Print Assumptions C70_failed_resize_refuted.

Local Ltac nxt := match goal with |- context [mem_step ?a ?b ?c] =>
  let v := eval vm_compute in (mem_step a b c) in change (mem_step a b c) with v; cbv iota beta end.
Example C70_example : good_history new_world new_hard
  [Memory (HResize 8 (Some 100)); Other (Malloc 4 (Some 200)); Memory (HExpect 16 (Some 300)); Memory (HResize 4 (Some 300));
   Other (Free 200)].
Proof.
  assert (D : forall a b c d, a + b <= c \/ c + d <= a -> disjoint (a, b) (c, d)) by (intros; assumption).
  split.
  { split; [lia|]. exists 100. split; [reflexivity|]. intros r w1 E. assert (w1 = new_world) by (cbn in E; congruence).
    subst. split; [lia|]. split; [lia|]. intros ? []. }
  nxt.
  split. { split; [lia|]. split; [lia|]. intros r [<-|[]]. apply D. lia. }
  nxt.
  split. { split; [lia|]. exists 300. split; [reflexivity|]. intros r w1 E. vm_compute in E. injection E as <- <-.
           split; [lia|]. split; [lia|]. intros r [<-|[<-|[]]]; apply D; lia. }
  nxt.
  split. { split; [lia|]. exists 300. split; [reflexivity|]. intros r w1 E. vm_compute in E. injection E as <- <-.
           split; [lia|]. split; [lia|]. intros r [<-|[<-|[]]]; apply D; lia. }
  nxt.
  split; [|exact I]. left. cbn. lia.
Qed.

(** ** C22: filling with a non-empty pattern terminates and repeats the
    pattern over the whole destination, whose size does not change. *)
Theorem C22_memset_fills {byte : Type} (x0 : byte) (dst src : list byte) : (0 < length src)%nat ->
  exists d, (forall more, memset (length dst + 1 + more) dst src = Filled d) /\ length d = length dst /\
    forall i, (i < length dst)%nat -> nth i d x0 = nth (i mod length src) src x0.
Proof.
  intros H. destruct (memset_spec x0 src H dst) as (d & E & L & R). exists d. split; [|auto].
  intros more. unfold memset in *. exact (fill_fuel _ _ _ _ E more).
Qed.
Print Assumptions C22_memset_fills.

(** With an empty pattern the call never returns. *)
Theorem C22_empty_pattern_refuted {byte : Type} (dst : list byte) (fuel : nat) :
  memset fuel dst [] = OutOfFuel.
Proof. exact (memset_empty_diverges dst fuel). Qed.
Print Assumptions C22_empty_pattern_refuted.

Example C22_example : memset 20 (repeat 9%nat 11) [1; 2; 3]%nat = Filled [1; 2; 3; 1; 2; 3; 1; 2; 3; 1; 2]%nat.
Proof. reflexivity. Qed.
