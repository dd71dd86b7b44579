(** C142: memories keep their bytes; C143: every block is freed exactly once. *)
From Coq Require Import List Arith ZArith Bool Lia.
From Verif Require Import HardModel HardSpec.
Import ListNotations.

(** what a user sees of memory [i] *)
Definition bytes_of (s : st) : store := fun i =>
  match mem s i with
  | Some h => if owns h then (if Nat.eqb (data h) 0 then Some [] else blk s (data h)) else None
  | None => None
  end.

(** calls made with care: on memories that exist and own their bytes, writing
    inside, not moving onto bytes, no refused resize of bytes, no dispose *)
Definition careful (s : st) (o : op) : Prop :=
  match o with
  | New i => mem s i = None
  | Resize i n y => bytes_of s i <> None /\ (y <> Fail \/ bytes_of s i = Some [])
  | Expect i n y | Shrink i n y => bytes_of s i <> None
  | Dispose i => False
  | Write i k v => exists l, bytes_of s i = Some l /\ k < length l
  | MoveTo d i => d <> i /\ mem s d <> None /\ (bytes_of s d = None \/ bytes_of s d = Some []) /\ bytes_of s i <> None
  | MoveNew d i => mem s d = None /\ bytes_of s i <> None
  | Swap i j => mem s i <> None /\ mem s j <> None
  | Destroy i => mem s i <> None
  end.
Inductive reached (k : kind) : st -> Prop :=
| at_start : reached k start
| one_more s o s' : reached k s -> careful s o -> (step k s o = Fine s' \/ step k s o = Throws s') -> reached k s'.

Definition inv (s : st) : Prop :=
  (blk s 0 = None /\ (forall p, blk s p <> None -> p < next s) /\ 0 < next s) /\
  (forall i h, mem s i = Some h -> owns h = true ->
     (data h = 0 /\ cap h = 0) \/ (data h <> 0 /\ cap h <> 0 /\ exists l, blk s (data h) = Some l /\ length l = cap h)) /\
  (forall i j h g, i <> j -> mem s i = Some h -> mem s j = Some g -> owns h = true -> owns g = true -> data h = data g -> data h = 0) /\
  (forall p, blk s p <> None -> exists i h, mem s i = Some h /\ owns h = true /\ data h = p).

Lemma upd_same {A} (f : nat -> A) n a : upd f n a n = a.
Proof. unfold upd. now rewrite Nat.eqb_refl. Qed.
Lemma upd_other {A} (f : nat -> A) n m a : m <> n -> upd f n a m = f m.
Proof. intro H. unfold upd. now rewrite (proj2 (Nat.eqb_neq _ _) H). Qed.
Lemma fit_length l n : length (fit l n) = n.
Proof. unfold fit. rewrite app_length, firstn_length, repeat_length. lia. Qed.
Lemma nth_firstn_lt {A} (l : list A) : forall n k, k < n -> nth_error (firstn n l) k = nth_error l k.
Proof.
  induction l as [|a l IH]; intros n k H; [now rewrite firstn_nil|].
  destruct n as [|n]; [lia|]. destruct k as [|k]; [reflexivity|]. cbn. apply IH. lia.
Qed.
Lemma fit_kept l n : kept l (fit l n) n.
Proof.
  split; [apply fit_length|]. intros k Hk Hl. unfold fit. rewrite nth_error_app1 by (rewrite firstn_length; lia).
  now apply nth_firstn_lt.
Qed.

(** ** The allocators *)
Definition served (s : st) (n p m : nat) (y : sys) (a : HardModel.answer) : Prop :=
  match a with
  | Pointer q s' =>
      mem s' = mem s /\ next s <= next s' /\ blk s' 0 = blk s 0 /\
      ((n = 0 /\ q = 0) \/
       (n <> 0 /\ q <> 0 /\ q < next s' /\ (q = p \/ next s <= q) /\
        exists l', blk s' q = Some l' /\ length l' = n /\ (forall old, m <> 0 -> blk s p = Some old -> l' = fit old n))) /\
      (p <> 0 -> q <> p -> blk s' p = None) /\
      (forall r, r <> 0 -> r <> p -> r <> q -> blk s' r = blk s r)
  | OutOfMemory s' => y = Fail /\ n <> 0 /\ (p = 0 \/ m <> 0 -> s' = s)
  | Undef => False
  end.

Lemma malloc_served s n y : n <> 0 -> blk s 0 = None -> 0 < next s ->
  match check (malloc s n y) with
  | Pointer q s' => q = next s /\ s' = St (S (next s)) (upd (blk s) (next s) (Some (repeat None n))) (mem s) /\ y <> Fail
  | OutOfMemory s' => y = Fail /\ s' = s
  | Undef => False
  end.
Proof.
  intros Hn H0 Hp. destruct y; cbn [malloc fresh check].
  - cbn. split; reflexivity.
  - rewrite (proj2 (Nat.eqb_neq _ _)) by lia. split; [reflexivity|]. split; [reflexivity|discriminate].
  - rewrite (proj2 (Nat.eqb_neq _ _)) by lia. split; [reflexivity|]. split; [reflexivity|discriminate].
Qed.

Lemma malloc_case s s1 n p m y : n <> 0 -> blk s 0 = None -> 0 < next s -> m = 0 \/ p = 0 ->
  (p <> 0 -> p < next s /\ s1 = with_blk s p None) -> (p = 0 -> s1 = s) -> (p = 0 -> m = 0) ->
  served s n p m y (check (malloc s1 n y)).
Proof.
  intros Hn H0 Hx Hm Hp1 Hp0 Hpm.
  assert (E0 : blk s1 0 = None /\ next s1 = next s /\ mem s1 = mem s /\ (p <> 0 -> blk s1 p = None) /\ forall r, r <> p -> blk s1 r = blk s r).
  { destruct (Nat.eq_dec p 0) as [Ep|Ep].
    - rewrite (Hp0 Ep). repeat split; [exact H0|]. intro H. lia.
    - destruct (Hp1 Ep) as [_ ->]. cbn. rewrite upd_other by lia. repeat split; [exact H0|intros _; apply upd_same|]. intros r Hr. now rewrite upd_other. }
  destruct E0 as (E0 & E1 & E2 & E3 & E4).
  pose proof (malloc_served s1 n y Hn E0 ltac:(lia)) as H. destruct (check (malloc s1 n y)) as [q s'|s'|]; [| |contradiction].
  - destruct H as (-> & -> & Hy). rewrite E1. cbn [served mem next blk].
    split; [exact E2|]. split; [lia|]. split; [rewrite upd_other by lia; rewrite E0; now rewrite H0|].
    split; [|split].
    + right. split; [exact Hn|]. split; [lia|]. split; [lia|]. split; [right; lia|]. rewrite upd_same. eexists. split; [reflexivity|].
      split; [apply repeat_length|]. intros old Hm' Hold. destruct Hm as [Hm|Hm]; [contradiction|]. rewrite (Hpm Hm) in Hm'. contradiction.
    + intros Hp Hq. destruct (Hp1 Hp) as [Hlt _]. rewrite upd_other by lia. apply E3, Hp.
    + intros r Hr1 Hr2 Hr3. rewrite upd_other by exact Hr3. apply E4, Hr2.
  - destruct H as [-> ->]. cbn [served]. split; [reflexivity|]. split; [exact Hn|]. intros [Hp|Hm']; [apply Hp0, Hp|].
    destruct Hm as [Hm|Hm]; [contradiction|apply Hp0, Hm].
Qed.
Lemma free_case s n p m y : n = 0 -> blk s 0 = None -> (p <> 0 -> exists l, blk s p = Some l) ->
  served s n p m y (match free s p with Some s1 => Pointer 0 s1 | None => Undef end).
Proof.
  intros -> H0 Hp. unfold free. destruct (Nat.eqb_spec p 0) as [Ep|Ep].
  - cbn. split; [reflexivity|]. split; [lia|]. split; [reflexivity|]. split; [now left|]. split; [lia|]. reflexivity.
  - destruct (Hp Ep) as [l El]. rewrite El. cbn. rewrite upd_other by lia. split; [reflexivity|]. split; [lia|]. split; [reflexivity|].
    split; [now left|]. split; [intros _ _; apply upd_same|]. intros r _ Hr _. now rewrite upd_other.
Qed.

Lemma allocator_served k s n p m y : blk s 0 = None -> 0 < next s -> (p <> 0 -> p < next s /\ exists l, blk s p = Some l /\ (m = 0 \/ m = length l)) ->
  (p = 0 -> m = 0) -> served s n p m y (allocator k s n p m y).
Proof.
  intros H0 Hx Hp Hpm.
  assert (Hp' : p <> 0 -> exists l, blk s p = Some l) by (intro E; destruct (Hp E) as (_ & l & El & _); now exists l).
  destruct k; cbn [allocator].
  - unfold cpu_allocator. destruct (Nat.eqb_spec n 0) as [En|En]; cbn [andb].
    { destruct (Nat.eqb_spec p 0) as [Ep|Ep]; [|now apply free_case].
      pose proof (free_case s n p m y En H0 Hp') as H. unfold free in H. now rewrite (proj2 (Nat.eqb_eq _ _) Ep) in H. }
    destruct (Nat.eqb_spec p 0) as [Ep|Ep]; cbn [negb].
    { apply malloc_case; try assumption; try tauto. }
    destruct (Hp Ep) as (Hlt & l & El & Hm).
    destruct (Nat.eqb_spec m 0) as [Em|Em]; cbn [negb].
    + unfold free. rewrite (proj2 (Nat.eqb_neq _ _) Ep), El. apply malloc_case; try assumption; try tauto.
    + destruct Hm as [Hm|Hm]; [contradiction|]. unfold realloc. rewrite El. destruct y; cbn [fresh check].
      * cbn. split; [reflexivity|]. split; [exact En|]. reflexivity.
      * rewrite (proj2 (Nat.eqb_neq _ _) Ep). cbn [served mem next blk with_blk]. split; [reflexivity|]. split; [lia|]. split; [rewrite upd_other by lia; reflexivity|].
        split; [|split; [congruence|intros r _ Hr _; now rewrite upd_other]].
        right. split; [exact En|]. split; [exact Ep|]. split; [exact Hlt|]. split; [now left|]. rewrite upd_same. exists (fit l n). split; [reflexivity|]. split; [apply fit_length|].
        intros old _ Ho. rewrite El in Ho. now injection Ho as <-.
      * cbn [next with_blk]. rewrite (proj2 (Nat.eqb_neq _ _)) by lia. cbn [served mem next blk with_blk]. split; [reflexivity|]. split; [lia|].
        split; [rewrite !upd_other by lia; reflexivity|]. split; [|split].
        -- right. split; [exact En|]. split; [lia|]. split; [lia|]. split; [now right|]. rewrite upd_same. exists (fit l n). split; [reflexivity|]. split; [apply fit_length|].
           intros old _ Ho. rewrite El in Ho. now injection Ho as <-.
        -- intros _ _. rewrite upd_other by lia. apply upd_same.
        -- intros r _ Hr1 Hr2. now rewrite !upd_other by assumption.
  - unfold v2_allocator. destruct (Nat.eqb_spec n 0) as [En|En]; [now apply free_case|].
    destruct (Nat.eqb_spec p 0) as [Ep|Ep]; cbn [negb].
    { apply malloc_case; try assumption; try tauto. }
    destruct (Hp Ep) as (Hlt & l & El & Hm).
    destruct (Nat.ltb_spec 0 m) as [Em|Em].
    + destruct Hm as [Hm|Hm]; [lia|].
      pose proof (malloc_served s n y En H0 Hx) as H. destruct (check (malloc s n y)) as [q s'|s'|]; [| |contradiction].
      * destruct H as (-> & -> & Hy). cbn [blk]. rewrite upd_other by lia. rewrite El.
        rewrite (proj2 (Nat.leb_le _ _)) by lia. unfold free. rewrite (proj2 (Nat.eqb_neq _ _) Ep). cbn [blk with_blk]. rewrite !upd_other by lia. rewrite El.
        cbn [served mem next blk with_blk]. split; [reflexivity|]. split; [lia|]. split; [rewrite !upd_other by lia; reflexivity|]. split; [|split].
        -- right. split; [exact En|]. split; [lia|]. split; [lia|]. split; [right; lia|]. rewrite upd_other by lia. rewrite upd_same. eexists. split; [reflexivity|]. split.
           ++ rewrite app_length, firstn_length, repeat_length. lia.
           ++ intros old _ Ho. rewrite El in Ho. injection Ho as <-. unfold fit. rewrite Hm.
              destruct (Nat.le_ge_cases n (length l)) as [Hc|Hc].
              ** rewrite Nat.min_l by exact Hc. f_equal. f_equal. lia.
              ** rewrite Nat.min_r by exact Hc. rewrite !firstn_all2 by lia. reflexivity.
        -- intros _ _. apply upd_same.
        -- intros r _ Hr1 Hr2. now rewrite !upd_other by assumption.
      * destruct H as [-> ->]. cbn. split; [reflexivity|]. split; [exact En|]. reflexivity.
    + unfold free. rewrite (proj2 (Nat.eqb_neq _ _) Ep), El. apply malloc_case; try assumption; try tauto. left. lia.
Qed.

(** ** One step *)
Lemma inv_bytes s i h : inv s -> mem s i = Some h -> owns h = true -> exists l, bytes_of s i = Some l /\ length l = cap h /\ (data h <> 0 -> blk s (data h) = Some l /\ l <> []) /\ (data h = 0 -> l = []).
Proof.
  intros (_ & I2 & _) Hi Ho. unfold bytes_of. rewrite Hi, Ho. destruct (I2 i h Hi Ho) as [[Hd Hc]|(Hd & Hc & l & El & Hl)].
  - rewrite Hd. exists []. split; [reflexivity|]. split; [now rewrite Hc|]. split; [congruence|reflexivity].
  - rewrite (proj2 (Nat.eqb_neq _ _) Hd). exists l. split; [exact El|]. split; [exact Hl|]. split; [|congruence].
    intros _. split; [exact El|]. intros ->. cbn in Hl. congruence.
Qed.
Lemma bytes_owner s i l : bytes_of s i = Some l -> exists h, mem s i = Some h /\ owns h = true.
Proof. unfold bytes_of. destruct (mem s i) as [h|]; [|discriminate]. destruct (owns h) eqn:E; [|discriminate]. intros _. now exists h. Qed.

Lemma changed s i h n m y q s' (x : option hard) : inv s -> mem s i = Some h -> owns h = true ->
  (m = 0 \/ m = cap h) -> served s n (data h) m y (Pointer q s') ->
  x = Some (Hard q n true) \/ (n = 0 /\ x = None) ->
  let s2 := with_mem s' i x in
  inv s2 /\ (forall j, j <> i -> bytes_of s2 j = bytes_of s j) /\
  (x = None -> bytes_of s2 i = None) /\
  (x <> None -> exists l', bytes_of s2 i = Some l' /\ length l' = n /\ forall old, m <> 0 -> bytes_of s i = Some old -> l' = fit old n).
Proof.
  intros Hinv Hi Ho Hm (S1 & S2 & S3 & S4 & S5 & S6) Hx s2.
  pose proof Hinv as ((J0 & J1 & J2) & I2 & I3 & I4).
  assert (Hmem : forall j, mem s2 j = if Nat.eqb j i then x else mem s j).
  { intro j. unfold s2. cbn [mem with_mem]. unfold upd. now rewrite S1. }
  assert (Hblk : blk s2 = blk s') by reflexivity. assert (Hnext : next s2 = next s') by reflexivity.
  assert (Hdata : forall j g, j <> i -> mem s j = Some g -> owns g = true -> data g <> 0 -> data g <> data h /\ data g <> q /\ blk s' (data g) = blk s (data g)).
  { intros j g Hj Hg Hog Hd.
    assert (Hdh : data g <> data h) by (intro E; apply Hd; eapply (I3 j i g h); eauto).
    assert (Hlt : data g < next s).
    { apply J1. destruct (I2 j g Hg Hog) as [[E _]|(_ & _ & l & El & _)]; [contradiction|]. congruence. }
    assert (Hq : data g <> q).
    { intros E. destruct S4 as [[_ Hq]|(_ & _ & _ & [Hq|Hq] & _)]; [congruence|congruence|lia]. }
    split; [exact Hdh|]. split; [exact Hq|]. apply S6; assumption. }
  assert (Hxown : forall g, x = Some g -> g = Hard q n true) by (intros g ->; destruct Hx as [Hx|[_ Hx]]; congruence).
  split; [|split; [|split]].
  - split; [|split; [|split]].
    + rewrite Hblk, Hnext. split; [now rewrite S3|]. split; [|lia]. intros p Hp.
      destruct (Nat.eq_dec p q) as [->|Hpq].
      * destruct S4 as [[_ Hq]|(_ & _ & Hq & _)]; [|exact Hq]. rewrite Hq, S3 in Hp. congruence.
      * destruct (Nat.eq_dec p 0) as [->|Hp0]; [lia|].
        destruct (Nat.eq_dec p (data h)) as [->|Hpd]; [exfalso; apply Hp, S5; [exact Hp0|congruence]|].
        rewrite S6 in Hp by assumption. apply J1 in Hp. lia.
    + intros j g Hg Hog. rewrite Hmem in Hg. destruct (Nat.eqb_spec j i) as [->|Hj].
      * rewrite (Hxown _ Hg). cbn [data cap]. rewrite Hblk. destruct S4 as [[-> ->]|(Hn & Hq & _ & _ & l' & El & Hl & _)]; [now left|].
        right. split; [exact Hq|]. split; [exact Hn|]. now exists l'.
      * destruct (I2 j g Hg Hog) as [E|(Hd & Hc & l & El & Hl)]; [now left|]. right. split; [exact Hd|]. split; [exact Hc|].
        exists l. split; [|exact Hl]. rewrite Hblk. destruct (Hdata j g Hj Hg Hog Hd) as (_ & _ & ->). exact El.
    + intros a b g g' Hab Ha Hb Hoa Hob E. rewrite Hmem in Ha, Hb. destruct (Nat.eqb_spec a i) as [->|Hai], (Nat.eqb_spec b i) as [->|Hbi].
      * congruence.
      * rewrite (Hxown _ Ha) in *. cbn [data] in *. destruct (Nat.eq_dec q 0) as [|Hq]; [assumption|]. exfalso.
        destruct (Hdata b g' Hbi Hb Hob) as (_ & H & _); congruence.
      * rewrite (Hxown _ Hb) in *. cbn [data] in *. destruct (Nat.eq_dec (data g) 0) as [|Hq]; [assumption|]. exfalso.
        destruct (Hdata a g Hai Ha Hoa) as (_ & H & _); congruence.
      * eapply (I3 a b); eassumption.
    + intros p Hp. rewrite Hblk in Hp.
      destruct (Nat.eq_dec p 0) as [->|Hp0]; [rewrite S3 in Hp; congruence|].
      destruct (Nat.eq_dec p q) as [->|Hpq].
      * destruct Hx as [->|[Hn _]].
        -- exists i, (Hard q n true). rewrite Hmem, Nat.eqb_refl. repeat split.
        -- destruct S4 as [[_ Hq]|(Hn' & _)]; congruence.
      * destruct (Nat.eq_dec p (data h)) as [->|Hpd]; [exfalso; apply Hp, S5; [exact Hp0|congruence]|].
        rewrite S6 in Hp by assumption. destruct (I4 p Hp) as (j & g & Hg & Hog & Hd). exists j, g. rewrite Hmem.
        destruct (Nat.eqb_spec j i) as [->|Hj]; [|now repeat split]. congruence.
  - intros j Hj. unfold bytes_of. rewrite Hmem, (proj2 (Nat.eqb_neq _ _) Hj). destruct (mem s j) as [g|] eqn:Eg; [|reflexivity].
    destruct (owns g) eqn:Eo; [|reflexivity]. destruct (Nat.eqb_spec (data g) 0) as [|Hd]; [reflexivity|].
    rewrite Hblk. now apply (Hdata j g).
  - intros ->. unfold bytes_of. now rewrite Hmem, Nat.eqb_refl.
  - intro Hxn. destruct Hx as [->|[_ ->]]; [|congruence]. unfold bytes_of at 1. rewrite Hmem, Nat.eqb_refl. cbn [owns data].
    destruct S4 as [[-> ->]|(Hn & Hq & _ & _ & l' & El & Hl & Hfit)].
    + exists []. split; [reflexivity|]. split; [reflexivity|]. intros old _ _. unfold fit. reflexivity.
    + rewrite (proj2 (Nat.eqb_neq _ _) Hq). rewrite Hblk. exists l'. split; [exact El|]. split; [exact Hl|].
      intros old Hm0 Hold. apply Hfit; [exact Hm0|].
      destruct (inv_bytes s i h Hinv Hi Ho) as (l & El' & Hlen & Hd & Hd0). rewrite El' in Hold. injection Hold as <-.
      destruct (Nat.eq_dec (data h) 0) as [E|E]; [|now apply Hd]. rewrite (Hd0 E) in Hlen. cbn in Hlen. destruct Hm; congruence.
Qed.

Lemma served_ok k s i h n m y : inv s -> mem s i = Some h -> owns h = true -> m = 0 \/ m = cap h -> served s n (data h) m y (allocator k s n (data h) m y).
Proof.
  intros ((J0 & J1 & J2) & I2 & _) Hi Ho Hm. destruct (I2 i h Hi Ho) as [[Hd Hc]|(Hd & Hc & l & El & Hl)].
  - apply allocator_served; try assumption; try congruence. intros _. destruct Hm; congruence.
  - apply allocator_served; try assumption; try congruence. intros _. split; [apply J1; congruence|]. exists l. split; [exact El|]. rewrite Hl. exact Hm.
Qed.

(** the calls that allocate *)
Lemma assign_ok k s i h n m y : inv s -> mem s i = Some h -> owns h = true -> m = 0 \/ m = cap h ->
  (m <> 0 \/ y <> Fail \/ data h = 0) ->
  match assign i n (allocator k s n (data h) m y) with
  | Fine s' => inv s' /\ (forall j, j <> i -> bytes_of s' j = bytes_of s j) /\
               exists l', bytes_of s' i = Some l' /\ length l' = n /\ forall old, m <> 0 -> bytes_of s i = Some old -> l' = fit old n
  | Throws s' => s' = s
  | Broken => False
  end.
Proof.
  intros Hinv Hi Ho Hm Hcare. pose proof (served_ok k s i h n m y Hinv Hi Ho Hm) as H.
  destruct (allocator k s n (data h) m y) as [q s'|s'|]; cbn [assign].
  - destruct (changed s i h n m y q s' (Some (Hard q n true)) Hinv Hi Ho Hm H) as (C1 & C2 & _ & C3); [now left|].
    split; [exact C1|]. split; [exact C2|]. apply C3. discriminate.
  - destruct H as (Hy & _ & Hs). apply Hs. destruct Hcare as [|[|]]; [now right|contradiction|now left].
  - exact H.
Qed.

Lemma set_nth_props l : forall k v, k < length l -> length (set_nth l k v) = length l /\ nth_error (set_nth l k v) k = Some v /\ forall j, j <> k -> nth_error (set_nth l k v) j = nth_error l j.
Proof.
  induction l as [|a l IH]; intros k v H; [cbn in H; lia|]. destruct k as [|k].
  - cbn. split; [reflexivity|]. split; [reflexivity|]. intros [|j] Hj; [congruence|reflexivity].
  - cbn in H. destruct (IH k v ltac:(lia)) as (A & B & C). cbn. split; [now rewrite A|]. split; [exact B|].
    intros [|j] Hj; [reflexivity|]. apply C. congruence.
Qed.

(** renaming memories without touching the blocks *)
Lemma renamed s s' (f : nat -> nat) : inv s -> next s' = next s -> blk s' = blk s ->
  (forall i h, mem s' i = Some h -> owns h = true -> mem s (f i) = Some h) ->
  (forall i j h g, mem s' i = Some h -> mem s' j = Some g -> owns h = true -> owns g = true -> f i = f j -> i = j \/ data h = 0) ->
  (forall i h, mem s i = Some h -> owns h = true -> data h <> 0 -> exists j, mem s' j = Some h) -> inv s'.
Proof.
  intros (I1 & I2 & I3 & I4) Hn Hb Hf Hinj Hsur. unfold inv. rewrite Hn, Hb. split; [exact I1|]. split; [|split].
  - intros i h Hi Ho. apply (I2 (f i)); auto.
  - intros i j h g Hij Hi Hj Hoi Hoj E. destruct (Nat.eq_dec (f i) (f j)) as [Ef|Ef].
    + destruct (Hinj i j h g Hi Hj Hoi Hoj Ef); [contradiction|assumption].
    + eapply (I3 (f i) (f j) h g); auto.
  - intros p Hp. destruct (I4 p Hp) as (i & h & Hi & Ho & Hd). destruct (Hsur i h Hi Ho) as [j Hj].
    + rewrite Hd. intros ->. destruct I1 as [I1 _]. congruence.
    + exists j, h. now repeat split.
Qed.

Definition shows (s s' : st) (o : op) : Prop := exists b', effect (bytes_of s) o b' /\ forall j, bytes_of s' j = b' j.

Lemma put_shows (s s' : st) i x j : (forall j, j <> i -> bytes_of s' j = bytes_of s j) -> bytes_of s' i = x -> bytes_of s' j = put (bytes_of s) i x j.
Proof. intros H1 H2. unfold put. destruct (Nat.eqb_spec j i) as [->|Hj]; [exact H2|now apply H1]. Qed.

Lemma step_ok k s o : inv s -> careful s o ->
  match step k s o with
  | Fine s' => inv s' /\ shows s s' o
  | Throws s' => s' = s
  | Broken => False
  end.
Proof.
  intros Hinv Hc. destruct o as [i|i n y|i n y|i n y|i|i j v|d i|d i|i j|i]; cbn [careful] in Hc; cbn [step].
  - (* New *) rewrite Hc. split.
    + pose proof Hinv as (I1 & I2 & I3 & I4). split; [exact I1|]. split; [|split].
      * intros a h Ha Ho. cbn [mem with_mem] in Ha. unfold upd in Ha. destruct (Nat.eqb a i); [|eapply I2; eassumption].
        injection Ha as <-. now left.
      * intros a b h g Hab Ha Hb Hoa Hob E. cbn [mem with_mem] in Ha, Hb. unfold upd in Ha, Hb.
        destruct (Nat.eqb a i); [now injection Ha as <-|]. destruct (Nat.eqb b i); [injection Hb as <-; exact E|]. eapply (I3 a b); eassumption.
      * intros p Hp. destruct (I4 p Hp) as (a & h & Ha & Hr). exists a, h. split; [|exact Hr]. cbn [mem with_mem]. rewrite upd_other; [exact Ha|]. congruence.
    + exists (put (bytes_of s) i (Some [])). split; [apply e_new; unfold bytes_of; now rewrite Hc|]. intro j. apply put_shows.
      * intros a Ha. unfold bytes_of. cbn [mem with_mem blk]. now rewrite upd_other.
      * unfold bytes_of. cbn [mem with_mem]. now rewrite upd_same.
  - (* Resize *) destruct Hc as [Hb Hy]. destruct (bytes_of s i) as [l|] eqn:El; [|congruence]. destruct (bytes_owner _ _ _ El) as (h & Hi & Ho).
    rewrite Hi, Ho. cbn [negb]. destruct (inv_bytes s i h Hinv Hi Ho) as (l0 & El0 & Hlen & Hd & Hd0). rewrite El in El0. injection El0 as <-.
    destruct (Nat.eqb_spec n (cap h)) as [En|En]; cbn [negb].
    + split; [exact Hinv|]. exists (bytes_of s). split; [apply e_same with l; congruence|reflexivity].
    + pose proof (assign_ok k s i h n 0 y Hinv Hi Ho (or_introl eq_refl)) as H. 
      assert (Hcare : 0 <> 0 \/ y <> Fail \/ data h = 0).
      { destruct Hy as [Hy|Hy]; [right; now left|]. right; right. destruct (Nat.eq_dec (data h) 0) as [|E]; [assumption|]. destruct (Hd E) as [_ Hl]. congruence. }
      specialize (H Hcare). destruct (assign i n _) as [s'|s'|]; [|exact H|exact H].
      destruct H as (H1 & H2 & l' & H3 & H4 & _). split; [exact H1|]. exists (put (bytes_of s) i (Some l')). split; [apply e_resize with l; congruence|].
      intro a. now apply put_shows.
  - (* Expect *) destruct (bytes_of s i) as [l|] eqn:El; [|congruence]. destruct (bytes_owner _ _ _ El) as (h & Hi & Ho).
    rewrite Hi, Ho. cbn [negb]. destruct (inv_bytes s i h Hinv Hi Ho) as (l0 & El0 & Hlen & Hd & Hd0). rewrite El in El0. injection El0 as <-.
    destruct (Nat.ltb_spec (cap h) n) as [En|En].
    + pose proof (assign_ok k s i h n (cap h) y Hinv Hi Ho (or_intror eq_refl)) as H.
      assert (Hcare : cap h <> 0 \/ y <> Fail \/ data h = 0).
      { destruct (Nat.eq_dec (data h) 0) as [|E]; [right; now right|]. left. destruct (Hd E) as [_ Hl]. rewrite <- Hlen. destruct l; [congruence|discriminate]. }
      specialize (H Hcare). destruct (assign i n _) as [s'|s'|]; [|exact H|exact H].
      destruct H as (H1 & H2 & l' & H3 & H4 & H5). split; [exact H1|]. exists (put (bytes_of s) i (Some l')). split; [|intro a; now apply put_shows].
      apply e_expect with l; [exact El|lia|]. destruct (Nat.eq_dec (cap h) 0) as [E|E].
      * split; [exact H4|]. intros a _ Ha. lia.
      * rewrite (H5 l E El). apply fit_kept.
    + split; [exact Hinv|]. exists (bytes_of s). split; [apply e_large with l; [exact El|lia]|reflexivity].
  - (* Shrink *) destruct (bytes_of s i) as [l|] eqn:El; [|congruence]. destruct (bytes_owner _ _ _ El) as (h & Hi & Ho).
    rewrite Hi, Ho. cbn [negb]. destruct (inv_bytes s i h Hinv Hi Ho) as (l0 & El0 & Hlen & Hd & Hd0). rewrite El in El0. injection El0 as <-.
    destruct (Nat.ltb_spec n (cap h)) as [En|En].
    + pose proof (assign_ok k s i h n (cap h) y Hinv Hi Ho (or_intror eq_refl)) as H.
      specialize (H ltac:(left; lia)). destruct (assign i n _) as [s'|s'|]; [|exact H|exact H].
      destruct H as (H1 & H2 & l' & H3 & H4 & H5). split; [exact H1|]. exists (put (bytes_of s) i (Some l')). split; [|intro a; now apply put_shows].
      apply e_shrink with l; [exact El|lia|]. rewrite (H5 l ltac:(lia) El). apply fit_kept.
    + split; [exact Hinv|]. exists (bytes_of s). split; [apply e_small with l; [exact El|lia]|reflexivity].
  - contradiction.
  - (* Write *) destruct Hc as (l & El & Hk). destruct (bytes_owner _ _ _ El) as (h & Hi & Ho). rewrite Hi.
    destruct (inv_bytes s i h Hinv Hi Ho) as (l0 & El0 & Hlen & Hd & Hd0). rewrite El in El0. injection El0 as <-.
    destruct (Nat.eq_dec (data h) 0) as [E|E]; [rewrite (Hd0 E) in Hk; cbn in Hk; lia|]. destruct (Hd E) as [Eb _].
    rewrite (proj2 (Nat.ltb_lt _ _)) by lia. rewrite Eb. rewrite (proj2 (Nat.ltb_lt _ _)) by lia.
    destruct (set_nth_props l j (Some v) Hk) as (P1 & P2 & P3).
    pose proof Hinv as ((J0 & J1 & J2) & I2 & I3 & I4).
    assert (Hsome : forall p, blk (with_blk s (data h) (Some (set_nth l j (Some v)))) p <> None <-> blk s p <> None).
    { intro p. cbn [blk with_blk]. unfold upd. destruct (Nat.eqb_spec p (data h)) as [->|]; [|reflexivity]. rewrite Eb. split; discriminate. }
    split.
    + split; [|split; [|split]].
      * split; [|split; [|exact J2]]; [cbn; rewrite upd_other by congruence; exact J0|]. intros p Hp. apply J1, Hsome, Hp.
      * intros a g Ha Hog. destruct (I2 a g Ha Hog) as [|(G1 & G2 & x & G3 & G4)]; [now left|]. right. split; [exact G1|]. split; [exact G2|].
        cbn [blk with_blk]. unfold upd. destruct (Nat.eqb_spec (data g) (data h)) as [Eg|]; [|now exists x].
        rewrite Eg, Eb in G3. injection G3 as <-. eexists. split; [reflexivity|]. now rewrite P1.
      * exact I3.
      * intros p Hp. apply I4, Hsome, Hp.
    + exists (put (bytes_of s) i (Some (set_nth l j (Some v)))). split; [now apply e_write with l|]. intro a. apply put_shows.
      * intros b Hbi. unfold bytes_of. cbn [mem with_blk blk]. destruct (mem s b) as [g|] eqn:Eg; [|reflexivity]. destruct (owns g) eqn:Eo; [|reflexivity].
        destruct (Nat.eqb_spec (data g) 0) as [|Hdg]; [reflexivity|]. rewrite upd_other; [reflexivity|]. intro Ed. apply Hdg. eapply (I3 b i g h); eauto.
      * unfold bytes_of. cbn [mem with_blk blk]. rewrite Hi, Ho, (proj2 (Nat.eqb_neq _ _) E). apply upd_same.
  - (* MoveTo *) destruct Hc as (Hdi & Hdx & Hde & Hb). destruct (bytes_of s i) as [l|] eqn:El; [|congruence]. destruct (bytes_owner _ _ _ El) as (h & Hi & Ho).
    destruct (mem s d) as [g|] eqn:Eg; [|congruence]. rewrite Hi. rewrite (proj2 (Nat.eqb_neq _ _) Hdi).
    assert (Hmem : forall a, mem (with_mem (with_mem s d (Some h)) i (Some (moved h))) a = if Nat.eqb a i then Some (moved h) else if Nat.eqb a d then Some h else mem s a) by reflexivity.
    split.
    + apply renamed with (s := s) (f := (fun a => if Nat.eqb a d then i else a)); [exact Hinv|reflexivity|reflexivity| | |].
      * intros a x Ha Hx. rewrite Hmem in Ha. destruct (Nat.eqb a i) eqn:E1; [injection Ha as <-; discriminate|]. destruct (Nat.eqb a d); [congruence|exact Ha].
      * intros a b x x' Ha Hb' Hx Hx' E. rewrite Hmem in Ha, Hb'. destruct (Nat.eqb_spec a i) as [|Hai]; [injection Ha as <-; discriminate|].
        destruct (Nat.eqb_spec b i) as [|Hbi]; [injection Hb' as <-; discriminate|]. left. destruct (Nat.eqb_spec a d), (Nat.eqb_spec b d); congruence.
      * intros a x Ha Hx Hdx'. destruct (Nat.eq_dec a i) as [->|Hai]; [exists d; rewrite Hmem, (proj2 (Nat.eqb_neq _ _) Hdi), Nat.eqb_refl; congruence|].
        exists a. rewrite Hmem, (proj2 (Nat.eqb_neq _ _) Hai). destruct (Nat.eqb_spec a d) as [->|]; [|exact Ha]. exfalso.
        rewrite Ha in Eg. injection Eg as <-. destruct (inv_bytes s d x Hinv Ha Hx) as (l0 & El0 & _ & Hd & _). destruct (Hd Hdx') as [_ Hne].
        rewrite El0 in Hde. destruct Hde; congruence.
    + eexists. split; [apply (e_move _ d i l Hdi El)|]. intro a. unfold bytes_of at 1. rewrite Hmem. unfold put.
      destruct (Nat.eqb_spec a i); [reflexivity|]. destruct (Nat.eqb_spec a d); [|reflexivity]. unfold bytes_of in El. rewrite Hi in El. cbn [blk with_mem]. exact El.
  - (* MoveNew *) destruct Hc as (Hdx & Hb). destruct (bytes_of s i) as [l|] eqn:El; [|congruence]. destruct (bytes_owner _ _ _ El) as (h & Hi & Ho).
    assert (Hdi : d <> i) by congruence. rewrite Hdx, Hi.
    assert (Hmem : forall a, mem (with_mem (with_mem s d (Some h)) i (Some (moved h))) a = if Nat.eqb a i then Some (moved h) else if Nat.eqb a d then Some h else mem s a) by reflexivity.
    split.
    + apply renamed with (s := s) (f := (fun a => if Nat.eqb a d then i else a)); [exact Hinv|reflexivity|reflexivity| | |].
      * intros a x Ha Hx. rewrite Hmem in Ha. destruct (Nat.eqb a i) eqn:E1; [injection Ha as <-; discriminate|]. destruct (Nat.eqb a d); [congruence|exact Ha].
      * intros a b x x' Ha Hb' Hx Hx' E. rewrite Hmem in Ha, Hb'. destruct (Nat.eqb_spec a i) as [|Hai]; [injection Ha as <-; discriminate|].
        destruct (Nat.eqb_spec b i) as [|Hbi]; [injection Hb' as <-; discriminate|]. left. destruct (Nat.eqb_spec a d), (Nat.eqb_spec b d); congruence.
      * intros a x Ha Hx Hdx'. destruct (Nat.eq_dec a i) as [->|Hai]; [exists d; rewrite Hmem, (proj2 (Nat.eqb_neq _ _) Hdi), Nat.eqb_refl; congruence|].
        exists a. rewrite Hmem, (proj2 (Nat.eqb_neq _ _) Hai). destruct (Nat.eqb_spec a d) as [->|]; [congruence|exact Ha].
    + eexists. split; [apply (e_move_new _ d i l Hdi El)|]. intro a. unfold bytes_of at 1. rewrite Hmem. unfold put.
      destruct (Nat.eqb_spec a i); [reflexivity|]. destruct (Nat.eqb_spec a d); [|reflexivity]. unfold bytes_of in El. rewrite Hi in El. cbn [blk with_mem]. exact El.
  - (* Swap *) destruct Hc as [H1 H2]. destruct (mem s i) as [g|] eqn:Eg; [|congruence]. destruct (mem s j) as [h|] eqn:Eh; [|congruence].
    assert (Hmem : forall a, mem (with_mem (with_mem s i (Some h)) j (Some g)) a = if Nat.eqb a j then Some g else if Nat.eqb a i then Some h else mem s a) by reflexivity.
    split.
    + apply renamed with (s := s) (f := (fun a => if Nat.eqb a j then i else if Nat.eqb a i then j else a)); [exact Hinv|reflexivity|reflexivity| | |].
      * intros a x Ha Hx. rewrite Hmem in Ha. destruct (Nat.eqb a j); [congruence|]. destruct (Nat.eqb a i); [congruence|exact Ha].
      * intros a b x x' Ha Hb Hx Hx' E. left.
        destruct (Nat.eqb_spec a j), (Nat.eqb_spec b j), (Nat.eqb_spec a i), (Nat.eqb_spec b i); congruence.
      * intros a x Ha Hx _. exists (if Nat.eqb a j then i else if Nat.eqb a i then j else a). rewrite Hmem.
        destruct (Nat.eqb_spec a j) as [Haj|Haj], (Nat.eqb_spec a i) as [Hai|Hai].
        -- subst. rewrite Nat.eqb_refl. congruence.
        -- subst. destruct (Nat.eqb_spec i j) as [Eij|Eij]; [congruence|]. rewrite Nat.eqb_refl. congruence.
        -- subst. rewrite Nat.eqb_refl. congruence.
        -- rewrite (proj2 (Nat.eqb_neq _ _) Haj), (proj2 (Nat.eqb_neq _ _) Hai). exact Ha.
    + eexists. split; [apply e_swap|]. intro a. unfold bytes_of at 1. rewrite Hmem. unfold put.
      destruct (Nat.eqb_spec a j); [unfold bytes_of; now rewrite Eg|]. destruct (Nat.eqb_spec a i); [unfold bytes_of; now rewrite Eh|reflexivity].
  - (* Destroy *) destruct (mem s i) as [h|] eqn:Hi; [|congruence]. destruct (owns h) eqn:Ho.
    + pose proof (served_ok k s i h 0 0 Moved Hinv Hi Ho (or_introl eq_refl)) as H. destruct (allocator k s 0 (data h) 0 Moved) as [q s'|s'|].
      * destruct (changed s i h 0 0 Moved q s' None Hinv Hi Ho (or_introl eq_refl) H) as (C1 & C2 & C3 & _); [right; now split|].
        split; [exact C1|]. exists (put (bytes_of s) i None). split; [apply e_destroy|]. intro a. apply put_shows; [exact C2|now apply C3].
      * destruct H as (_ & H & _). congruence.
      * exact H.
    + assert (Hmem : forall a, mem (with_mem s i None) a = if Nat.eqb a i then None else mem s a) by reflexivity.
      split.
      * apply renamed with (s := s) (f := (fun a => a)); [exact Hinv|reflexivity|reflexivity| | |].
        -- intros a x Ha _. rewrite Hmem in Ha. destruct (Nat.eqb a i); [discriminate|exact Ha].
        -- intros a b x x' _ _ _ _ E. now left.
        -- intros a x Ha Hx _. exists a. rewrite Hmem. destruct (Nat.eqb_spec a i) as [->|]; [congruence|exact Ha].
      * exists (put (bytes_of s) i None). split; [apply e_destroy|]. intro a. unfold bytes_of at 1. rewrite Hmem. unfold put. destruct (Nat.eqb a i); reflexivity.
Qed.

Lemma reached_inv k s : reached k s -> inv s.
Proof.
  induction 1 as [|s o s' H IH Hc Hs].
  - split; [|split; [|split]]; cbn; [split; [reflexivity|split; [congruence|lia]]|discriminate|discriminate|congruence].
  - pose proof (step_ok k s o IH Hc) as H1. destruct Hs as [E|E]; rewrite E in H1; [apply H1|now rewrite H1].
Qed.

(** *** C142 *)
(** On the CPU allocator and on those built from a pair of functions: after any
    careful history, a careful call never goes wrong; what it does to the bytes
    of all memories is what the specification says, and a call that throws
    changes nothing. *)
Theorem C142_bytes_partial : forall k s o, reached k s -> careful s o ->
  match step k s o with
  | Fine s' => exists b', effect (bytes_of s) o b' /\ forall j, bytes_of s' j = b' j
  | Throws s' => s' = s
  | Broken => False
  end.
Proof. intros k s o H Hc. pose proof (step_ok k s o (reached_inv k s H) Hc) as H1. destruct (step k s o); [apply H1|exact H1|exact H1]. Qed.
Print Assumptions C142_bytes_partial.

(** the capacity reported is the number of bytes there are *)
Theorem C142_capacity : forall k s i h, reached k s -> mem s i = Some h -> owns h = true ->
  exists l, bytes_of s i = Some l /\ length l = cap h.
Proof. intros k s i h H Hi Ho. destruct (inv_bytes s i h (reached_inv k s H) Hi Ho) as (l & E & Hl & _). now exists l. Qed.
Print Assumptions C142_capacity.

(** False of the code as it stands after dispose: capacity stays, resizing to
    the old size does nothing, and storing within the capacity is undefined. *)
Theorem C142_dispose_refuted : forall k, exists s h,
  play k start [New 0; Resize 0 4 Moved; Dispose 0; Resize 0 4 Moved] = Fine s /\
  mem s 0 = Some h /\ cap h = 4 /\ data h = 0 /\ step k s (Write 0 0 7%Z) = Broken.
Proof. intros []; eexists; eexists; split; [reflexivity| |reflexivity|]; split; [reflexivity| |reflexivity|]; repeat split. Qed.
Print Assumptions C142_dispose_refuted.

(** *** C143 *)
(** After any careful history every block the system gave out and did not get
    back belongs to exactly one memory; in particular nothing is left when no
    memory is. *)
Theorem C143_owned_partial : forall k s, reached k s ->
  (forall p, blk s p <> None ->
     exists i h, mem s i = Some h /\ owns h = true /\ data h = p /\
                 forall j g, mem s j = Some g -> owns g = true -> data g = p -> j = i) /\
  ((forall i, mem s i = None) -> forall p, blk s p = None).
Proof.
  intros k s H. pose proof (reached_inv k s H) as ((J0 & _) & I2 & I3 & I4). split.
  - intros p Hp. destruct (I4 p Hp) as (i & h & Hi & Ho & Hd). exists i, h. split; [exact Hi|]. split; [exact Ho|]. split; [exact Hd|].
    intros j g Hj Hog Hdg. destruct (Nat.eq_dec j i) as [|Hne]; [assumption|]. exfalso. apply Hp.
    rewrite <- Hdg, (I3 j i g h Hne Hj Hi Hog Ho ltac:(congruence)). exact J0.
  - intros Hn p. destruct (blk s p) as [b|] eqn:E; [|reflexivity]. destruct (I4 p ltac:(congruence)) as (i & h & Hi & _). rewrite Hn in Hi. discriminate.
Qed.
Print Assumptions C143_owned_partial.

(** False of the code as it stands when a resize is refused by the system: the
    block was already freed, and the destructor frees it again. *)
Theorem C143_refused_resize_refuted : forall k, play k start [New 0; Resize 0 4 Moved; Resize 0 8 Fail; Destroy 0] = Broken.
Proof. intros []; reflexivity. Qed.
Print Assumptions C143_refused_resize_refuted.

(** and when a memory is moved onto one that has bytes: they are never freed. *)
Theorem C143_move_refuted : forall k, exists s p,
  play k start [New 0; Resize 0 4 Moved; New 1; MoveTo 0 1; Destroy 0; Destroy 1] = Fine s /\ (forall i, mem s i = None) /\ blk s p <> None.
Proof.
  intros k. destruct k.
  - eexists. exists 1. split; [reflexivity|]. split; [|discriminate]. intros [|[|i]]; reflexivity.
  - eexists. exists 1. split; [reflexivity|]. split; [|discriminate]. intros [|[|i]]; reflexivity.
Qed.
Print Assumptions C143_move_refuted.

Example C142_example : exists s, reached Cpu s /\ bytes_of s 1 = Some [Some 7%Z; None] /\ bytes_of s 0 = None.
Proof.
  set (h := [New 0; Resize 0 3 Moved; Write 0 0 7%Z; Expect 0 5 InPlace; Write 0 4 9%Z; Shrink 0 2 Moved; MoveNew 1 0]).
  assert (Hgo : forall l s, reached Cpu s -> (forall m n o s1, l = m ++ o :: n -> play Cpu s m = Fine s1 -> careful s1 o) -> forall s2, play Cpu s l = Fine s2 -> reached Cpu s2).
  { clear. induction l as [|o l IH]; intros s Hs Hc s2 H; cbn in H; [injection H as <-; exact Hs|].
    pose proof (Hc [] l o s eq_refl eq_refl) as Ho.
    destruct (step Cpu s o) as [s1|s1|] eqn:E; [| |discriminate].
    - apply (IH s1); [eapply one_more; [exact Hs|exact Ho|now left]| |exact H].
      intros m n o' s3 -> Hm. apply (Hc (o :: m) n o' s3 eq_refl). cbn. now rewrite E.
    - apply (IH s1); [eapply one_more; [exact Hs|exact Ho|now right]| |exact H].
      intros m n o' s3 -> Hm. apply (Hc (o :: m) n o' s3 eq_refl). cbn. now rewrite E. }
  destruct (play Cpu start h) as [s2| |] eqn:E2; [|discriminate|discriminate].
  exists s2. split; [|injection E2 as <-; split; reflexivity].
  apply (Hgo h start); [constructor| |exact E2].
  intros m n o s1 Em Hm. unfold h in Em.
  do 7 (destruct m as [|? m]; [injection Em as <- _; cbn in Hm; injection Hm as <-; cbn; repeat split; try discriminate; try (left; discriminate); try (eexists; split; [reflexivity|cbn; lia])|
    injection Em as <- Em]).
  destruct m; discriminate.
Qed.
