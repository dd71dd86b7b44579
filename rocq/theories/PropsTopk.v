(** C116: topkv2 gives, along the last axis, the k greatest values and where they are. *)
From Coq Require Import List ZArith Bool Lia Permutation.
From Verif Require Import ShapeModel ShapeSpec ShapeProofs KernelBase KernelSpec KernelProofs TileModel ActivationProofs NormProofs WinogradProofs TopkModel TopkSpec.
Import ListNotations.
Local Open Scope Z_scope.

Section Row.
Context {A : Type}.
Variable psort : sorter.
Variable gt : A -> A -> bool.
Hypothesis PS : partial_sort_contract psort.
Variable P : A -> Prop.
Hypothesis SW : strict_weak P gt.

Lemma row_gt_at data base W (f : Z -> A) a b : (forall i, 0 <= i < W -> load data (base + i) = SOk (f i)) -> 0 <= a < W -> 0 <= b < W ->
  row_gt gt data base a b = gt (f a) (f b).
Proof. intros H Ha Hb. unfold row_gt. now rewrite !H by assumption. Qed.

Lemma row_greatest data W K n (f : Z -> A) : 0 <= K <= W -> (forall i, 0 <= i < W -> load data (n * W + i) = SOk (f i)) -> (forall i, 0 <= i < W -> P (f i)) ->
  let r := row_order psort gt data W K n in
  Z.of_nat (length r) = W /\ greatest gt W f (Z.to_nat K) (firstn (Z.to_nat K) r).
Proof using PS SW.
  intros HK Hl HP r. assert (Lu : length (upto W) = Z.to_nat W) by apply length_upto.
  destruct SW as (S1 & S2 & S3).
  assert (D : forall a, In a (upto W) -> 0 <= a < W) by (intros a; apply In_upto).
  destruct (PS (Z.to_nat K) (row_gt gt data (n * W)) (upto W)) as [Pm So]; [lia| |].
  { split; [|split].
    - intros a Ha. apply D in Ha. rewrite (row_gt_at data _ W f) by auto. apply S1. auto.
    - intros a b c Ha Hb Hc. apply D in Ha, Hb, Hc. rewrite !(row_gt_at data _ W f) by auto. apply S2; auto.
    - intros a b c Ha Hb Hc. apply D in Ha, Hb, Hc. rewrite !(row_gt_at data _ W f) by auto. apply S3; auto. }
  fold (row_order psort gt data W K n) in Pm, So. fold r in Pm, So. clearbody r.
  assert (Lr : length r = Z.to_nat W) by (rewrite <- (Permutation_length Pm); exact Lu).
  assert (Nr : NoDup r) by (apply (Permutation_NoDup Pm), NoDup_upto).
  assert (Ir : forall i, In i r <-> 0 <= i < W).
  { intros i. rewrite <- In_upto. split; apply Permutation_in; [now apply Permutation_sym|exact Pm]. }
  assert (Rg : forall p, (p < length r)%nat -> 0 <= nth p r 0 < W) by (intros p Hp; apply Ir, nth_In, Hp).
  assert (Nf : forall p, (p < Z.to_nat K)%nat -> nth p (firstn (Z.to_nat K) r) 0 = nth p r 0).
  { intros p Hp. rewrite <- (firstn_skipn (Z.to_nat K) r) at 2. rewrite app_nth1; [reflexivity|rewrite firstn_length; lia]. }
  assert (So' : forall i j, (i < j < length r)%nat -> (i < Z.to_nat K)%nat -> gt (f (nth j r 0)) (f (nth i r 0)) = false).
  { intros i j Hij Hi. rewrite <- (row_gt_at data (n * W) W f) by (auto; apply Rg; lia). apply So; lia. }
  split; [lia|]. split; [rewrite firstn_length; lia|]. split.
  { rewrite <- (firstn_skipn (Z.to_nat K) r) in Nr. clear - Nr. induction (firstn (Z.to_nat K) r) as [|a l IH]; [constructor|].
    inversion Nr as [|? ? N1 N2]; subst. constructor; [intros H; apply N1, in_or_app; now left|now apply IH]. }
  split. { intros i Hi. apply Ir. rewrite <- (firstn_skipn (Z.to_nat K) r). apply in_or_app. now left. }
  split. { intros p q Hpq. rewrite !Nf by lia. apply So'; lia. }
  intros i j Hi Hj Nj. apply (In_nth _ _ 0) in Hi. destruct Hi as (p & Hp & <-). rewrite firstn_length in Hp. rewrite Nf by lia.
  apply Ir in Hj. apply (In_nth _ _ 0) in Hj. destruct Hj as (q & Hq & <-). apply So'; [|lia]. split; [|exact Hq].
  destruct (Nat.lt_ge_cases p q) as [H|H]; [exact H|]. exfalso. apply Nj. rewrite <- Nf by lia. apply nth_In. rewrite firstn_length. lia.
Qed.
End Row.

Lemma row_pos lead w r k : length r = length lead -> position (lead ++ [w]) (r ++ [k]) = position lead r * w + k.
Proof. intros H. rewrite position_app by auto. cbn. ring. Qed.
Lemma inside_snoc lead w c : inside (lead ++ [w]) c -> exists r k, c = r ++ [k] /\ inside lead r /\ 0 <= k < w.
Proof.
  intros H. apply inside_app_inv in H. destruct H as (r & y & -> & H1 & H2). inversion H2 as [|? k ? ? Hk Hn]; subst. inversion Hn; subst. exists r, k. auto.
Qed.
Lemma rows_exec {A} N K (g : Z -> Z -> sres A) (V : Z -> Z -> A) : 0 <= N -> 0 <= K -> (forall n k, 0 <= n < N -> 0 <= k < K -> g n k = SOk (V n k)) ->
  exists out, exec (fresh (N * K)) (flat_map (fun n => map (fun k => (n * K + k, g n k)) (upto K)) (upto N)) = SOk (map Some out) /\ Z.of_nat (length out) = N * K /\
    forall n k, 0 <= n < N -> 0 <= k < K -> nth_error out (Z.to_nat (n * K + k)) = Some (V n k).
Proof.
  intros HN HK Hg. exists (map (fun p => V (p / K) (p mod K)) (upto (N * K))). split; [|split].
  - apply exec_all.
    + intros d v Hd. apply in_flat_map in Hd. destruct Hd as (n & Hn & Hd). apply in_map_iff in Hd. destruct Hd as (k & E & Hk). apply In_upto in Hn, Hk.
      apply pair_equal_spec in E. destruct E as [<- <-]. destruct (join_index N K n k Hn Hk) as (B & -> & ->). split; [exact B|]. now apply Hg.
    + intros d Hd. destruct (split_index N K d Hd HK) as (B1 & B2 & E). rewrite E. rewrite in_map_iff.
      exists (d / K * K + d mod K, g (d / K) (d mod K)). split; [reflexivity|]. apply in_flat_map. exists (d / K). split; [now apply In_upto|].
      apply in_map_iff. exists (d mod K). split; [reflexivity|now apply In_upto].
  - rewrite map_length, length_upto. nia.
  - intros n k Hn Hk. destruct (join_index N K n k Hn Hk) as (B & E1 & E2). rewrite nth_error_map, nth_error_upto by exact B. cbn [option_map]. now rewrite E1, E2.
Qed.

(** For every sort that keeps the contract of std::partial_sort and every type
    (with at least one value [d]) whose comparison is a strict weak ordering of
    the values at hand. *)
Theorem C116_topkv2 {A} psort (gt : A -> A -> bool) (P : A -> Prop) (d : A) (x : tensor A) lead W number :
  partial_sort_contract psort -> strict_weak P gt -> (forall a, In a (t_data x) -> P a) ->
  wf x -> t_shape x = lead ++ [W] -> 0 <= number -> tile_supports (t_dtype x) = true ->
  exists values indices, topkv2 psort gt number x = SOk (filled values, filled indices) /\ wf values /\ wf indices /\
    t_dtype values = t_dtype x /\ t_dtype indices = 5 /\
    t_shape values = lead ++ [Z.min W number] /\ t_shape indices = lead ++ [Z.min W number] /\
    forall r, inside lead r -> exists f sel, (forall i, 0 <= i < W -> elt x (r ++ [i]) = Some (f i)) /\
      greatest gt W f (Z.to_nat (Z.min W number)) sel /\
      forall k, 0 <= k < Z.min W number ->
        elt indices (r ++ [k]) = Some (nth (Z.to_nat k) sel 0) /\ elt values (r ++ [k]) = Some (f (nth (Z.to_nat k) sel 0)).
Proof.
  intros PS SW HP [Nn Ln] Es Hnum Sup. set (K := Z.min W number).
  assert (HF : Forall (fun d => 0 <= d) lead /\ 0 <= W).
  { rewrite Es in Nn. apply Forall_app in Nn. destruct Nn as [N1 N2]. inversion N2; subst. auto. }
  destruct HF as [Nl HW]. assert (HK : 0 <= K <= W) by lia.
  rewrite Es, elements_app in Ln. cbn [elements] in Ln. rewrite Z.mul_1_r in Ln.
  set (N := elements lead) in *. assert (HN : 0 <= N) by (apply elements_nonneg; exact Nl).
  set (f n i := nth (Z.to_nat (n * W + i)) (t_data x) d).
  assert (Hl : forall n i, 0 <= n < N -> 0 <= i < W -> load (t_data x) (n * W + i) = SOk (f n i)).
  { intros n i Hn Hi. apply load_nth. rewrite Ln. apply join_index; assumption. }
  assert (Hp : forall n i, 0 <= n < N -> 0 <= i < W -> P (f n i)).
  { intros n i Hn Hi. apply HP. apply nth_In. destruct (join_index N W n i Hn Hi) as (B & _). lia. }
  assert (G : forall n, 0 <= n < N -> let r := row_order psort gt (t_data x) W K n in Z.of_nat (length r) = W /\ greatest gt W (f n) (Z.to_nat K) (firstn (Z.to_nat K) r)).
  { intros n Hn. apply (row_greatest psort gt PS P SW); auto. }
  assert (Lo : forall n k, 0 <= n < N -> 0 <= k < K -> load (row_order psort gt (t_data x) W K n) k = SOk (nth (Z.to_nat k) (firstn (Z.to_nat K) (row_order psort gt (t_data x) W K n)) 0)).
  { intros n k Hn Hk. destruct (G n Hn) as [L _]. rewrite (load_nth 0) by lia. f_equal.
    rewrite <- (firstn_skipn (Z.to_nat K) (row_order psort gt (t_data x) W K n)) at 1. apply app_nth1. rewrite firstn_length. lia. }
  assert (Rg : forall n k, 0 <= n < N -> 0 <= k < K -> 0 <= nth (Z.to_nat k) (firstn (Z.to_nat K) (row_order psort gt (t_data x) W K n)) 0 < W).
  { intros n k Hn Hk. destruct (G n Hn) as [_ (L & _ & I & _)]. apply I, nth_In. lia. }
  set (sel n := firstn (Z.to_nat K) (row_order psort gt (t_data x) W K n)) in *.
  destruct (rows_exec N K (fun n k => match load (row_order psort gt (t_data x) W K n) k with SOk i => load (t_data x) (n * W + i) | _ => SUndef end)
    (fun n k => f n (nth (Z.to_nat k) (sel n) 0)) HN (proj1 HK)) as (vs & Ev & Lv & Nv).
  { intros n k Hn Hk. rewrite Lo by assumption. now apply Hl, Rg. }
  destruct (rows_exec N K (fun n k => load (row_order psort gt (t_data x) W K n) k) (fun n k => nth (Z.to_nat k) (sel n) 0) HN (proj1 HK)) as (is & Ei & Li & Ni).
  { intros n k Hn Hk. now apply Lo. }
  assert (Ei' : exec (fresh (N * K)) (index_events psort gt (t_data x) N W K) = SOk (map Some is)).
  { rewrite <- Ei. f_equal. unfold index_events, memcpy. rewrite (proj2 (Z.ltb_ge K 0)) by lia. reflexivity. }
  assert (El : elements (lead ++ [K]) = N * K) by (rewrite elements_app; cbn [elements]; fold N; ring).
  exists (Tn (t_dtype x) (lead ++ [K]) vs), (Tn 5 (lead ++ [K]) is).
  assert (Fk : Forall (fun d => 0 <= d) (lead ++ [K])) by (apply Forall_app; split; [exact Nl|repeat constructor; lia]).
  split; [|split; [split; cbn [t_shape t_data]; [exact Fk|now rewrite El]|split; [split; cbn [t_shape t_data]; [exact Fk|now rewrite El]|]]].
  - unfold topkv2. rewrite Es, rev_app_distr. cbn [rev app]. rewrite rev_involutive. fold K. rewrite (proj2 (Z.ltb_ge K 0)) by lia.
    rewrite Sup. cbn [negb]. rewrite !prod_elements. fold N. rewrite El. unfold value_events. rewrite Ev, Ei'. reflexivity.
  - cbn [t_dtype t_shape]. do 4 (split; [reflexivity|]). intros r Hr. pose proof (inside_length _ _ Hr) as Lr. pose proof (position_bound _ _ Hr) as Br. fold N in Br.
    exists (f (position lead r)), (sel (position lead r)). split; [|split].
    + intros i Hi. unfold elt. rewrite Es, row_pos by auto. destruct (load_ok (t_data x) (position lead r * W + i)) as (a & E & E').
      { rewrite Ln. now apply join_index. } rewrite E'. f_equal. rewrite Hl in E by assumption. now injection E.
    + apply G. exact Br.
    + intros k Hk. unfold elt. cbn [t_shape t_data]. rewrite !row_pos by auto. split; [now apply Ni|now apply Nv].
Qed.

Lemma nth_firstn p q (l : list Z) : (q < p)%nat -> nth q (firstn p l) 0 = nth q l 0.
Proof.
  intros H. destruct (Nat.lt_ge_cases q (length l)) as [Hl|Hl].
  - rewrite <- (firstn_skipn p l) at 2. rewrite app_nth1; [reflexivity|rewrite firstn_length; lia].
  - rewrite !nth_overflow; [reflexivity|exact Hl|rewrite firstn_length; lia].
Qed.
Lemma NoDup_firstn {B} n (l : list B) : NoDup l -> NoDup (firstn n l).
Proof.
  revert n. induction l as [|a l IH]; intros [|n] H; cbn; try constructor.
  - intros Hin. inversion H as [|? ? N1 _]; subst. apply N1. rewrite <- (firstn_skipn n l). apply in_or_app. now left.
  - apply IH. now inversion H.
Qed.
(** The values do not depend on the sort when the comparison tells different values apart. *)
Theorem C116_values_determined {A} (gt : A -> A -> bool) w (f : Z -> A) k s1 s2 :
  strict_weak (fun _ => True) gt -> (forall a b, gt a b = false -> gt b a = false -> a = b) ->
  greatest gt w f k s1 -> greatest gt w f k s2 -> forall p, (p < k)%nat -> f (nth p s1 0) = f (nth p s2 0).
Proof.
  intros (Ir & _ & Tr) An G1 G2 p Hp.
  assert (H : forall t1 t2, greatest gt w f k t1 -> greatest gt w f k t2 -> gt (f (nth p t1 0)) (f (nth p t2 0)) = false).
  2:{ apply An; auto. }
  clear s1 s2 G1 G2. intros t1 t2 (L1 & N1 & R1 & O1 & D1) (L2 & N2 & R2 & O2 & D2).
  destruct (gt (f (nth p t1 0)) (f (nth p t2 0))) eqn:E; [exfalso|reflexivity].
  assert (I : incl (firstn (S p) t1) (firstn p t2)).
  { intros a Ha. apply (In_nth _ _ 0) in Ha. destruct Ha as (q & Hq & <-). rewrite firstn_length in Hq. rewrite nth_firstn by lia.
    assert (Ge : gt (f (nth p t1 0)) (f (nth q t1 0)) = false).
    { destruct (Nat.eq_dec q p) as [->|Hn]; [now apply Ir|apply O1; lia]. }
    assert (Gt : gt (f (nth q t1 0)) (f (nth p t2 0)) = true).
    { destruct (gt (f (nth q t1 0)) (f (nth p t2 0))) eqn:E'; [reflexivity|]. rewrite (Tr _ (f (nth q t1 0)) _ Logic.I Logic.I Logic.I Ge E') in E. discriminate. }
    assert (Iq : 0 <= nth q t1 0 < w) by (apply R1, nth_In; lia).
    destruct (in_dec Z.eq_dec (nth q t1 0) t2) as [Hi|Hi].
    - apply (In_nth _ _ 0) in Hi. destruct Hi as (m & Hm & Em). rewrite <- Em in *.
      destruct (Nat.lt_trichotomy m p) as [Hc|[->|Hc]].
      + rewrite <- (nth_firstn p) by exact Hc. apply nth_In. rewrite firstn_length. lia.
      + rewrite Ir in Gt by exact Logic.I. discriminate.
      + rewrite O2 in Gt by lia. discriminate.
    - rewrite D2 in Gt; [discriminate| |exact Iq|exact Hi]. apply nth_In. lia. }
  apply NoDup_incl_length in I; [|now apply NoDup_firstn]. rewrite !firstn_length in I. lia.
Qed.
(** A scalar is its own greatest value. *)
Theorem C116_scalar {A} psort (gt : A -> A -> bool) number dt (a : A) :
  topkv2 psort gt number (Tn dt [] [a]) = SOk (filled (Tn dt [] [a]), filled (Tn 5 [] [0])).
Proof. reflexivity. Qed.
(** Other element types are refused. *)
Theorem C116_refused {A} psort (gt : A -> A -> bool) (x : tensor A) number : Forall (fun d => 0 <= d) (t_shape x) -> t_shape x <> [] -> 0 <= number ->
  tile_supports (t_dtype x) = false -> topkv2 psort gt number x = SErr.
Proof.
  intros F N Hn Sup. unfold topkv2. rewrite Sup. destruct (rev (t_shape x)) as [|W lead] eqn:E.
  - exfalso. apply N. rewrite <- (rev_involutive (t_shape x)), E. reflexivity.
  - assert (0 <= W) by (rewrite Forall_forall in F; apply F, in_rev; rewrite E; now left). rewrite (proj2 (Z.ltb_ge _ 0)) by lia. reflexivity.
Qed.

(** A sort that keeps the contract: insertion, k notwithstanding. *)
Fixpoint insert_by (cmp : Z -> Z -> bool) (a : Z) (l : list Z) : list Z :=
  match l with
  | [] => [a]
  | b :: l' => if cmp b a then b :: insert_by cmp a l' else a :: l
  end.
Definition insertion_sort : sorter := fun _ cmp l => fold_right (insert_by cmp) [] l.
Lemma insert_perm cmp a l : Permutation (a :: l) (insert_by cmp a l).
Proof.
  induction l as [|b l IH]; cbn; [reflexivity|]. destruct (cmp b a); [|reflexivity].
  rewrite perm_swap. now constructor.
Qed.
Lemma sort_perm k cmp l : Permutation l (insertion_sort k cmp l).
Proof. unfold insertion_sort. induction l as [|a l IH]; cbn; [constructor|]. rewrite <- insert_perm. now constructor. Qed.
Definition ordered (cmp : Z -> Z -> bool) (l : list Z) : Prop := forall i j, (i < j < length l)%nat -> cmp (nth j l 0) (nth i l 0) = false.
Lemma ordered_cons cmp a l : ordered cmp (a :: l) <-> (forall b, In b l -> cmp b a = false) /\ ordered cmp l.
Proof.
  split.
  - intros O. split.
    + intros b Hb. apply (In_nth _ _ 0) in Hb. destruct Hb as (j & Hj & <-). apply (O 0%nat (S j)). cbn [length]. lia.
    + intros i j H. apply (O (S i) (S j)). cbn [length]. lia.
  - intros [H O] i j Hij. destruct j as [|j]; [lia|]. cbn [length] in Hij. cbn [nth]. destruct i as [|i].
    + apply H, nth_In. lia.
    + apply O. lia.
Qed.
Lemma insertion_contract : partial_sort_contract insertion_sort.
Proof.
  intros k cmp l Hk (Ir & Tr & Nt). split; [apply sort_perm|]. intros i j Hij _.
  assert (G : forall l', incl l' l -> ordered cmp (insertion_sort k cmp l')).
  { clear - Ir Tr Nt. induction l' as [|a l' IH]; intros I; [intros i j H; cbn in H; lia|].
    assert (I' : incl l' l) by (intros b Hb; apply I; now right). specialize (IH I'). cbn [insertion_sort fold_right]. change (fold_right (insert_by cmp) [] l') with (insertion_sort k cmp l').
    assert (Is : incl (insertion_sort k cmp l') l) by (intros b Hb; apply I'; eapply Permutation_in; [apply Permutation_sym, sort_perm|exact Hb]).
    assert (Ia : In a l) by (apply I; now left). clear I I'. induction (insertion_sort k cmp l') as [|b s IHs]; cbn [insert_by].
    - apply ordered_cons. split; [intros b []|intros i j H; cbn in H; lia].
    - apply ordered_cons in IH. destruct IH as [Hb Os]. assert (Ib : In b l) by (apply Is; now left). assert (Is' : incl s l) by (intros c Hc; apply Is; now right).
      destruct (cmp b a) eqn:E.
      + apply ordered_cons. split; [|now apply IHs]. intros c Hc. apply (Permutation_in _ (Permutation_sym (insert_perm _ _ _))) in Hc. destruct Hc as [<-|Hc]; [|now apply Hb].
        destruct (cmp a b) eqn:E'; [|reflexivity]. assert (X : cmp a a = true) by (apply (Tr a b a); auto). rewrite Ir in X by exact Ia. discriminate.
      + apply ordered_cons. split; [|now apply ordered_cons]. intros c [<-|Hc]; [exact E|]. apply (Nt c b a); auto. }
  apply G; [intros b Hb; exact Hb|]. rewrite <- (Permutation_length (sort_perm k cmp l)). exact Hij.
Qed.
Example C116_example : partial_sort_contract insertion_sort /\ strict_weak (fun _ => True) Z.gtb /\
  topkv2 insertion_sort Z.gtb 2 (Tn 5 [2; 3] [4; 9; 7; 1; 1; 0]) = SOk (filled (Tn 5 [2; 2] [9; 7; 1; 1]), filled (Tn 5 [2; 2] [1; 2; 0; 1])).
Proof.
  split; [apply insertion_contract|]. split; [|reflexivity].
  split; [|split]; intros; rewrite ?Z.gtb_ltb, ?Z.ltb_ge, ?Z.ltb_lt in *; lia.
Qed.
Print Assumptions C116_topkv2.
Print Assumptions C116_values_determined.
Print Assumptions C116_scalar.
Print Assumptions C116_refused.
