(** Proofs about the pooled allocator. *)
From Coq Require Import ZArith List Bool Arith Lia Permutation Sorted.
From Verif Require Import VatModel VatSpec.
Import ListNotations.
Local Open Scope Z_scope.

(** *** Regions *)
Lemma region_eqb_spec a b : reflect (a = b) (region_eqb a b).
Proof.
  unfold region_eqb. destruct a as [a1 a2], b as [b1 b2]; cbn [fst snd].
  destruct (Z.eqb_spec a1 b1), (Z.eqb_spec a2 b2); constructor; congruence.
Qed.

Lemma refers_spec ps r : refers ps r = true <-> In r (map region_of ps).
Proof.
  unfold refers. rewrite existsb_exists, in_map_iff. split; intros (p & H1 & H2); exists p.
  - destruct (region_eqb_spec (region_of p) r); [auto|discriminate].
  - split; [exact H2|]. destruct (region_eqb_spec (region_of p) r); congruence.
Qed.

Lemma take_back_spec l r : NoDup l -> In r l ->
  exists l', take_back l r = Some l' /\ NoDup l' /\ forall x, In x l' <-> In x l /\ x <> r.
Proof.
  induction l as [|y l IH]; intros N H; [destruct H|]. cbn [take_back].
  inversion N as [|? ? Ny Nl]; subst. destruct (region_eqb_spec y r) as [->|E].
  - exists l. split; [reflexivity|]. split; [exact Nl|]. intros x. split; [|intros [[->|] ?]; tauto].
    intros Hx. split; [now right|]. intros ->. contradiction.
  - destruct H as [->|H]; [contradiction|]. destruct (IH Nl H) as (l' & -> & N' & E'). exists (y :: l').
    split; [reflexivity|]. split.
    + constructor; [|exact N']. rewrite E'. tauto.
    + intros x. cbn [In]. rewrite E'. split; [intros [->|[? ?]]; auto|intros [[->|?] ?]; auto].
Qed.

Lemma let_go_spec before after : forall l, NoDup l ->
  (forall p, In p before -> data p <> 0 -> In (region_of p) l) ->
  exists l', let_go before after l = Some l' /\ NoDup l' /\
    forall r, In r l' <-> In r l /\
      ~ (exists p, In p before /\ data p <> 0 /\ region_of p = r /\ ~ In r (map region_of after)).
Proof.
  induction before as [|p t IH]; intros l N H.
  - exists l. split; [reflexivity|]. split; [exact N|]. intros r. split; [|tauto].
    intros Hr. split; [exact Hr|]. intros (q & [] & _).
  - cbn [let_go].
    destruct ((data p =? 0) || refers t (region_of p) || refers after (region_of p)) eqn:E.
    + destruct (IH l N) as (l' & E1 & N1 & S1); [intros q Hq; apply H; now right|].
      exists l'. split; [exact E1|]. split; [exact N1|]. intros r. rewrite S1.
      split; intros [Hr Hn]; (split; [exact Hr|]); intros (q & Hq & Hd & Hreg & Haf); apply Hn; clear Hn.
      * destruct Hq as [<-|Hq]; [|now exists q].
        apply orb_true_iff in E. destruct E as [E|E]; [apply orb_true_iff in E; destruct E as [E|E]|].
        -- apply Z.eqb_eq in E. contradiction.
        -- apply refers_spec, in_map_iff in E. destruct E as (q & Eq & Hq). exists q.
           split; [exact Hq|]. split; [|split; [congruence|exact Haf]].
           unfold region_of in Eq. congruence.
        -- apply refers_spec in E. exfalso. apply Haf. now rewrite <- Hreg.
      * exists q. split; [now right|]. auto.
    + apply orb_false_iff in E. destruct E as [E Ea]. apply orb_false_iff in E. destruct E as [E0 Et].
      apply Z.eqb_neq in E0.
      assert (Ht : ~ In (region_of p) (map region_of t)) by (rewrite <- refers_spec; congruence).
      assert (Haf : ~ In (region_of p) (map region_of after)) by (rewrite <- refers_spec; congruence).
      destruct (take_back_spec l (region_of p) N) as (l1 & -> & N1 & S1); [apply H; [now left|exact E0]|].
      destruct (IH l1 N1) as (l' & E2 & N2 & S2).
      { intros q Hq Hd. apply S1. split; [apply H; [now right|exact Hd]|]. intros Eq. apply Ht. rewrite <- Eq.
        now apply in_map. }
      exists l'. split; [exact E2|]. split; [exact N2|]. intros r. rewrite S2, S1. split.
      * intros [[Hr Hne] Hn]. split; [exact Hr|]. intros (q & [<-|Hq] & Hd & Hreg & Ha); [congruence|].
        apply Hn. now exists q.
      * intros [Hr Hn]. split; [split; [exact Hr|]|].
        -- intros ->. apply Hn. exists p. split; [now left|]. auto.
        -- intros (q & Hq & Hd & Hreg & Ha). apply Hn. exists q. split; [now right|]. auto.
Qed.

(** *** The invariant *)
Record inv (w : world) : Prop := mkInv {
  i_perm : Permutation (map region_of (pots (pool w))) (live w);
  i_nodup : NoDup (live w);
  i_disj : forall r1 r2, In r1 (live w) -> In r2 (live w) -> r1 = r2 \/ disjoint r1 r2;
  i_pos : forall p, In p (pots (pool w)) -> 0 < data p /\ 0 < cap p;
  i_keys : forall k p, In (k, p) (dict (pool w)) -> k = data p
}.

Lemma disjoint_sym a b : disjoint a b -> disjoint b a.
Proof. unfold disjoint. tauto. Qed.

Lemma finish_spec a before v l :
  NoDup l ->
  (forall p, In p before -> data p <> 0 -> In (region_of p) l) ->
  (forall r, In r l -> exists p, In p before /\ data p <> 0 /\ region_of p = r) ->
  (forall p, In p (pots v) -> In (region_of p) l) ->
  NoDup (map region_of (pots v)) ->
  exists l', finish a before v l = Some (a, mkWorld v l') /\
    Permutation (map region_of (pots v)) l' /\ NoDup l' /\ (forall r, In r l' -> In r l).
Proof.
  intros N H1 H2 H3 N2. unfold finish.
  destruct (let_go_spec before (pots v) l N H1) as (l' & -> & N' & S'). exists l'.
  split; [reflexivity|]. split; [|split; [exact N'|intros r Hr; apply S', Hr]].
  apply NoDup_Permutation; [exact N2|exact N'|]. intros r. rewrite S'. split.
  - intros Hr. split.
    + apply in_map_iff in Hr. destruct Hr as (p & <- & Hp). apply H3, Hp.
    + intros (p & _ & _ & _ & Hn). contradiction.
  - intros [Hr Hn]. destruct (H2 r Hr) as (p & Hp & Hd & Hreg).
    destruct (in_dec (fun x y => reflect_dec _ _ (region_eqb_spec x y)) r (map region_of (pots v))) as [?|Hno]; [assumption|].
    exfalso. apply Hn. exists p. auto.
Qed.

Lemma inv_in w p : inv w -> In p (pots (pool w)) -> In (region_of p) (live w).
Proof. intros I H. apply (Permutation_in _ (i_perm w I)). now apply in_map. Qed.
Lemma inv_from w r : inv w -> In r (live w) -> exists p, In p (pots (pool w)) /\ data p <> 0 /\ region_of p = r.
Proof.
  intros I H. apply (Permutation_in _ (Permutation_sym (i_perm w I))) in H. apply in_map_iff in H.
  destruct H as (p & E & Hp). exists p. destruct (i_pos w I p Hp). repeat split; auto. lia.
Qed.
Lemma inv_nodup w : inv w -> NoDup (map region_of (pots (pool w))).
Proof. intros I. exact (Permutation_NoDup (Permutation_sym (i_perm w I)) (i_nodup w I)). Qed.

Lemma NoDup_map_in {A B} (f : A -> B) l : NoDup (map f l) -> forall x y, In x l -> In y l -> f x = f y -> x = y.
Proof.
  induction l as [|a l IH]; intros N x y Hx Hy E; [destruct Hx|]. cbn in N. inversion N as [|? ? Na Nl]; subst.
  destruct Hx as [<-|Hx], Hy as [<-|Hy]; auto.
  - exfalso. apply Na. rewrite E. now apply in_map.
  - exfalso. apply Na. rewrite <- E. now apply in_map.
Qed.

(** an address determines the Pot *)
Lemma inv_data w p q : inv w -> In p (pots (pool w)) -> In q (pots (pool w)) -> data p = data q -> p = q.
Proof.
  intros I Hp Hq E. apply (NoDup_map_in region_of _ (inv_nodup w I)); auto.
  destruct (i_disj w I _ _ (inv_in w p I Hp) (inv_in w q I Hq)) as [H|H]; [exact H|].
  exfalso. destruct (i_pos w I p Hp), (i_pos w I q Hq). unfold disjoint, region_of in H. cbn [fst snd] in H. lia.
Qed.

(** the generic step that only rearranges and drops Pots *)
Lemma rearrange w a v : inv w ->
  NoDup (map region_of (pots v)) -> incl (pots v) (pots (pool w)) ->
  (forall k p, In (k, p) (dict v) -> k = data p) ->
  exists l', finish a (pots (pool w)) v (live w) = Some (a, mkWorld v l') /\ inv (mkWorld v l') /\ incl l' (live w).
Proof.
  intros I N Hin Hk.
  destruct (finish_spec a (pots (pool w)) v (live w)) as (l' & E & P & N' & Hl).
  - apply I.
  - intros p Hp _. now apply inv_in.
  - intros r. now apply inv_from.
  - intros p Hp. apply inv_in; auto.
  - exact N.
  - exists l'. split; [exact E|]. split; [|exact Hl]. split; cbn [pool live]; auto.
    + intros r1 r2 H1 H2. apply (i_disj w I); auto.
    + intros p Hp. apply (i_pos w I); auto.
Qed.

(** *** The dictionary *)
Lemma lookup_in d key p : lookup d key = Some p -> In (key, p) d.
Proof.
  induction d as [|[k q] d IH]; cbn [lookup]; [discriminate|].
  destruct (Z.eqb_spec key k) as [<-|]; [intros [= ->]; now left|right; auto].
Qed.
Lemma lookup_none d key : lookup d key = None -> forall p, ~ In (key, p) d.
Proof.
  induction d as [|[k q] d IH]; cbn [lookup]; intros H p Hin; [destruct Hin|].
  destruct (Z.eqb_spec key k) as [<-|E]; [discriminate|]. destruct Hin as [[=]|Hin]; [congruence|].
  exact (IH H p Hin).
Qed.
Lemma erase_perm d key p : lookup d key = Some p -> Permutation d ((key, p) :: erase d key).
Proof.
  induction d as [|[k q] d IH]; cbn [lookup erase]; [discriminate|].
  destruct (Z.eqb_spec key k) as [<-|]; [intros [= ->]; reflexivity|]. intros H.
  rewrite (IH H) at 1. apply perm_swap.
Qed.

Lemma remove_at_perm (h : list pot) i p : nth_error h i = Some p -> Permutation h (p :: remove_at h i).
Proof.
  revert i. induction h as [|q h IH]; intros [|i] H; try discriminate H.
  - cbn in H. injection H as ->. reflexivity.
  - unfold remove_at. cbn [firstn skipn app]. rewrite (IH i H) at 1. apply perm_swap.
Qed.
Lemma insert_at_perm (h : list pot) i p : Permutation (insert_at h i p) (p :: h).
Proof.
  unfold insert_at. rewrite <- Permutation_middle. now rewrite firstn_skipn.
Qed.
Lemma sort_insert_perm p l : Permutation (sort_insert p l) (p :: l).
Proof.
  induction l as [|q l IH]; cbn [sort_insert]; [reflexivity|].
  destruct (cap p <=? cap q); [reflexivity|]. rewrite IH. apply perm_swap.
Qed.
Lemma sort_pots_perm l : Permutation (sort_pots l) l.
Proof.
  induction l as [|p l IH]; cbn; [reflexivity|]. fold (sort_pots l). rewrite sort_insert_perm. now apply perm_skip.
Qed.

(** *** The search *)
Lemma cap_at_some h i : 0 <= i < Z.of_nat (length h) -> exists p, nth_error h (Z.to_nat i) = Some p /\ cap_at h i = Some (cap p).
Proof.
  intros H. unfold cap_at. destruct (Z.ltb_spec i 0); [lia|].
  destruct (nth_error h (Z.to_nat i)) as [p|] eqn:E; [exists p; auto|].
  apply nth_error_None in E. lia.
Qed.

Lemma bfind_range h size : forall fuel left right, 0 <= left < Z.of_nat (length h) -> right < Z.of_nat (length h) ->
  0 < Z.of_nat fuel -> right - left < Z.of_nat fuel -> exists i, bfind fuel h size left right = Some i /\ 0 <= i < Z.of_nat (length h).
Proof.
  induction fuel as [|k IH]; intros left right Hl Hr H0 Hf; [lia|]. cbn [bfind].
  destruct (Z.leb_spec (right - left) 0) as [H|H]; [eauto|].
  set (m := (left + right) / 2). assert (Hm : left <= m < right) by (unfold m; Z.to_euclidean_division_equations; lia).
  destruct (cap_at_some h m) as (p & _ & ->); [lia|].
  destruct (cap p <? size); [apply IH; lia|].
  destruct (Z.ltb_spec 0 m); [|exists m; split; [reflexivity|lia]].
  destruct (cap_at_some h (m - 1)) as (p' & _ & ->); [lia|].
  destruct (cap p' >=? size); [apply IH; lia|]. exists m. split; [reflexivity|lia].
Qed.

Lemma binary_find_range h size : h <> [] ->
  exists i, binary_find h size = Some i /\ 0 <= i < Z.of_nat (length h).
Proof.
  intros H. unfold binary_find. assert (length h <> 0%nat) by (destruct h; [congruence|discriminate]).
  apply bfind_range; lia.
Qed.

(** *** Every call keeps the invariant *)
Lemma nodup_perm w v : inv w -> Permutation (pots v) (pots (pool w)) -> NoDup (map region_of (pots v)).
Proof.
  intros I P. apply (Permutation_NoDup (l := map region_of (pots (pool w)))); [|now apply inv_nodup].
  apply Permutation_map. now symmetry.
Qed.
Lemma nodup_app_l {A} (a b : list A) : NoDup (a ++ b) -> NoDup a.
Proof.
  induction a as [|x a IH]; intros H; [constructor|]. inversion H as [|? ? Hx Ha]; subst. constructor; auto.
  rewrite in_app_iff in Hx. tauto.
Qed.
Lemma nodup_app_r {A} (a b : list A) : NoDup (a ++ b) -> NoDup b.
Proof. induction a as [|x a IH]; intros H; [exact H|]. inversion H; auto. Qed.

Lemma free_perm w ptr p d h : lookup (dict (pool w)) ptr = Some p ->
  Permutation (pots (mkVat (insert_at (heap (pool w)) h p) (erase (dict (pool w)) ptr) d)) (pots (pool w)).
Proof.
  intros E. unfold pots. cbn [heap dict]. rewrite insert_at_perm.
  rewrite (Permutation_map snd (erase_perm _ _ _ E)). cbn [map snd].
  rewrite <- Permutation_middle. reflexivity.
Qed.

(** what malloc picks *)
Definition pick (v : vat) (size : Z) : option (pot * list pot) :=
  match heap v with
  | [] => Some (empty_pot, [])
  | _ => match binary_find (heap v) size with
         | None => None
         | Some i => if i <? 0 then None
                     else match nth_error (heap v) (Z.to_nat i) with
                          | None => None
                          | Some p => Some (p, remove_at (heap v) (Z.to_nat i))
                          end
         end
  end.

Lemma pick_spec v size : exists p h, pick v size = Some (p, h) /\
  ((heap v = [] /\ p = empty_pot /\ h = []) \/
   (exists i, binary_find (heap v) size = Some i /\ 0 <= i < Z.of_nat (length (heap v)) /\
      nth_error (heap v) (Z.to_nat i) = Some p /\ h = remove_at (heap v) (Z.to_nat i))).
Proof.
  unfold pick. destruct (heap v) as [|q t] eqn:E.
  - exists empty_pot, []. auto.
  - destruct (binary_find_range (q :: t) size) as (i & Ei & Hi); [discriminate|]. rewrite Ei.
    destruct (Z.ltb_spec i 0); [lia|]. destruct (cap_at_some (q :: t) i Hi) as (p & Hp & _). rewrite Hp.
    eexists _, _. split; [reflexivity|]. right. exists i. auto.
Qed.

Lemma malloc_step w size sys p h : size <> 0 -> pick (pool w) size = Some (p, h) ->
  step w (Malloc size sys) =
  match pot_malloc p size sys with
  | None => finish Throw (p :: pots (pool w)) (mkVat h (dict (pool w)) (is_deprecated (pool w))) (live w)
  | Some (p', asked) =>
      finish (Ptr (data p')) (p :: p' :: pots (pool w))
             (mkVat h (dict_insert (dict (pool w)) (data p') p') (is_deprecated (pool w)))
             (if asked then region_of p' :: live w else live w)
  end.
Proof.
  intros H E. cbn [step]. destruct (Z.eqb_spec size 0); [contradiction|]. unfold pick in E. rewrite E. reflexivity.
Qed.

Lemma pick_perm w size p h : inv w -> pick (pool w) size = Some (p, h) ->
  (p = empty_pot /\ heap (pool w) = [] /\ h = []) \/ Permutation (heap (pool w)) (p :: h).
Proof.
  intros I E. destruct (pick_spec (pool w) size) as (p0 & h0 & E0 & C).
  rewrite E in E0. assert (p0 = p /\ h0 = h) as [-> ->] by (split; congruence).
  destruct C as [(A & B & C)|(i & _ & _ & Hn & ->)]; [left; auto|right]. now apply remove_at_perm.
Qed.

(** the result of malloc *)
Lemma malloc_spec w size sys : inv w -> asks w (Malloc size sys) -> size <> 0 ->
  exists a w', step w (Malloc size sys) = Some (a, w') /\ inv w' /\
    ((a = Throw /\ dict (pool w') = dict (pool w)) \/
     (exists p, a = Ptr (data p) /\ used p = size /\ size <= cap p /\ dict (pool w') = (data p, p) :: dict (pool w))) /\
    (exists p h, pick (pool w) size = Some (p, h) /\ heap (pool w') = h /\
       (size <= cap p -> a = Ptr (data p) /\ Permutation (live w') (live w))).
Proof.
  intros I [Hs Hsys] Hn. destruct (pick_spec (pool w) size) as (p & h & Ep & _).
  rewrite (malloc_step _ _ _ _ _ Hn Ep). pose proof (pick_perm _ _ _ _ I Ep) as Pp.
  set (v := pool w) in *.
  assert (Hinc : incl (h ++ map snd (dict v)) (pots v)).
  { unfold pots. destruct Pp as [(_ & -> & ->)|Pp]; [apply incl_refl|].
    intros x Hx. apply in_app_or in Hx. apply in_or_app. destruct Hx as [Hx|Hx]; [left|now right].
    apply (Permutation_in _ (Permutation_sym Pp)). now right. }
  assert (Hnd : NoDup (map region_of (h ++ map snd (dict v)))).
  { pose proof (inv_nodup w I) as N. fold v in N. unfold pots in N.
    destruct Pp as [(_ & E & ->)|Pp]; [now rewrite E in N|].
    apply (Permutation_NoDup (l' := map region_of (p :: h ++ map snd (dict v)))) in N.
    - cbn [map] in N. inversion N; auto.
    - apply Permutation_map. rewrite Pp. reflexivity. }
  assert (Hp : p = empty_pot \/ In p (pots v)).
  { destruct Pp as [(-> & _)|Pp]; [now left|right]. apply in_or_app. left.
    apply (Permutation_in _ (Permutation_sym Pp)). now left. }
  unfold pot_malloc. rewrite Z.gtb_ltb. destruct (Z.ltb_spec (cap p) size) as [Hc|Hc].
  - destruct sys as [a|].
    + (* a new region *)
      destruct Hsys as [Ha Hd].
      assert (Hfresh : ~ In (a, size) (live w)).
      { intros Hin. specialize (Hd _ Hin). unfold disjoint in Hd. cbn [fst snd] in Hd. lia. }
      assert (Hnew : lookup (dict v) a = None).
      { destruct (lookup (dict v) a) as [q|] eqn:E; [|reflexivity]. exfalso. apply lookup_in in E.
        pose proof (i_keys w I _ _ E) as Ek.
        assert (Hq : In q (pots v)) by (apply in_or_app; right; change q with (snd (a, q)); now apply in_map).
        pose proof (Hd _ (inv_in w q I Hq)) as D. destruct (i_pos w I q Hq).
        unfold disjoint, region_of in D. cbn [fst snd] in D. lia. }
      set (p' := mkPot a size size). set (v' := mkVat h (dict_insert (dict v) (data p') p') (is_deprecated v)).
      assert (Ev : pots v' = h ++ p' :: map snd (dict v)).
      { unfold v', pots. cbn [heap dict]. unfold dict_insert. cbn [data p']. rewrite Hnew. reflexivity. }
      destruct (finish_spec (Ptr (data p')) (p :: p' :: pots v) v' (region_of p' :: live w)) as (l' & E & P & N' & Hl).
      * constructor; [exact Hfresh|apply I].
      * intros q [<-|[<-|Hq]] Hdq; [|now left|].
        -- destruct Hp as [->|Hp]; [now elim Hdq|right; now apply inv_in].
        -- right. now apply inv_in.
      * intros r [<-|Hr].
        -- exists p'. split; [right; now left|]. split; [cbn; lia|reflexivity].
        -- destruct (inv_from w r I Hr) as (q & Hq & Hq2). exists q. split; [right; now right|exact Hq2].
      * intros q Hq. rewrite Ev in Hq. apply in_app_or in Hq. destruct Hq as [Hq|[<-|Hq]]; [|now left|];
          right; apply (inv_in w); auto; apply Hinc, in_or_app; auto.
      * rewrite Ev. apply (Permutation_NoDup (l := map region_of (p' :: h ++ map snd (dict v)))).
        -- apply Permutation_map, Permutation_middle.
        -- cbn [map]. constructor; [|exact Hnd]. intros Hin. apply Hfresh. apply in_map_iff in Hin.
           destruct Hin as (q & Eq & Hq). change (region_of p') with (a, size) in Eq. rewrite <- Eq.
           apply (inv_in w q I). apply Hinc, Hq.
      * exists (Ptr (data p')), (mkWorld v' l'). split; [exact E|]. split; [|split].
        -- split; cbn [pool live]; auto.
           ++ intros r1 r2 H1 H2. apply Hl in H1, H2. destruct H1 as [<-|H1], H2 as [<-|H2].
              ** now left.
              ** right. apply Hd, H2.
              ** right. apply disjoint_sym, Hd, H1.
              ** apply (i_disj w I); auto.
           ++ intros q Hq. rewrite Ev in Hq. apply in_app_or in Hq. destruct Hq as [Hq|[<-|Hq]].
              ** apply (i_pos w I). apply Hinc, in_or_app. auto.
              ** cbn. lia.
              ** apply (i_pos w I). apply Hinc, in_or_app. auto.
           ++ intros k q Hq. unfold v' in Hq. cbn [dict] in Hq. unfold dict_insert in Hq. cbn [data p'] in Hq.
              rewrite Hnew in Hq. destruct Hq as [Hq|Hq]; [|apply (i_keys w I _ _ Hq)].
              injection Hq as <- <-. reflexivity.
        -- right. exists p'. split; [reflexivity|]. split; [reflexivity|]. split; [cbn; lia|].
           unfold v'. cbn [pool dict]. unfold dict_insert. cbn [data p']. now rewrite Hnew.
        -- exists p, h. split; [exact Ep|]. split; [reflexivity|]. lia.
    + (* the system allocator fails *)
      set (v' := mkVat h (dict v) (is_deprecated v)).
      destruct (finish_spec Throw (p :: pots v) v' (live w)) as (l' & E & P & N' & Hl).
      * apply I.
      * intros q [<-|Hq] Hdq; [|now apply inv_in]. destruct Hp as [->|Hp]; [now elim Hdq|now apply inv_in].
      * intros r Hr. destruct (inv_from w r I Hr) as (q & Hq & Hq2). exists q. split; [now right|exact Hq2].
      * intros q Hq. apply (inv_in w); auto.
      * exact Hnd.
      * exists Throw, (mkWorld v' l'). split; [exact E|]. split; [|split].
        -- split; cbn [pool live]; auto.
           ++ intros r1 r2 H1 H2. apply (i_disj w I); auto.
           ++ intros q Hq. apply (i_pos w I); auto.
           ++ intros k q Hq. apply (i_keys w I _ _ Hq).
        -- now left.
        -- exists p, h. split; [exact Ep|]. split; [reflexivity|]. lia.
  - (* the idle block is large enough *)
    assert (Hpv : In p (pots v)) by (destruct Hp as [->|Hp]; [cbn in Hc; lia|exact Hp]).
    assert (Pv : Permutation (heap v) (p :: h)) by (destruct Pp as [(-> & _)|Pp]; [cbn in Hc; lia|exact Pp]).
    assert (Hnew : lookup (dict v) (data p) = None).
    { destruct (lookup (dict v) (data p)) as [q|] eqn:E; [|reflexivity]. exfalso. apply lookup_in in E.
      pose proof (i_keys w I _ _ E) as Ek.
      assert (Hq : In q (pots v)) by (apply in_or_app; right; change q with (snd (data p, q)); now apply in_map).
      assert (p = q) by (apply (inv_data w); auto). subst q.
      pose proof (inv_nodup w I) as N. fold v in N. unfold pots in N.
      apply (Permutation_NoDup (l' := map region_of (p :: h ++ map snd (dict v)))) in N.
      - cbn [map] in N. inversion N as [|? ? Hno _]; subst. apply Hno, in_map, in_or_app. right.
        change p with (snd (data p, p)). now apply in_map.
      - apply Permutation_map. rewrite Pv. reflexivity. }
    set (p' := mkPot (data p) (cap p) size). set (v' := mkVat h (dict_insert (dict v) (data p') p') (is_deprecated v)).
    assert (Ev : pots v' = h ++ p' :: map snd (dict v)).
    { unfold v', pots. cbn [heap dict]. unfold dict_insert. cbn [data p']. rewrite Hnew. reflexivity. }
    assert (Er : region_of p' = region_of p) by reflexivity.
    assert (Em : Permutation (map region_of (pots v')) (map region_of (pots v))).
    { rewrite Ev. unfold pots. rewrite !map_app. cbn [map]. rewrite Er.
      rewrite (Permutation_map region_of Pv). cbn [map]. symmetry. apply Permutation_middle. }
    destruct (finish_spec (Ptr (data p')) (p :: p' :: pots v) v' (live w)) as (l' & E & P & N' & Hl).
    + apply I.
    + intros q [<-|[<-|Hq]] Hdq; [now apply inv_in|rewrite Er; now apply inv_in|now apply inv_in].
    + intros r Hr. destruct (inv_from w r I Hr) as (q & Hq & Hq2). exists q. split; [right; now right|exact Hq2].
    + intros q Hq. apply (Permutation_in _ (i_perm w I)). apply (Permutation_in _ Em). now apply in_map.
    + apply (Permutation_NoDup (Permutation_sym Em)). apply inv_nodup, I.
    + exists (Ptr (data p')), (mkWorld v' l'). split; [exact E|]. split; [|split].
      * split; cbn [pool live]; auto.
        -- intros r1 r2 H1 H2. apply (i_disj w I); auto.
        -- intros q Hq. rewrite Ev in Hq. apply in_app_or in Hq. destruct Hq as [Hq|[<-|Hq]].
           ++ apply (i_pos w I). apply Hinc, in_or_app. auto.
           ++ cbn. apply (i_pos w I p Hpv).
           ++ apply (i_pos w I). apply Hinc, in_or_app. auto.
        -- intros k q Hq. unfold v' in Hq. cbn [dict] in Hq. unfold dict_insert in Hq. cbn [data p'] in Hq.
           rewrite Hnew in Hq. destruct Hq as [Hq|Hq]; [|apply (i_keys w I _ _ Hq)].
           injection Hq as <- <-. reflexivity.
      * right. exists p'. split; [reflexivity|]. split; [reflexivity|]. split; [exact Hc|].
        unfold v'. cbn [pool dict]. unfold dict_insert. cbn [data p']. now rewrite Hnew.
      * exists p, h. split; [exact Ep|]. split; [reflexivity|]. intros _. split; [reflexivity|].
        cbn [live]. rewrite <- P, Em. exact (i_perm w I).
Qed.
