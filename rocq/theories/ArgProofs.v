From Coq Require Import List Bool Arith Ascii Lia.
From Verif Require Import TextModel TextSpec TextProofs ArgModel ArgSpec.
Import ListNotations.

Lemma str_eqb_eq : forall a b, str_eqb a b = true <-> a = b.
Proof.
  induction a as [|x a IH]; intros [|y b]; cbn [str_eqb]; try (split; [reflexivity|reflexivity] || split; discriminate).
  rewrite andb_true_iff, IH, Ascii.eqb_eq. split; [intros [-> ->]; reflexivity|intros H; injection H as -> ->; auto].
Qed.
Lemma str_eqb_refl a : str_eqb a a = true.
Proof. now apply str_eqb_eq. Qed.
Lemma str_eqb_neq a b : a <> b -> str_eqb a b = false.
Proof. intros H. destruct (str_eqb a b) eqn:E; [apply str_eqb_eq in E; contradiction|reflexivity]. Qed.
Lemma str_dec (a b : str) : {a = b} + {a <> b}.
Proof. apply (list_eq_dec ascii_dec). Qed.

Lemma find_assign {V} (m : list (str * V)) k v k' : find (assign m k v) k' = if str_eqb k k' then Some v else find m k'.
Proof.
  induction m as [|[a x] m IH]; cbn [assign find]; [destruct (str_eqb k k'); reflexivity|].
  destruct (str_eqb a k) eqn:Ea; cbn [find].
  - apply str_eqb_eq in Ea. subst. destruct (str_eqb k k'); reflexivity.
  - destruct (str_eqb a k') eqn:Eb; [|exact IH]. apply str_eqb_eq in Eb. subst.
    rewrite str_eqb_neq; [reflexivity|]. intros ->. rewrite str_eqb_refl in Ea. discriminate.
Qed.
Lemma find_app {V} (m : list (str * V)) k v k' : find (m ++ [(k, v)]) k' =
  match find m k' with Some x => Some x | None => if str_eqb k k' then Some v else None end.
Proof.
  induction m as [|[a x] m IH]; cbn [app find]; [reflexivity|]. destruct (str_eqb a k'); [reflexivity|exact IH].
Qed.
Lemma find_insert {V} (m : list (str * V)) k v k' : find (insert m k v) k' =
  match find m k' with Some x => Some x | None => if str_eqb k k' then Some v else None end.
Proof.
  unfold insert. destruct (find m k) as [y|] eqn:E; [|apply find_app].
  destruct (find m k') eqn:E'; [reflexivity|]. rewrite str_eqb_neq; [reflexivity|congruence].
Qed.
Lemma member_iff l w : member l w = true <-> In w l.
Proof. unfold member. destruct (in_dec (list_eq_dec ascii_dec) w l); split; auto; discriminate. Qed.
Lemma member_cons a l w : member (a :: l) w = str_eqb a w || member l w.
Proof.
  destruct (str_eqb a w) eqn:E; cbn [orb].
  - apply str_eqb_eq in E. subst. apply member_iff. now left.
  - destruct (member l w) eqn:M.
    + apply member_iff in M. apply member_iff. now right.
    + destruct (member (a :: l) w) eqn:M2; [|reflexivity]. apply member_iff in M2. destruct M2 as [->|M2].
      * rewrite str_eqb_refl in E. discriminate.
      * apply member_iff in M2. congruence.
Qed.
Lemma find_inserts {V} (v : V) k' : forall l m, find (fold_left (fun m a => insert m a v) l m) k' =
  match find m k' with Some x => Some x | None => if member l k' then Some v else None end.
Proof.
  induction l as [|a l IH]; intros m; cbn [fold_left]; [destruct (find m k'); reflexivity|].
  rewrite IH, find_insert, member_cons. destruct (find m k'); [reflexivity|]. destruct (str_eqb a k'); reflexivity.
Qed.

(** ** declarations *)
Fixpoint first_true (ds : list decl) (w : str) : option str :=
  match ds with [] => None | d :: r => if member (name d :: aliases d) w then Some (name d) else first_true r w end.
Fixpoint first_false (ds : list decl) (w : str) : option str :=
  match ds with [] => None | d :: r => if member (negations d) w then Some (name d) else first_false r w end.
Fixpoint first_value (ds : list decl) (n : str) : option bool :=
  match ds with [] => None | d :: r => if str_eqb (name d) n && by_default d then Some true else first_value r n end.

Lemma declare_spec : forall ds p, exists q, declare p ds = Some q /\
  (forall w, find (true_names q) w = match find (true_names p) w with Some x => Some x | None => first_true ds w end) /\
  (forall w, find (false_names q) w = match find (false_names p) w with Some x => Some x | None => first_false ds w end) /\
  (forall w, find (values q) w = match find (values p) w with Some x => Some x | None => first_value ds w end) /\
  devices q = devices p.
Proof.
  induction ds as [|d ds IH]; intros p.
  - exists p. split; [reflexivity|]. cbn. split; [intros; destruct (find _ w); reflexivity|].
    split; [intros; destruct (find _ w); reflexivity|]. split; [intros; destruct (find _ w); reflexivity|reflexivity].
  - cbn [declare]. unfold add. set (p1 := mkParser _ _ _ _).
    destruct (IH p1) as (q & E & H1 & H2 & H3 & H4). exists q. split; [exact E|].
    split; [|split; [|split; [|exact H4]]].
    + intros w. rewrite H1. unfold p1. cbn [true_names first_true]. rewrite find_inserts, find_insert, member_cons.
      destruct (find (true_names p) w); [reflexivity|]. destruct (str_eqb (name d) w); cbn [orb]; [reflexivity|].
      destruct (member (aliases d) w); reflexivity.
    + intros w. rewrite H2. unfold p1. cbn [false_names first_false]. rewrite find_inserts.
      destruct (find (false_names p) w); [reflexivity|]. destruct (member (negations d) w); reflexivity.
    + intros w. rewrite H3. unfold p1. cbn [values first_value]. destruct (by_default d).
      * rewrite find_insert. destruct (find (values p) w); [reflexivity|]. rewrite andb_true_r.
        destruct (str_eqb (name d) w); reflexivity.
      * rewrite andb_false_r. reflexivity.
Qed.

Definition distinct (ds : list decl) : Prop := NoDup (concat (map spellings ds)).

Lemma in_spellings ds d w : In d ds -> In w (spellings d) -> In w (concat (map spellings ds)).
Proof. intros Hd Hw. apply in_concat. exists (spellings d). split; [now apply in_map|exact Hw]. Qed.
Lemma NoDup_app_disj {A} (a b : list A) x : NoDup (a ++ b) -> In x a -> In x b -> False.
Proof.
  induction a as [|y a IH]; intros N Ha Hb; [destruct Ha|]. cbn [app] in N. inversion N as [|? ? N1 N2]; subst.
  destruct Ha as [->|Ha]; [apply N1; apply in_or_app; now right|]. now apply IH.
Qed.
Lemma NoDup_app_r {A} (a b : list A) : NoDup (a ++ b) -> NoDup b.
Proof. induction a as [|y a IH]; intros N; [exact N|]. inversion N; subst. auto. Qed.
Lemma NoDup_app_l {A} (a b : list A) : NoDup (a ++ b) -> NoDup a.
Proof.
  induction a as [|y a IH]; intros N; [constructor|]. cbn [app] in N. inversion N as [|? ? N1 N2]; subst.
  constructor; [intros H; apply N1; apply in_or_app; now left|auto].
Qed.

Lemma owner_unique : forall ds d d' w, distinct ds -> In d ds -> In d' ds -> In w (spellings d) -> In w (spellings d') -> d = d'.
Proof.
  unfold distinct. induction ds as [|e ds IH]; intros d d' w N Hd Hd' Hw Hw'; [destruct Hd|].
  cbn [map concat] in N. destruct Hd as [->|Hd], Hd' as [->|Hd'].
  - reflexivity.
  - exfalso. eapply NoDup_app_disj; [exact N|exact Hw|]. eapply in_spellings; eauto.
  - exfalso. eapply NoDup_app_disj; [exact N|exact Hw'|]. eapply in_spellings; eauto.
  - eapply IH; eauto. eapply NoDup_app_r. exact N.
Qed.
Lemma distinct_one ds d : distinct ds -> In d ds -> NoDup (spellings d).
Proof.
  unfold distinct. induction ds as [|e ds IH]; intros N Hd; [destruct Hd|]. cbn [map concat] in N.
  destruct Hd as [->|Hd]; [eapply NoDup_app_l; exact N|]. apply IH; [eapply NoDup_app_r; exact N|exact Hd].
Qed.
Lemma pos_spelling d w : In w (name d :: aliases d) -> In w (spellings d).
Proof. unfold spellings. intros [->|H]; [now left|right]. apply in_or_app. now left. Qed.
Lemma neg_spelling d w : In w (negations d) -> In w (spellings d).
Proof. unfold spellings. intros H. right. apply in_or_app. now right. Qed.
Lemma pos_neg ds d d' w : distinct ds -> In d ds -> In d' ds -> In w (name d :: aliases d) -> In w (negations d') -> False.
Proof.
  intros N Hd Hd' Hp Hn. assert (d = d') by (eapply owner_unique; eauto using pos_spelling, neg_spelling). subst d'.
  pose proof (distinct_one ds d N Hd) as N1. unfold spellings in N1.
  change (name d :: aliases d ++ negations d) with ((name d :: aliases d) ++ negations d) in N1.
  eapply NoDup_app_disj; eauto.
Qed.
Lemma first_true_in ds w n : first_true ds w = Some n -> exists d, In d ds /\ In w (name d :: aliases d) /\ name d = n.
Proof.
  induction ds as [|e ds IH]; cbn [first_true]; [discriminate|]. destruct (member _ w) eqn:M.
  - intros H. injection H as <-. apply member_iff in M. exists e. split; [now left|]. auto.
  - intros H. destruct (IH H) as (d & Hd & H2). exists d. split; [now right|exact H2].
Qed.
Lemma first_true_none ds w d : first_true ds w = None -> In d ds -> ~ In w (name d :: aliases d).
Proof.
  induction ds as [|e ds IH]; cbn [first_true]; [intros _ []|]. destruct (member _ w) eqn:M; [discriminate|].
  intros H [->|Hd]; [intros C; apply member_iff in C; congruence|auto].
Qed.
Lemma first_false_in ds w n : first_false ds w = Some n -> exists d, In d ds /\ In w (negations d) /\ name d = n.
Proof.
  induction ds as [|e ds IH]; cbn [first_false]; [discriminate|]. destruct (member _ w) eqn:M.
  - intros H. injection H as <-. apply member_iff in M. exists e. split; [now left|]. auto.
  - intros H. destruct (IH H) as (d & Hd & H2). exists d. split; [now right|exact H2].
Qed.
Lemma first_false_none ds w d : first_false ds w = None -> In d ds -> ~ In w (negations d).
Proof.
  induction ds as [|e ds IH]; cbn [first_false]; [intros _ []|]. destruct (member _ w) eqn:M; [discriminate|].
  intros H [->|Hd]; [intros C; apply member_iff in C; congruence|auto].
Qed.
Lemma first_value_spec ds d : distinct ds -> In d ds -> first_value ds (name d) = if by_default d then Some true else None.
Proof.
  intros N Hd.
  assert (U : forall e, In e ds -> name e = name d -> e = d).
  { intros e He En. eapply owner_unique; eauto; [now left|]. rewrite En. now left. }
  assert (G : forall es, incl es ds -> first_value es (name d) = if in_dec str_dec (name d) (map name es) then (if by_default d then Some true else None) else None).
  { induction es as [|e es IH]; intros Hi; [reflexivity|]. cbn [first_value].
    assert (He : In e ds) by (apply Hi; now left). assert (Hes : incl es ds) by (intros x Hx; apply Hi; now right).
    rewrite (IH Hes). destruct (str_eqb (name e) (name d)) eqn:En.
    - apply str_eqb_eq in En. rewrite (U e He En) in *. cbn [andb].
      destruct (in_dec str_dec (name d) (map name (d :: es))) as [_|C]; [|exfalso; apply C; now left].
      destruct (by_default d); [reflexivity|]. destruct (in_dec str_dec (name d) (map name es)); reflexivity.
    - cbn [andb]. destruct (in_dec str_dec (name d) (map name (e :: es))) as [I|C], (in_dec str_dec (name d) (map name es)) as [I2|C2]; auto.
      + exfalso. destruct I as [I|I]; [|contradiction]. rewrite I, str_eqb_refl in En. discriminate.
      + exfalso. apply C. now right. }
  rewrite G by (intros x Hx; exact Hx). destruct (in_dec str_dec (name d) (map name ds)) as [_|C]; [reflexivity|]. exfalso. apply C. now apply in_map.
Qed.

(** tables as they are after the declarations *)
Definition tables (ds : list decl) (p : parser) : Prop :=
  (forall w, find (true_names p) w = first_true ds w) /\ (forall w, find (false_names p) w = first_false ds w).

Lemma parse_one_tables ds p w : tables ds p -> tables ds (parse_one p w).
Proof.
  intros [H1 H2]. unfold parse_one. destruct w as [|c w]; [now split|]. destruct (device_map (c :: w)) as [[a b]|]; [now split|].
  unfold set. destruct (find (true_names p) _); [now split|]. destruct (find (false_names p) _); now split.
Qed.
Lemma name_inj ds d e : distinct ds -> In d ds -> In e ds -> name e = name d -> e = d.
Proof. intros N Hd He En. eapply owner_unique; eauto; [now left|]. rewrite En. now left. Qed.

Lemma parse_one_get ds p d w : distinct ds -> tables ds p -> In d ds -> w <> [] ->
  get (parse_one p w) (name d) = match says d w with Some b => b | None => get p (name d) end.
Proof.
  intros N [H1 H2] Hd Hw. unfold parse_one. destruct w as [|c w0]; [contradiction|]. set (w := c :: w0) in *.
  unfold says. destruct (device_map w) as [[a b]|]; [reflexivity|].
  unfold set. rewrite H1, H2. destruct (first_true ds w) as [n|] eqn:Et.
  - destruct (first_true_in _ _ _ Et) as (e & He & Hin & <-). cbn [snd]. unfold get. cbn [values]. rewrite find_assign.
    destruct (str_eqb (name e) (name d)) eqn:En.
    + apply str_eqb_eq in En. apply (name_inj ds d e N Hd He) in En. subst e.
      apply member_iff in Hin. now rewrite Hin.
    + destruct (member (name d :: aliases d) w) eqn:M.
      * apply member_iff in M. assert (d = e) by (eapply owner_unique; eauto using pos_spelling). subst.
        rewrite str_eqb_refl in En. discriminate.
      * destruct (member (negations d) w) eqn:M2; [|reflexivity]. apply member_iff in M2. exfalso. eapply pos_neg; [exact N|exact He|exact Hd|exact Hin|exact M2].
  - pose proof (first_true_none ds w d Et Hd) as Nt.
    destruct (member (name d :: aliases d) w) eqn:M; [apply member_iff in M; contradiction|].
    destruct (first_false ds w) as [n|] eqn:Ef.
    + destruct (first_false_in _ _ _ Ef) as (e & He & Hin & <-). cbn [snd]. unfold get. cbn [values]. rewrite find_assign.
      destruct (str_eqb (name e) (name d)) eqn:En.
      * apply str_eqb_eq in En. apply (name_inj ds d e N Hd He) in En. subst e.
        apply member_iff in Hin. now rewrite Hin.
      * destruct (member (negations d) w) eqn:M2; [|reflexivity]. apply member_iff in M2.
        assert (d = e) by (eapply owner_unique; eauto using neg_spelling). subst. rewrite str_eqb_refl in En. discriminate.
    + pose proof (first_false_none ds w d Ef Hd) as Nf.
      destruct (member (negations d) w) eqn:M2; [apply member_iff in M2; contradiction|]. reflexivity.
Qed.
Lemma parse_one_nil p : parse_one p [] = p.
Proof. reflexivity. Qed.

Definition nonempty (w : str) : bool := match w with [] => false | _ => true end.

Lemma fold_said d : forall ws b, fold_left (fun b w => match says d w with Some c => Some c | None => b end) ws b =
  match last_said d ws with Some c => Some c | None => b end.
Proof.
  unfold last_said. induction ws as [|w ws IH]; intros b; [destruct b; reflexivity|]. cbn [fold_left].
  rewrite IH, (IH (match says d w with Some c => Some c | None => None end)).
  destruct (fold_left _ ws None); [reflexivity|]. destruct (says d w); reflexivity.
Qed.
Lemma parse_get ds d : distinct ds -> In d ds -> forall ws p, tables ds p ->
  get (fold_left parse_one ws p) (name d) = match last_said d (filter nonempty ws) with Some b => b | None => get p (name d) end.
Proof.
  intros N Hd. induction ws as [|w ws IH]; intros p T; [reflexivity|]. cbn [fold_left filter].
  rewrite IH by now apply parse_one_tables. destruct w as [|c w0]; [reflexivity|]. cbn [nonempty].
  set (w := c :: w0). rewrite (parse_one_get ds p d w N T Hd) by discriminate.
  unfold last_said at 2. cbn [fold_left]. rewrite fold_said. destruct (last_said d (filter nonempty ws)); [reflexivity|].
  destruct (says d w); reflexivity.
Qed.

(** ** devices *)
Lemma map_loop_leads m d e : leads m d e -> exists fuel0, forall fuel, fuel0 <= fuel -> map_loop fuel m d = Some (stand2 e).
Proof.
  induction 1 as [d H|d d' e H _ (f & IH)].
  - exists 1. intros [|fuel] Hf; [lia|]. cbn [map_loop]. now rewrite H.
  - exists (S f). intros [|fuel] Hf; [lia|]. cbn [map_loop]. rewrite H. apply IH. lia.
Qed.
Lemma map_loop_returns : forall fuel m d r, map_loop fuel m d = Some r -> exists e, leads m d e /\ r = stand2 e.
Proof.
  induction fuel as [|k IH]; intros m d r H; [discriminate|]. cbn [map_loop] in H.
  destruct (find m d) as [d'|] eqn:E.
  - destruct (IH _ _ _ H) as (e & L & ->). exists e. split; [|reflexivity]. eapply leads_on; eauto.
  - injection H as <-. exists d. split; [now constructor|reflexivity].
Qed.
Lemma leads_unique m d e e' : leads m d e -> leads m d e' -> e = e'.
Proof.
  intros H. revert e'. induction H as [d H|d d' e H L IH]; intros e' H'.
  - inversion H' as [|? ? ? E]; subst; [reflexivity|congruence].
  - inversion H' as [? E|? d2 ? E L2]; subst; [congruence|]. apply IH. congruence.
Qed.
