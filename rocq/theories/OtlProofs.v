From Coq Require Import ZArith NArith List Bool Arith Lia.
From Verif Require Import OtlModel OtlSpec.
Import ListNotations.

Lemma firstn_app_exact {A} (a b : list A) n : n = length a -> firstn n (a ++ b) = a.
Proof. intros ->. rewrite firstn_app, Nat.sub_diag, firstn_all. cbn. apply app_nil_r. Qed.
Lemma skipn_app_exact {A} (a b : list A) n : n = length a -> skipn n (a ++ b) = b.
Proof. intros ->. rewrite skipn_app, Nat.sub_diag, skipn_all. reflexivity. Qed.

Section P.
Context {T : Type}.
Variable cap : nat.
Variable junk : T.

Definition holds (v : vector T) (l : list T) : Prop :=
  length (buf v) = cap /\ size v = length l /\ length l <= cap /\ firstn (length l) (buf v) = l.

Lemma holds_split v l : holds v l -> exists t, buf v = l ++ t /\ length l + length t = cap.
Proof.
  intros (H1 & H2 & H3 & H4). exists (skipn (length l) (buf v)). split.
  - rewrite <- H4 at 1. symmetry. apply firstn_skipn.
  - rewrite skipn_length. lia.
Qed.
Lemma holds_make b n l t : b = l ++ t -> length b = cap -> n = length l -> holds (mkVec b n) l.
Proof.
  intros -> H ->. rewrite app_length in H. unfold holds. cbn [buf size]. rewrite app_length.
  split; [exact H|]. split; [reflexivity|]. split; [lia|]. now apply firstn_app_exact.
Qed.

(** writing [l] over [b] in a ++ b ++ c *)
Lemma put_ok (v : vector T) a b c l : buf v = a ++ b ++ c -> length (buf v) = cap -> length b = length l ->
  put cap v (length a) l = Ok (mkVec (a ++ l ++ c) (size v)).
Proof.
  intros E L H. unfold put. rewrite E, !app_length in L.
  replace (length a + length l <=? cap) with true by (symmetry; apply Nat.leb_le; lia).
  rewrite E, firstn_app_exact by reflexivity.
  rewrite (app_assoc a b c), skipn_app_exact by (rewrite app_length; lia). reflexivity.
Qed.
Lemma store_ok (v : vector T) a b c x : buf v = a ++ b :: c -> length (buf v) = cap ->
  store cap v (length a) x = Ok (mkVec (a ++ x :: c) (size v)).
Proof.
  intros E L. unfold store. rewrite E, app_length in L. cbn [length] in L.
  replace (length a <? cap) with true by (symmetry; apply Nat.ltb_lt; lia).
  rewrite E, firstn_app_exact by reflexivity.
  change (a ++ b :: c) with (a ++ [b] ++ c). rewrite (app_assoc a [b] c), skipn_app_exact by (rewrite app_length; cbn; lia). reflexivity.
Qed.
Lemma stores_ok : forall l (v : vector T) a b c, buf v = a ++ b ++ c -> length (buf v) = cap -> length b = length l ->
  stores cap v (length a) l = Ok (mkVec (a ++ l ++ c) (size v)).
Proof.
  induction l as [|x l IH]; intros v a b c E L H; cbn [stores].
  - destruct b; [|discriminate]. cbn [app] in *. rewrite <- E. now destruct v.
  - destruct b as [|y b]; [discriminate|]. cbn [app] in E. rewrite (store_ok v a y (b ++ c) x E L). cbn [bind].
    replace (S (length a)) with (length (a ++ [x])) by (rewrite app_length; cbn; lia).
    rewrite (IH _ (a ++ [x]) b c); cbn [buf size].
    + now rewrite <- app_assoc.
    + now rewrite <- app_assoc.
    + rewrite E in L. rewrite !app_length in *. cbn [length] in *. rewrite app_length in *. lia.
    + cbn in H. lia.
Qed.

Lemma new_buf : length (buf (new_vector cap junk)) = cap.
Proof. cbn. apply repeat_length. Qed.
Lemma new_split n : n <= cap -> exists b c, buf (new_vector cap junk) = b ++ c /\ length b = n.
Proof.
  intros H. exists (firstn n (buf (new_vector cap junk))), (skipn n (buf (new_vector cap junk))).
  split; [symmetry; apply firstn_skipn|]. rewrite firstn_length, new_buf. lia.
Qed.

Lemma stores_new l : length l <= cap -> exists c, stores cap (new_vector cap junk) 0 l = Ok (mkVec (l ++ c) 0) /\ length (l ++ c) = cap.
Proof.
  intros H. destruct (new_split (length l) H) as (b & c & E & Lb). exists c.
  split.
  - change 0 with (length (@nil T)) at 1. rewrite (stores_ok l _ [] b c); [reflexivity|exact E|apply new_buf|exact Lb].
  - pose proof new_buf as N. rewrite E in N. rewrite app_length in *. lia.
Qed.

Lemma range_loop_ok : forall l (v : vector T) a b c, buf v = a ++ b ++ c -> length (buf v) = cap -> length b = length l ->
  range_loop cap v (length a) l = Ok (mkVec (a ++ l ++ c) (length a + length l)).
Proof.
  induction l as [|x l IH]; intros v a b c E L H; cbn [range_loop].
  - destruct b; [|discriminate]. cbn [app] in *. unfold resized. rewrite <- E. f_equal. f_equal. cbn; lia.
  - destruct b as [|y b]; [discriminate|]. cbn [app] in E.
    assert (La : length a < cap). { rewrite E, app_length in L. cbn in L. lia. }
    replace (cap <? length a) with false by (symmetry; apply Nat.ltb_ge; lia).
    rewrite (store_ok v a y (b ++ c) x E L). cbn [bind].
    replace (S (length a)) with (length (a ++ [x])) by (rewrite app_length; cbn; lia).
    rewrite (IH _ (a ++ [x]) b c); cbn [buf size].
    + rewrite <- app_assoc. rewrite app_length. cbn [length app]. f_equal. f_equal. lia.
    + now rewrite <- app_assoc.
    + rewrite E in L. rewrite !app_length in *. cbn [length] in *. rewrite app_length in *. lia.
    + cbn in H. lia.
Qed.
Lemma from_range_ok l : length l <= cap -> exists v, from_range cap junk l = Ok v /\ holds v l.
Proof.
  intros H. destruct (new_split (length l) H) as (b & c & E & Lb).
  exists (mkVec (l ++ c) (length l)). split.
  - unfold from_range. change 0 with (length (@nil T)) at 1.
    rewrite (range_loop_ok l _ [] b c); [reflexivity|exact E|apply new_buf|exact Lb].
  - apply (holds_make _ _ l c); auto. pose proof new_buf as N. rewrite E in N. rewrite app_length in *. lia.
Qed.

Lemma move_cells (v : vector T) to from n : from + n <= cap -> move cap v to from n = put cap v to (cells v from n).
Proof. intros H. unfold move. now replace (from + n <=? cap) with true by (symmetry; apply Nat.leb_le; lia). Qed.
Lemma cells_eq (v : vector T) a b c : buf v = a ++ b ++ c -> cells v (length a) (length b) = b.
Proof. intros E. unfold cells. rewrite E, skipn_app_exact by reflexivity. now apply firstn_app_exact. Qed.

Lemma list_cut (l : list T) i : i <= length l -> exists a b, l = a ++ b /\ length a = i /\ firstn i l = a /\ skipn i l = b.
Proof.
  intros H. exists (firstn i l), (skipn i l). split; [symmetry; apply firstn_skipn|].
  split; [rewrite firstn_length; lia|]. auto.
Qed.

Lemma erase_ok v l a b c : holds v l -> l = a ++ b ++ c -> exists v', erase cap v (length a) (length b) = Ok v' /\ holds v' (a ++ c).
Proof.
  intros H E. destruct (holds_split v l H) as (t & Eb & Lt). destruct H as (H1 & H2 & H3 & _).
  assert (Ll : length l = length a + length b + length c) by (rewrite E, !app_length; lia).
  unfold erase. replace (size v <? length b + length a) with false by (symmetry; apply Nat.ltb_ge; lia).
  replace (size v - length a - length b) with (length c) by lia.
  rewrite move_cells by lia.
  assert (Ec : cells v (length a + length b) (length c) = c).
  { replace (length a + length b) with (length (a ++ b)) by now rewrite app_length.
    apply (cells_eq v (a ++ b) c t). rewrite Eb, E, <- !app_assoc. reflexivity. }
  rewrite Ec.
  destruct (list_cut (b ++ c ++ t) (length c)) as (d & e & Ed & Ld & _). { rewrite !app_length. lia. }
  rewrite (put_ok v a d e c).
  - cbn [bind]. eexists. split; [reflexivity|]. unfold resized. cbn [buf].
    apply (holds_make _ _ (a ++ c) e).
    + now rewrite <- app_assoc.
    + assert (length (d ++ e) = length (b ++ c ++ t)) as Le by now rewrite Ed. rewrite !app_length in *. lia.
    + rewrite app_length. lia.
  - rewrite Eb, E, <- Ed, <- !app_assoc. reflexivity.
  - exact H1.
  - exact Ld.
Qed.

Lemma insert_ok v l a c x : holds v l -> l = a ++ c -> length l + length x <= cap ->
  exists v', insert cap v (length a) x = Ok v' /\ holds v' (a ++ x ++ c).
Proof.
  intros H E Hc. destruct (holds_split v l H) as (t & Eb & Lt). destruct H as (H1 & H2 & H3 & _).
  assert (Ll : length l = length a + length c) by (rewrite E, app_length; lia).
  unfold insert. replace (cap <? length a + length x) with false by (symmetry; apply Nat.ltb_ge; lia).
  replace (size v - length a) with (length c) by lia. rewrite move_cells by lia.
  assert (Ec : cells v (length a) (length c) = c). { apply (cells_eq v a c t). rewrite Eb, E, <- !app_assoc. reflexivity. }
  rewrite Ec.
  destruct (list_cut (c ++ t) (length x)) as (p & q & Epq & Lp & _). { rewrite !app_length. lia. }
  assert (Lq : length p + length q = length c + length t) by (rewrite <- !app_length; now rewrite Epq).
  destruct (list_cut q (length c)) as (q1 & q2 & Eq & Lq1 & _). { lia. }
  replace (length a + length x) with (length (a ++ p)) by (rewrite app_length; lia).
  rewrite (put_ok v (a ++ p) q1 q2 c).
  - cbn [bind]. rewrite (put_ok _ a p (c ++ q2) x); cbn [buf size].
    + cbn [bind]. eexists. split; [reflexivity|]. unfold resized. cbn [buf].
      apply (holds_make _ _ (a ++ x ++ c) q2).
      * now rewrite <- !app_assoc.
      * rewrite Eq in Lq. rewrite !app_length in *. lia.
      * rewrite !app_length. lia.
    + now rewrite <- !app_assoc.
    + rewrite Eq in Lq. rewrite !app_length in *. lia.
    + exact Lp.
  - rewrite Eb, E, <- !app_assoc. f_equal. rewrite <- Eq. exact Epq.
  - exact H1.
  - exact Lq1.
Qed.
Lemma insert1_insert (v : vector T) i x : i + 1 <= cap -> insert1 cap v i x = insert cap v i [x].
Proof.
  intros H. unfold insert1, insert. cbn [length]. destruct (cap <? i + 1); [reflexivity|].
  destruct (move cap v (i + 1) i (size v - i)) as [v'| |]; cbn [bind]; try reflexivity.
  unfold store, put. cbn [length].
  replace (i <? cap) with true by (symmetry; apply Nat.ltb_lt; lia).
  replace (i + 1 <=? cap) with true by (symmetry; apply Nat.leb_le; lia).
  cbn [bind app]. now replace (i + 1) with (S i) by lia.
Qed.

Lemma some_inj {A} (x y : A) : Some x = Some y -> x = y.
Proof. congruence. Qed.
Lemma run1_ok v l o l' : holds v l -> match o with Resize _ _ => l = [] | _ => True end ->
  list_op l o = Some l' -> length l' <= cap -> exists v', run1 cap junk v o = Ok v' /\ holds v' l'.
Proof.
  intros H Hr E Hl. pose proof (holds_split v l H) as (t & Eb & Lt). pose proof H as (H1 & H2 & H3 & H4).
  destruct o as [r|r|n x|n x|i|i j|i x|i r|x| | |i x]; cbn [list_op run1] in *.
  - apply some_inj in E; subst l'. now apply from_range_ok.
  - apply some_inj in E; subst l'. unfold from_list. replace (cap <? length r) with false by (symmetry; apply Nat.ltb_ge; lia).
    destruct (stores_new r Hl) as (c & Es & Lc). rewrite Es. cbn [bind]. eexists. split; [reflexivity|].
    now apply (holds_make _ _ r c).
  - apply some_inj in E; subst l'. unfold fill. destruct (stores_new (repeat x n) Hl) as (c & Es & Lc). rewrite Es. cbn [bind].
    eexists. split; [reflexivity|]. apply (holds_make _ _ (repeat x n) c); auto. now rewrite repeat_length.
  - subst l. apply some_inj in E; subst l'. rewrite firstn_nil in *. cbn [length app] in *. rewrite Nat.sub_0_r in *.
    unfold fill. destruct (stores_new (repeat x n) Hl) as (c & Es & Lc). rewrite Es. cbn [bind].
    eexists. split; [reflexivity|]. apply (holds_make _ _ (repeat x n) c); auto. now rewrite repeat_length.
  - destruct (Nat.ltb_spec i (length l)) as [Hi|]; [|discriminate]. apply some_inj in E; subst l'.
    destruct (list_cut l i) as (a & b & El & La & Ea & _); [lia|].
    destruct b as [|y b]; [rewrite app_nil_r in El; subst; lia|].
    destruct (erase_ok v l a [y] b H El) as (v' & Ev & Hv). exists v'. rewrite <- La at 1. split; [exact Ev|].
    rewrite Ea. replace (skipn (S i) l) with b; [exact Hv|].
    rewrite El. change (a ++ y :: b) with (a ++ [y] ++ b). rewrite app_assoc, skipn_app_exact; [reflexivity|].
    rewrite app_length; cbn; lia.
  - destruct (Nat.leb_spec i j) as [Hij|]; [|discriminate]. cbn [andb] in E.
    destruct (Nat.leb_spec j (length l)) as [Hj|]; [|discriminate]. apply some_inj in E; subst l'.
    replace (j <? i) with false by (symmetry; apply Nat.ltb_ge; lia).
    destruct (list_cut l i) as (a & b & El & La & Ea & _); [lia|].
    assert (Lb : length l = length a + length b) by (rewrite El, app_length; lia).
    destruct (list_cut b (j - i)) as (b1 & b2 & Eb2 & Lb1 & _); [lia|].
    rewrite Eb2 in El.
    destruct (erase_ok v l a b1 b2 H El) as (v' & Ev & Hv). exists v'.
    rewrite Lb1, La in Ev. split; [exact Ev|]. rewrite Ea.
    replace (skipn j l) with b2; [exact Hv|].
    rewrite El, app_assoc, skipn_app_exact; [reflexivity|]. rewrite app_length; lia.
  - destruct (Nat.leb_spec i (length l)) as [Hi|]; [|discriminate]. apply some_inj in E; subst l'.
    rewrite app_length in Hl. cbn [length] in Hl. rewrite firstn_length, skipn_length in Hl.
    destruct (list_cut l i) as (a & b & El & La & Ea & Es); [lia|]. rewrite Ea, Es.
    rewrite insert1_insert by lia. rewrite <- La.
    destruct (insert_ok v l a b [x] H El) as (v' & Ev & Hv); [cbn; lia|]. exists v'. auto.
  - destruct (Nat.leb_spec i (length l)) as [Hi|]; [|discriminate]. apply some_inj in E; subst l'.
    rewrite !app_length in Hl. rewrite firstn_length, skipn_length in Hl.
    destruct (list_cut l i) as (a & b & El & La & Ea & Es); [lia|]. rewrite Ea, Es.
    destruct (from_range_ok r) as (u & Eu & Hu); [lia|]. rewrite Eu. cbn [bind].
    destruct Hu as (_ & U2 & _ & U4). rewrite U2, U4, <- La.
    destruct (insert_ok v l a b r H El) as (v' & Ev & Hv); [lia|]. exists v'. auto.
  - apply some_inj in E; subst l'. rewrite app_length in Hl. cbn in Hl.
    destruct t as [|y t]; [cbn in Lt; lia|]. rewrite H2. rewrite (store_ok v l y t x Eb H1). cbn [bind].
    eexists. split; [reflexivity|]. unfold resized. cbn [buf]. apply (holds_make _ _ (l ++ [x]) t).
    + now rewrite <- app_assoc.
    + rewrite Eb in H1. rewrite app_length in *. cbn [length] in *. lia.
    + rewrite app_length. cbn. lia.
  - destruct l as [|y l0]; [discriminate|]. apply some_inj in E; subst l'. rewrite H2. cbn [length Nat.eqb].
    eexists. split; [reflexivity|]. set (l := y :: l0) in *.
    assert (Hne : l <> []) by discriminate.
    pose proof (app_removelast_last y Hne) as Er.
    assert (Lr : length l = length (removelast l) + 1) by (rewrite Er at 1; rewrite app_length; reflexivity).
    change (match l0 with [] => [] | _ :: _ => y :: removelast l0 end) with (removelast l) in *.
    unfold resized. apply (holds_make _ _ (removelast l) (last l y :: t)).
    + rewrite Eb. rewrite Er at 1. now rewrite <- app_assoc.
    + exact H1.
    + cbn [length] in Lr. unfold l in *. cbn [length] in *. lia.
  - apply some_inj in E; subst l'. eexists. split; [reflexivity|]. now apply (holds_make _ _ [] (buf v)).
  - destruct (Nat.ltb_spec i (length l)) as [Hi|]; [|discriminate]. apply some_inj in E; subst l'.
    destruct (list_cut l i) as (a & b & El & La & Ea & _); [lia|].
    destruct b as [|y b]; [rewrite app_nil_r in El; subst; lia|]. rewrite Ea.
    replace (skipn (S i) l) with b.
    2:{ rewrite El. change (a ++ y :: b) with (a ++ [y] ++ b). rewrite app_assoc, skipn_app_exact; [reflexivity|].
        rewrite app_length; cbn; lia. }
    rewrite <- La. rewrite (store_ok v a y (b ++ t) x).
    + eexists. split; [reflexivity|]. apply (holds_make _ _ (a ++ x :: b) t).
      * now rewrite <- app_assoc.
      * rewrite Eb, El in H1. rewrite !app_length in *. cbn [length] in *. rewrite app_length. lia.
      * rewrite H2, El, !app_length. reflexivity.
    + rewrite Eb, El, <- app_assoc. reflexivity.
    + exact H1.
Qed.

Lemma run_ok : forall ops v l, holds v l -> within cap l ops ->
  exists v' l', run cap junk v ops = Ok v' /\ list_ops l ops = Some l' /\ holds v' l'.
Proof.
  induction ops as [|o ops IH]; intros v l H W; [exists v, l; auto|]. cbn [run list_ops within] in *.
  destruct W as [W1 W2]. destruct (list_op l o) as [l1|] eqn:E; [|destruct W2]. destruct W2 as [W2 W3].
  destruct (run1_ok v l o l1 H W1 E W2) as (v1 & Ev & H1). rewrite Ev. cbn [bind]. now apply IH.
Qed.
Lemma holds_new : holds (new_vector cap junk) [].
Proof. apply (holds_make _ _ [] (repeat junk cap)); auto. apply repeat_length. Qed.
Lemma holds_contents v l : holds v l -> contents v = l.
Proof. intros (_ & H2 & _ & H4). unfold contents. now rewrite H2. Qed.

(** past the capacity *)
Lemma range_loop_over : forall l (v : vector T) n, length (buf v) = cap -> n <= cap -> cap < n + length l -> range_loop cap v n l = OutOfBounds.
Proof.
  induction l as [|x l IH]; intros v n L Hn H; cbn [length] in H; [lia|]. cbn [range_loop].
  replace (cap <? n) with false by (symmetry; apply Nat.ltb_ge; lia).
  unfold store. destruct (Nat.ltb_spec n cap) as [Hl|]; [|reflexivity]. cbn [bind]. apply IH; [|lia|lia].
  cbn [buf]. rewrite app_length. cbn [length]. rewrite firstn_length, skipn_length. lia.
Qed.
Lemma from_range_over l : cap < length l -> from_range cap junk l = OutOfBounds.
Proof. intros H. apply range_loop_over; [apply new_buf|lia|lia]. Qed.
Lemma push_over v l x : holds v l -> length l = cap -> run1 cap junk v (PushBack x) = OutOfBounds.
Proof.
  intros (_ & H2 & _) L. cbn [run1]. unfold store. rewrite H2, L, Nat.ltb_irrefl. reflexivity.
Qed.
Lemma insert_over v l i x : holds v l -> i < length l -> length l = cap -> run1 cap junk v (Insert i x) = OutOfBounds.
Proof.
  intros (H1 & H2 & _) Hi L. cbn [run1]. unfold insert1.
  replace (cap <? i + 1) with false by (symmetry; apply Nat.ltb_ge; lia).
  unfold move. replace (i + (size v - i) <=? cap) with true by (symmetry; apply Nat.leb_le; lia).
  unfold put. assert (Lc : length (cells v i (size v - i)) = cap - i).
  { unfold cells. rewrite firstn_length, skipn_length. lia. }
  rewrite Lc. replace (i + 1 + (cap - i) <=? cap) with false by (symmetry; apply Nat.leb_gt; lia). reflexivity.
Qed.
End P.

(** ** string8 *)
Definition bytes (s : list N) : Prop := Forall (fun c => (0 < c < 256)%N) s.

Lemma c_str_bytes s : bytes s -> c_str s = s.
Proof.
  induction 1 as [|c r Hc Hr IH]; [reflexivity|]. cbn [c_str]. destruct (N.eqb_spec c 0) as [E|E]; [lia|now rewrite IH].
Qed.
Lemma word_inj : forall a b, length a = length b -> Forall (fun c => (c < 256)%N) a -> Forall (fun c => (c < 256)%N) b ->
  word a = word b -> a = b.
Proof.
  induction a as [|x a IH]; intros [|y b] L Ha Hb E; try discriminate; [reflexivity|].
  cbn [word] in E. pose proof (Forall_inv Ha). pose proof (Forall_inv Hb). cbn beta in *.
  assert (x = y /\ word a = word b) as [-> E2].
  { assert (x mod 256 = x)%N by now apply N.mod_small. assert (y mod 256 = y)%N by now apply N.mod_small. lia. }
  f_equal. apply IH; auto. - now apply Forall_inv_tail in Ha. - now apply Forall_inv_tail in Hb.
Qed.
Lemma pad_inj : forall a b n m, bytes a -> bytes b -> a ++ repeat 0%N n = b ++ repeat 0%N m -> a = b.
Proof.
  induction a as [|x a IH]; intros [|y b] n m Ha Hb E; [reflexivity| | |].
  - exfalso. pose proof (Forall_inv Hb) as Hy. cbn beta in Hy. destruct n; cbn [app repeat] in E; [discriminate|].
    injection E as E _. lia.
  - exfalso. pose proof (Forall_inv Ha) as Hy. cbn beta in Hy. destruct m; cbn [app repeat] in E; [discriminate|].
    injection E as E _. lia.
  - cbn [app] in E. injection E as -> E. f_equal. apply (IH b n m); auto.
    + now apply Forall_inv_tail in Ha. + now apply Forall_inv_tail in Hb.
Qed.
Lemma string8_ok s : bytes s -> length s <= 7 -> string8 s = Some (s ++ repeat 0%N (8 - length s)).
Proof.
  intros B L. unfold string8. replace (7 <? length s) with false by (symmetry; apply Nat.ltb_ge; lia).
  now rewrite c_str_bytes.
Qed.
Lemma string8_word a b x y : bytes a -> bytes b -> string8 a = Some x -> string8 b = Some y -> word x = word y -> a = b.
Proof.
  intros Ba Bb Ea Eb E.
  assert (La : length a <= 7). { unfold string8 in Ea. destruct (Nat.ltb_spec 7 (length a)); [discriminate|lia]. }
  assert (Lb : length b <= 7). { unfold string8 in Eb. destruct (Nat.ltb_spec 7 (length b)); [discriminate|lia]. }
  rewrite string8_ok in Ea, Eb by assumption. injection Ea as <-. injection Eb as <-.
  apply (pad_inj a b (8 - length a) (8 - length b) Ba Bb). apply word_inj; [| | |exact E].
  - rewrite !app_length, !repeat_length. lia.
  - apply Forall_app. split; [eapply Forall_impl; [|exact Ba]; cbn; intros; lia|].
    apply Forall_forall. intros c Hc. apply repeat_spec in Hc. lia.
  - apply Forall_app. split; [eapply Forall_impl; [|exact Bb]; cbn; intros; lia|].
    apply Forall_forall. intros c Hc. apply repeat_spec in Hc. lia.
Qed.
