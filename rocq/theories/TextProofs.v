From Coq Require Import List Bool Arith Ascii Lia.
From Verif Require Import TextModel TextSpec.
Import ListNotations.

Lemma has_iff sep c : has sep c = true <-> In c sep.
Proof.
  unfold has. rewrite existsb_exists. split.
  - intros (d & H & E). apply Ascii.eqb_eq in E. now subst.
  - intros H. exists c. split; [exact H|]. apply Ascii.eqb_refl.
Qed.
Lemma has_false sep c : has sep c = false <-> ~ In c sep.
Proof. rewrite <- has_iff. destruct (has sep c); split; congruence. Qed.

Lemma find_from_none s sep i : find_from s sep i = None -> free_of sep s.
Proof.
  revert i. induction s as [|c r IH]; intros i H; [intros ? []|]. cbn [find_from] in H.
  destruct (has sep c) eqn:Hc; [discriminate|]. intros d [<-|Hd]; [now apply has_false|]. exact (IH _ H d Hd).
Qed.
Lemma find_from_some s sep i j : find_from s sep i = Some j ->
  exists p c r, s = p ++ c :: r /\ j = i + length p /\ free_of sep p /\ In c sep.
Proof.
  revert i. induction s as [|c r IH]; intros i H; [discriminate|]. cbn [find_from] in H.
  destruct (has sep c) eqn:Hc.
  - injection H as <-. exists [], c, r. cbn. split; [reflexivity|]. split; [lia|]. split; [intros ? []|now apply has_iff].
  - destruct (IH _ H) as (p & d & q & -> & -> & F & Hd). exists (c :: p), d, q. cbn. split; [reflexivity|]. split; [lia|].
    split; [|exact Hd]. intros e [<-|He]; [now apply has_false|now apply F].
Qed.

Lemma skipn_app_len {A} (a b : list A) : skipn (length a) (a ++ b) = b.
Proof. rewrite skipn_app, Nat.sub_diag, skipn_all. reflexivity. Qed.
Lemma firstn_app_len {A} (a b : list A) : firstn (length a) (a ++ b) = a.
Proof. rewrite firstn_app, Nat.sub_diag, firstn_all. cbn. apply app_nil_r. Qed.

Lemma split_loop_spec : forall fuel pre s sep, length s < fuel ->
  exists pieces, split_loop fuel (pre ++ s) sep (length pre) = Some pieces /\ cut s sep pieces.
Proof.
  induction fuel as [|k IH]; intros pre s sep H; [lia|]. cbn [split_loop].
  unfold find_decollator, substr. rewrite skipn_app_len.
  destruct (find_from s sep (length pre)) as [rgt|] eqn:E.
  - destruct (find_from_some _ _ _ _ E) as (p & c & r & -> & -> & F & Hc).
    rewrite app_length in H. cbn in H.
    replace (length pre + length p - length pre) with (length p) by lia. rewrite firstn_app_len.
    destruct (IH (pre ++ p ++ [c]) r sep) as (pieces & Es & p0 & rest & -> & Er & Hd & Hf); [lia|].
    replace (length pre + length p + 1) with (length (pre ++ p ++ [c])) by (rewrite !app_length; cbn; lia).
    replace (pre ++ p ++ c :: r) with ((pre ++ p ++ [c]) ++ r) by now rewrite <- !app_assoc.
    rewrite Es. cbn [option_map]. eexists. split; [reflexivity|].
    exists p, ((c, p0) :: rest). split; [reflexivity|]. cbn [weave]. split; [now rewrite Er|]. split.
    + intros d q [Hq|Hq]; [injection Hq as <- <-; exact Hc|exact (Hd d q Hq)].
    + intros q [<-|Hq]; [exact F|exact (Hf q Hq)].
  - eexists. split; [reflexivity|]. exists s, []. cbn [map weave]. split; [reflexivity|]. split; [reflexivity|].
    split; [intros ? ? []|]. intros q [<-|[]]. now apply find_from_none in E.
Qed.
Lemma split_spec s sep : exists pieces, split s sep = Some pieces /\ cut s sep pieces.
Proof. apply (split_loop_spec (S (length s)) [] s sep). lia. Qed.

Lemma free_first sep p c r q d t : free_of sep p -> free_of sep q -> In c sep -> In d sep ->
  p ++ c :: r = q ++ d :: t -> p = q /\ c = d /\ r = t.
Proof.
  revert q. induction p as [|a p IH]; intros [|b q] Fp Fq Hc Hd E; cbn [app] in E.
  - injection E as -> ->. auto.
  - injection E as -> _. exfalso. apply (Fq b); [now left|exact Hc].
  - injection E as -> _. exfalso. apply (Fp d); [now left|exact Hd].
  - injection E as -> E. destruct (IH q) as (-> & -> & ->); auto; intros x Hx; [apply Fp|apply Fq]; now right.
Qed.
Lemma cut_unique sep : forall s l1 l2, cut s sep l1 -> cut s sep l2 -> l1 = l2.
Proof.
  intros s l1 l2 (p & r1 & -> & E1 & D1 & F1). subst s. revert p l2 D1 F1.
  induction r1 as [|[d q] r1 IH]; intros p l2 D1 F1 (p2 & r2 & -> & E & D2 & F2); cbn [weave map snd] in *.
  - destruct r2 as [|[d2 q2] r2]; cbn [weave] in E; [now subst|]. exfalso.
    apply (F1 p (or_introl eq_refl) d2); [|exact (D2 d2 q2 (or_introl eq_refl))]. rewrite E. apply in_or_app. right. now left.
  - destruct r2 as [|[d2 q2] r2]; cbn [weave] in E.
    + exfalso. apply (F2 p2 (or_introl eq_refl) d); [|exact (D1 d q (or_introl eq_refl))]. rewrite <- E. apply in_or_app. right. now left.
    + destruct (free_first sep p d (weave q r1) p2 d2 (weave q2 r2)) as (-> & -> & Ew); auto.
      * apply F1. now left. * apply F2. now left. * apply (D1 d q). now left. * apply (D2 d2 q2). now left.
      * cbn [map snd]. f_equal. apply (IH q (q2 :: map snd r2)).
        -- intros e f H. apply (D1 e f). now right.
        -- intros e H. apply F1. now right.
        -- exists q2, r2. split; [reflexivity|]. split; [exact Ew|]. split; intros; [apply (D2 d q0)|apply F2]; now right.
Qed.

Lemma join_loop_S l sep n : join_loop (S n) l sep = concat (map (fun x => sep ++ x) l).
Proof. revert n. induction l as [|x l IH]; intros n; [reflexivity|]. cbn [join_loop map concat]. cbn [Nat.eqb]. rewrite IH. now rewrite app_assoc. Qed.
Lemma join_cons x l sep : join (x :: l) sep = x ++ concat (map (fun y => sep ++ y) l).
Proof. unfold join. cbn [join_loop Nat.eqb app]. now rewrite join_loop_S. Qed.
Lemma weave_join c : forall rest p, (forall d q, In (d, q) rest -> d = c) -> weave p rest = join (p :: map snd rest) [c].
Proof.
  induction rest as [|[d q] rest IH]; intros p H; cbn [weave map snd].
  - rewrite join_cons. cbn. now rewrite app_nil_r.
  - rewrite (IH q) by (intros e f He; apply (H e f); now right). rewrite !join_cons. cbn [map concat].
    rewrite (H d q) by now left. now rewrite <- app_assoc.
Qed.
Lemma join_split s c : exists pieces, split s [c] = Some pieces /\ join pieces [c] = s.
Proof.
  destruct (split_spec s [c]) as (pieces & E & p & rest & -> & Es & D & _). exists (p :: map snd rest). split; [exact E|].
  rewrite Es. symmetry. apply weave_join. intros d q H. destruct (D d q H) as [<-|[]]. reflexivity.
Qed.
Lemma split_join l c : l <> [] -> (forall x, In x l -> ~ In c x) -> split (join l [c]) [c] = Some l.
Proof.
  intros Hl F. destruct (split_spec (join l [c]) [c]) as (pieces & E & C). rewrite E. f_equal.
  apply (cut_unique [c] (join l [c])); [exact C|]. destruct l as [|p l]; [contradiction|].
  exists p, (map (fun q => (c, q)) l). split; [|split; [|split]].
  - rewrite map_map. cbn. now rewrite map_id.
  - rewrite (weave_join c).
    + rewrite map_map. cbn. now rewrite map_id.
    + intros d q H. apply in_map_iff in H. destruct H as (? & H & _). congruence.
  - intros d q H. apply in_map_iff in H. destruct H as (? & H & _). injection H as <- <-. now left.
  - intros q Hq d Hd [<-|[]]. exact (F q Hq Hd).
Qed.

(** ** edit distance: the entries as a function of the two reversed prefixes *)
Fixpoint E (l : str) : str -> nat :=
  match l with
  | [] => fun r => length r
  | x :: ls =>
      fix Er (r : str) : nat :=
        match r with
        | [] => length l
        | y :: rs =>
            match ls, rs with
            | [], [] => if (x =? y)%char then 0 else 2
            | [], _ => Er rs + 1
            | _, [] => E ls r + 1
            | _, _ => if (x =? y)%char then min3 (E ls r) (Er rs) (E ls rs)
                      else min3 (E ls r + 1) (Er rs + 1) (E ls rs + 2)
            end
        end
  end.
Lemma E_row x y z rs : E [x] (y :: z :: rs) = E [x] (z :: rs) + 1.
Proof. reflexivity. Qed.
Lemma E_col x x' ls y : E (x :: x' :: ls) [y] = E (x' :: ls) [y] + 1.
Proof. reflexivity. Qed.
Lemma E_in x x' ls y y' rs : E (x :: x' :: ls) (y :: y' :: rs) =
  if (x =? y)%char then min3 (E (x' :: ls) (y :: y' :: rs)) (E (x :: x' :: ls) (y' :: rs)) (E (x' :: ls) (y' :: rs))
  else min3 (E (x' :: ls) (y :: y' :: rs) + 1) (E (x :: x' :: ls) (y' :: rs) + 1) (E (x' :: ls) (y' :: rs) + 2).
Proof. reflexivity. Qed.
Lemma E_one x y : E [x] [y] = if (x =? y)%char then 0 else 2.
Proof. reflexivity. Qed.

Fixpoint row (l acc ys : str) : list nat :=
  match ys with [] => [] | y :: ys' => E l (y :: acc) :: row l (y :: acc) ys' end.

Lemma first_row_spec x ys : forall z acc, first_row ys (E [x] (z :: acc) + 1) = row [x] (z :: acc) ys.
Proof.
  induction ys as [|y ys IH]; intros z acc; [reflexivity|]. cbn [first_row row]. rewrite E_row. f_equal.
  rewrite <- E_row with (y := y). apply IH.
Qed.
Lemma next_row_spec x x' l ys : forall z acc,
  next_row x ys (row (x' :: l) (z :: acc) ys) (E (x' :: l) (z :: acc)) (E (x :: x' :: l) (z :: acc)) = row (x :: x' :: l) (z :: acc) ys.
Proof.
  induction ys as [|y ys IH]; intros z acc; [reflexivity|]. cbn [row next_row].
  rewrite <- E_in. f_equal. apply IH.
Qed.
Lemma rows_spec y rhs : forall lhs x l, rows lhs (y :: rhs) (row (x :: l) [] (y :: rhs)) = row (rev lhs ++ x :: l) [] (y :: rhs).
Proof.
  induction lhs as [|a lhs IH]; intros x l; [reflexivity|]. cbn [rows row rev].
  rewrite <- E_col with (x := a). rewrite next_row_spec. rewrite <- app_assoc. cbn [app].
  exact (IH a (x :: l)).
Qed.
Lemma row_cons l acc y ys : row l acc (y :: ys) = E l (y :: acc) :: row l (y :: acc) ys.
Proof. reflexivity. Qed.
Lemma last_row : forall ys l acc y, last (row l acc (y :: ys)) 0 = E l (rev (y :: ys) ++ acc).
Proof.
  induction ys as [|z ys IH]; intros l acc y.
  - reflexivity.
  - rewrite row_cons. specialize (IH l (y :: acc) z). rewrite row_cons in IH |- *.
    change (last (E l (z :: y :: acc) :: row l (z :: y :: acc) ys) 0 = E l (rev (y :: z :: ys) ++ acc)).
    rewrite IH. f_equal. cbn [rev]. now rewrite <- !app_assoc.
Qed.

Lemma edit_distance_E lhs rhs : edit_distance lhs rhs = E (rev lhs) (rev rhs).
Proof.
  destruct lhs as [|x lhs]; [cbn [edit_distance rev E]; now rewrite rev_length|].
  destruct rhs as [|y rhs].
  - cbn [edit_distance]. change (rev []) with (@nil ascii).
    assert (H : forall l, E l [] = length l) by (intros [|]; reflexivity). now rewrite H, rev_length.
  - unfold edit_distance. rewrite <- E_one.
    assert (F : first_row (y :: rhs) (E [x] [y]) = row [x] [] (y :: rhs)).
    { rewrite row_cons. cbn [first_row]. f_equal. apply first_row_spec. }
    rewrite F, rows_spec, last_row, app_nil_r. reflexivity.
Qed.

Lemma E_nil_r l : E l [] = length l.
Proof. destruct l; reflexivity. Qed.
Lemma eqb_comm (x y : ascii) : (x =? y)%char = (y =? x)%char.
Proof. apply Ascii.eqb_sym. Qed.
Lemma E_sym : forall l r, E l r = E r l.
Proof.
  induction l as [|x l IHl]; intros r; [symmetry; apply E_nil_r|].
  induction r as [|y r IHr]; [apply E_nil_r|].
  destruct l as [|x' l], r as [|y' r].
  - rewrite !E_one. now rewrite eqb_comm.
  - rewrite E_row, E_col. now rewrite IHr.
  - rewrite E_row, E_col. now rewrite IHl.
  - rewrite !E_in, (eqb_comm y x). rewrite (IHl (y :: y' :: r)), (IHl (y' :: r)), IHr.
    unfold min3. destruct (x =? y)%char; lia.
Qed.
Lemma E_refl l : E l l = 0.
Proof.
  induction l as [|x l IH]; [reflexivity|]. destruct l as [|x' l].
  - rewrite E_one, Ascii.eqb_refl. reflexivity.
  - rewrite E_in, Ascii.eqb_refl, IH. unfold min3. lia.
Qed.
Lemma E_bound : forall l r, E l r <= length l + length r.
Proof.
  induction l as [|x l IHl]; intros r; [cbn; lia|].
  induction r as [|y r IHr]; [rewrite E_nil_r; lia|].
  destruct l as [|x' l], r as [|y' r].
  - rewrite E_one. cbn. destruct (x =? y)%char; lia.
  - rewrite E_row. cbn [length] in *. lia.
  - rewrite E_col. specialize (IHl [y]). cbn [length] in *. lia.
  - rewrite E_in. pose proof (IHl (y :: y' :: r)) as H1. pose proof (IHl (y' :: r)) as H2. cbn [length] in *.
    unfold min3. destruct (x =? y)%char; lia.
Qed.
