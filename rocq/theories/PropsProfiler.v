(** C172: the profiler. *)
From Coq Require Import ZArith QArith Ascii String Bool List Lia.
From Verif Require Import ShapeModel KernelBase ProfilerModel.
Import ListNotations.
Local Open Scope Z_scope.

(** the number a row of digits denotes *)
Definition number (l : text) : Z := fold_left (fun a c => 10 * a + (Z.of_nat (nat_of_ascii c) - 48)) l 0.
Definition is_digit (c : ascii) : Prop := 0 <= Z.of_nat (nat_of_ascii c) - 48 <= 9.

Lemma same_spec a b : same a b = true <-> a = b.
Proof. unfold same. destruct (list_eq_dec ascii_dec a b); split; congruence. Qed.
Lemma digit_ok n : 0 <= n <= 9 -> is_digit (digit n) /\ Z.of_nat (nat_of_ascii (digit n)) - 48 = n.
Proof. intros H. unfold is_digit, digit. rewrite nat_ascii_embedding by lia. lia. Qed.
Lemma number_snoc l c : number (l ++ [c]) = 10 * number l + (Z.of_nat (nat_of_ascii c) - 48).
Proof. unfold number. now rewrite fold_left_app. Qed.
Lemma dec_ok f : forall n, 0 <= n < 10 ^ Z.of_nat f -> (0 < f)%nat -> number (dec f n) = n /\ Forall is_digit (dec f n) /\ (1 <= List.length (dec f n) <= f)%nat.
Proof.
  induction f as [|f IH]; intros n Hn Hf; [lia|]. cbn [dec]. destruct (Z.ltb_spec n 10) as [L|L].
  - destruct (digit_ok n ltac:(lia)) as [D1 D2]. split; [unfold number; cbn [fold_left]; lia|]. split; [constructor; [exact D1|constructor]|cbn; lia].
  - assert (Hf' : (0 < f)%nat). { destruct f; [|lia]. cbn in Hn. lia. }
    pose proof (Z.div_mod n 10 ltac:(lia)) as D. pose proof (Z.mod_pos_bound n 10 ltac:(lia)) as M.
    assert (B : 0 <= n / 10 < 10 ^ Z.of_nat f). { split; [apply Z.div_pos; lia|]. apply Z.div_lt_upper_bound; [lia|]. rewrite Nat2Z.inj_succ, Z.pow_succ_r in Hn by lia. lia. }
    destruct (IH _ B Hf') as (I1 & I2 & I3). destruct (digit_ok (n mod 10) ltac:(lia)) as [D1 D2].
    split; [rewrite number_snoc, I1, D2; lia|]. split; [apply Forall_app; split; [exact I2|constructor; [exact D1|constructor]]|]. rewrite app_length. cbn [List.length]. lia.
Qed.
Lemma number_zeros k l : number (repeat "0"%char k ++ l) = number l.
Proof. unfold number. rewrite fold_left_app. f_equal. induction k as [|k IH]; [reflexivity|]. cbn [repeat fold_left]. exact IH. Qed.
(** A number is printed with its digits, at least four of them. *)
Theorem C172_number n : 0 <= n < 10 ^ 10 -> number (padded n) = n /\ Forall is_digit (padded n) /\ (4 <= List.length (padded n) <= 10)%nat.
Proof.
  intros H. destruct (dec_ok 10 n H ltac:(lia)) as (I1 & I2 & I3). unfold padded. split; [now rewrite number_zeros|]. split.
  - apply Forall_app. split; [|exact I2]. apply Forall_forall. intros c Hc. apply repeat_spec in Hc. subst c. unfold is_digit. vm_compute. split; discriminate.
  - rewrite app_length, repeat_length. lia.
Qed.

(** the label of the operator and name [r] (joined by a colon) with number [k] *)
Definition label (k : Z) (r : text) : text := t "op(" ++ padded k ++ t "):" ++ r.
(** Two labels are the same only for the same number, operator and name. *)
Theorem C172_distinct k k' r r' : 0 <= k < 10 ^ 10 -> 0 <= k' < 10 ^ 10 -> label k r = label k' r' -> k = k' /\ r = r'.
Proof.
  intros Hk Hk'. destruct (C172_number k Hk) as (N1 & D1 & _). destruct (C172_number k' Hk') as (N2 & D2 & _).
  unfold label. change (t "op(") with ["o"; "p"; "("]%char. change (t "):") with [")"; ":"]%char. cbn [app]. intros E. injection E as E.
  rewrite <- N1, <- N2. clear N1 N2 Hk Hk'. revert D1 D2 E. generalize (padded k) as a. generalize (padded k') as b. intros b a D1 D2 E.
  assert (P : ~ is_digit ")"%char) by (unfold is_digit; vm_compute; intros [H _]; now apply H).
  assert (G : a = b /\ r = r').
  { revert b D2 E. induction D1 as [|x a Hx D1 IH]; intros b D2 E.
    - destruct D2 as [|y b Hy D2]; cbn [app] in E; [injection E; auto|]. injection E as E1 E2. subst y. contradiction.
    - destruct D2 as [|y b Hy D2]; cbn [app] in E; [injection E as E1 E2; subst x; contradiction|]. injection E as E1 E2. subst y. destruct (IH b D2 E2) as [-> ->]. auto. }
  destruct G as [-> ->]. auto.
Qed.

(** the place of a text among those seen, counted from 1 *)
Fixpoint place (seen : list text) (f : text) : Z :=
  match seen with [] => 1 | g :: seen' => if list_eq_dec ascii_dec g f then 1 else 1 + place seen' f end.
(** what a history asks to be recorded, label and duration: an operator is numbered
    by the order in which operators were first seen *)
Fixpoint asked (seen : list text) (cs : list call) : list (text * Q) :=
  match cs with
  | [] => []
  | Operator op name d :: cs' =>
      let r := op ++ t ":" ++ name in
      (label (place seen r) r, d) :: asked (if in_dec (list_eq_dec ascii_dec) r seen then seen else seen ++ [r]) cs'
  | Timer name d :: cs' => (name, d) :: asked seen cs'
  | BoardClear _ :: cs' | BoardClean :: cs' => asked seen cs'
  | Clean :: cs' => asked [] cs'
  end.
Definition durations (l : list (text * Q)) (name : text) : list Q :=
  map snd (filter (fun e => if list_eq_dec ascii_dec (fst e) name then true else false) l).
Definition plain (c : call) : Prop :=
  match c with Operator op name _ => ~ In "%"%char op /\ ~ In "%"%char name | BoardClean => False | _ => True end.

Lemma print_plain r a : ~ In "%"%char r -> print r a = SOk r.
Proof.
  induction r as [|c r IH]; intros H; [reflexivity|]. cbn [print]. destruct (ascii_dec c "%"%char) as [->|N]; [exfalso; apply H; now left|]. cbn [negb].
  rewrite IH by (intros I; apply H; now right). reflexivity.
Qed.
Lemma print_label op name n : ~ In "%"%char op -> ~ In "%"%char name ->
  print (format_of op name) (Some n) = SOk (label n (op ++ t ":" ++ name)).
Proof.
  intros H1 H2. unfold format_of, label. change (t "op(%04d):") with (["o"; "p"; "("; "%"; "0"; "4"; "d"]%char ++ t "):"). rewrite <- app_assoc.
  assert (P : print (t "):" ++ op ++ t ":" ++ name) None = SOk (t "):" ++ op ++ t ":" ++ name)).
  { apply print_plain. change (t "):") with [")"; ":"]%char. change (t ":") with [":"]%char. intros H. cbn [app In] in H. destruct H as [H|[H|H]]; [discriminate..|].
    apply in_app_or in H. cbn [In app] in H. destruct H as [H|[H|H]]; [now apply H1|discriminate|now apply H2]. }
  set (tl := t "):" ++ op ++ t ":" ++ name) in *. cbn [app print]. cbn -[padded tl]. rewrite P. reflexivity.
Qed.
Lemma label_short n op name : 0 <= n < 10 ^ 10 -> firstn (2 * List.length (format_of op name) + 1 - 1) (label n (op ++ t ":" ++ name)) = label n (op ++ t ":" ++ name).
Proof.
  intros H. apply firstn_all2. destruct (C172_number n H) as (_ & _ & L). unfold label, format_of. change (t "op(") with ["o"; "p"; "("]%char. change (t "op(%04d):") with ["o"; "p"; "("; "%"; "0"; "4"; "d"; ")"; ":"]%char. change (t "):") with [")"; ":"]%char. change (t ":") with [":"]%char.
  rewrite !app_length. cbn [List.length]. lia.
Qed.

Lemma append_query b name d n : map snd (filter (fun e => same (fst e) n) b) = map snd (filter (fun e => same (fst e) n) b) -> 
  match find (fun e => same (fst e) n) (append b name d) with Some e => snd e | None => [] end =
  match find (fun e => same (fst e) n) b with Some e => snd e | None => [] end ++ (if same name n then [d] else []).
Proof.
  intros _. induction b as [|[m l] b IH]; cbn [append find fst].
  - destruct (same name n); reflexivity.
  - destruct (same m name) eqn:E; cbn [find fst].
    + apply same_spec in E. subst m. destruct (same name n) eqn:E2; cbn [snd]; [reflexivity|]. now rewrite app_nil_r.
    + destruct (same m n) eqn:E2; cbn [snd]; [|exact IH]. apply same_spec in E2. subst m.
      assert (E3 : same name n = false). { destruct (same name n) eqn:E3; [|reflexivity]. apply same_spec in E3. subst name. rewrite (proj2 (same_spec n n) eq_refl) in E. discriminate. }
      rewrite E3, app_nil_r. reflexivity.
Qed.
Lemma append_keys b name d : NoDup (map fst b) -> NoDup (map fst (append b name d)) /\ (forall n, In n (map fst (append b name d)) <-> In n (map fst b) \/ n = name).
Proof.
  induction b as [|[m l] b IH]; intros N; cbn [append map fst].
  - split; [constructor; [intros []|constructor]|]. intros n. cbn. intuition congruence.
  - cbn [map fst] in N. inversion N as [|? ? N1 N2]; subst. destruct (IH N2) as [I1 I2]. destruct (same m name) eqn:E; cbn [map fst].
    + apply same_spec in E. subst m. split; [exact N|]. intros n. cbn. intuition congruence.
    + split.
      * constructor; [|exact I1]. intros H. apply I2 in H. destruct H as [H| ->]; [contradiction|]. rewrite (proj2 (same_spec name name) eq_refl) in E. discriminate.
      * intros n. cbn [In]. rewrite I2. intuition congruence.
Qed.

(** the table of numbers: the formats of the operators seen, numbered from 1 *)
Fixpoint numbered (k : Z) (seen : list text) : list (text * Z) :=
  match seen with [] => [] | r :: seen' => (t "op(%04d):" ++ r, k) :: numbered (k + 1) seen' end.
Lemma numbered_app k a b : numbered k (a ++ b) = numbered k a ++ numbered (k + Z.of_nat (List.length a)) b.
Proof. revert k. induction a as [|x a IH]; intros k; cbn [app numbered List.length]; [now rewrite Z.add_0_r|]. rewrite IH. do 3 f_equal. lia. Qed.
Lemma numbered_length k a : List.length (numbered k a) = List.length a.
Proof. revert k. induction a; intros; cbn; auto. Qed.
Lemma numbered_find seen r : forall k, find (fun e => same (fst e) (t "op(%04d):" ++ r)) (numbered k seen) = if in_dec (list_eq_dec ascii_dec) r seen then Some (t "op(%04d):" ++ r, k + place seen r - 1) else None.
Proof.
  induction seen as [|g seen IH]; intros k; [reflexivity|]. cbn [numbered find fst place].
  destruct (list_eq_dec ascii_dec g r) as [->|N].
  - rewrite (proj2 (same_spec _ _) eq_refl). match goal with |- context [if ?d then _ else _] => destruct d as [H|H] end; [repeat f_equal; lia|exfalso; apply H; now left].
  - assert (E : same (t "op(%04d):" ++ g) (t "op(%04d):" ++ r) = false). { destruct (same _ _) eqn:E; [|reflexivity]. apply same_spec in E. apply app_inv_head in E. contradiction. }
    rewrite E, IH. repeat match goal with |- context [if ?d then _ else _] => destruct d as [?H|?H] end; try reflexivity.
    + f_equal. f_equal. lia.
    + exfalso. cbn in *. tauto.
    + exfalso. cbn in *. tauto.
Qed.
Lemma place_new seen r : ~ In r seen -> place seen r = Z.of_nat (List.length seen) + 1.
Proof.
  induction seen as [|g seen IH]; intros H; cbn [place List.length]; [reflexivity|]. destruct (list_eq_dec ascii_dec g r) as [->|N]; [exfalso; apply H; now left|].
  rewrite IH by (intros I; apply H; now right). lia.
Qed.
Lemma place_range seen r : 1 <= place seen r <= Z.of_nat (List.length seen) + 1.
Proof. induction seen as [|g seen IH]; cbn [place List.length]; [lia|]. destruct (list_eq_dec ascii_dec g r); lia. Qed.

Definition recorded (p : profiler) (l : list (text * Q)) : Prop :=
  (forall n, query p n = durations l n) /\ NoDup (map fst (board p)) /\ (forall n, In n (map fst (board p)) <-> In n (map fst l)).
Lemma record_one b ser l name d : recorded (Profiler b ser) l -> forall ser', recorded (Profiler (append b name d) ser') (l ++ [(name, d)]).
Proof.
  intros (Q1 & Q2 & Q3) ser'. unfold recorded in *. cbn [board] in *. destruct (append_keys b name d Q2) as [K1 K2]. split; [|split; [exact K1|]].
  - intros n. unfold query in *. cbn [board] in *. rewrite append_query by reflexivity. rewrite Q1. unfold durations. rewrite filter_app, map_app. f_equal. cbn [filter fst].
    unfold same. destruct (list_eq_dec ascii_dec name n); reflexivity.
  - intros n. rewrite K2, Q3, map_app, in_app_iff. cbn. intuition congruence.
Qed.
Lemma run_inv cs : Forall plain cs -> forall b seen l, recorded (Profiler b (numbered 1 seen)) l -> Z.of_nat (List.length seen) + Z.of_nat (List.length cs) < 10 ^ 9 ->
  exists p, run (Profiler b (numbered 1 seen)) cs = SOk p /\ recorded p (l ++ asked seen cs).
Proof.
  induction 1 as [|c cs Hc _ IH]; intros b seen l R B.
  - exists (Profiler b (numbered 1 seen)). cbn [run asked]. rewrite app_nil_r. split; [reflexivity|exact R].
  - cbn [List.length] in B. cbn [run]. destruct c as [op name d|name d|name| |]; cbn [plain] in Hc.
    + destruct Hc as [H1 H2]. cbn [step]. set (r := op ++ t ":" ++ name). assert (Ef : format_of op name = t "op(%04d):" ++ r) by reflexivity.
      unfold serial_of. cbn [serial board]. rewrite Ef, numbered_find, numbered_length. cbn [asked]. fold r.
      assert (Pr : 0 <= place seen r < 10 ^ 10) by (pose proof (place_range seen r); lia).
      destruct (in_dec (list_eq_dec ascii_dec) r seen) as [I|N].
      * cbn [snd]. replace (1 + place seen r - 1) with (place seen r) by lia. rewrite <- Ef, (print_label op name _ H1 H2), label_short by exact Pr. cbn [board serial]. fold r.
        destruct (IH (append b (label (place seen r) r) d) seen (l ++ [(label (place seen r) r, d)])) as (p & E & Rp); [eapply record_one; exact R|lia|].
        exists p. split; [exact E|]. rewrite <- app_assoc in Rp. exact Rp.
      * rewrite <- (place_new seen r N). rewrite <- Ef, (print_label op name _ H1 H2), label_short by exact Pr. cbn [board serial]. fold r.
        assert (En : numbered 1 seen ++ [(format_of op name, place seen r)] = numbered 1 (seen ++ [r])).
        { rewrite numbered_app. cbn [numbered]. rewrite Ef, (place_new seen r N). do 3 f_equal. lia. }
        rewrite En. destruct (IH (append b (label (place seen r) r) d) (seen ++ [r]) (l ++ [(label (place seen r) r, d)])) as (p & E & Rp); [eapply record_one; exact R|rewrite app_length; cbn [List.length]; lia|].
        exists p. split; [exact E|]. rewrite <- app_assoc in Rp. exact Rp.
    + cbn [step asked board serial]. destruct (IH (append b name d) seen (l ++ [(name, d)])) as (p & E & Rp); [eapply record_one; exact R|lia|].
      exists p. split; [exact E|]. rewrite <- app_assoc in Rp. exact Rp.
    + cbn [step asked]. apply IH; [exact R|lia].
    + contradiction.
    + cbn [step asked board]. change (@nil (text * Z)) with (numbered 1 []). apply IH; [exact R|cbn [List.length]; lia].
Qed.

(** Whatever ran and in whatever order: every duration is recorded once, under its
    label, in order; the log has one line for each label that was ever timed, with
    the mean of its durations. *)
Theorem C172_recorded_partial (cs : list call) : Forall plain cs -> Z.of_nat (List.length cs) < 10 ^ 9 ->
  exists p, run empty cs = SOk p /\ (forall n, query p n = durations (asked [] cs) n) /\
    NoDup (map fst (log p)) /\ (forall n v, In (n, v) (log p) <-> In n (map fst (asked [] cs)) /\ v = avg (durations (asked [] cs) n)).
Proof.
  intros F B. destruct (run_inv cs F [] [] []) as (p & E & Q1 & Q2 & Q3); [|cbn [List.length]; lia|].
  { split; [reflexivity|]. split; [constructor|]. reflexivity. }
  cbn [app] in *. exists p. split; [exact E|]. split; [exact Q1|]. unfold log. split; [rewrite map_map; exact Q2|]. intros n v. rewrite in_map_iff.
  assert (Fn : forall e, In e (board p) -> query p (fst e) = snd e).
  { clear -Q2. unfold query. induction (board p) as [|[m l] b IH]; intros e H; [destruct H|]. cbn [map fst] in Q2. inversion Q2 as [|? ? N1 N2]; subst. cbn [find fst]. destruct H as [<-|H].
    - cbn [fst snd]. now rewrite (proj2 (same_spec m m) eq_refl).
    - destruct (same m (fst e)) eqn:Es; [|now apply IH]. apply same_spec in Es. subst m. exfalso. apply N1, in_map, H. }
  split.
  - intros ([m l] & Eq & I). cbn [fst snd] in Eq. injection Eq as <- <-. split; [apply Q3; apply (in_map fst _ _ I)|]. rewrite <- Q1. f_equal. symmetry. exact (Fn _ I).
  - intros [I ->]. apply Q3 in I. apply in_map_iff in I. destruct I as ([m l] & Em & I). cbn [fst] in Em. subst m. exists (n, l). split; [|exact I]. cbn [fst snd]. f_equal. rewrite <- Q1. f_equal. symmetry. exact (Fn _ I).
Qed.

(** The mean of a label is its sum over its number of durations. *)
Theorem C172_mean l : l <> [] -> (avg l * inject_Z (Z.of_nat (List.length l)) == fold_right Qplus 0 l)%Q.
Proof.
  intros N. assert (S : forall a, (fold_left Qplus l a == a + fold_right Qplus 0 l)%Q). { clear N. induction l as [|x l IH]; intros a; cbn [fold_left fold_right]; [ring|]. rewrite IH. ring. }
  assert (K : ~ (inject_Z (Z.of_nat (List.length l)) == 0)%Q). { destruct l; [contradiction|]. unfold Qeq. cbn. lia. }
  unfold avg. destruct l as [|x l]; [contradiction|]. unfold sum. rewrite S. field. exact K.
Qed.

(** Clearing one label clears nothing. *)
Theorem C172_clear_refuted : exists p, run empty [Timer (t "x") 1; Timer (t "y") 2; BoardClear (t "x")] = SOk p /\ query p (t "x") = [1%Q] /\ log p = [(t "x", 1%Q); (t "y", 2%Q)].
Proof. eexists. split; [vm_compute; reflexivity|]. split; vm_compute; reflexivity. Qed.
(** An operator whose name has a percent sign takes the profiler with it. *)
Theorem C172_percent_refuted : run empty [Operator (t "conv2d") (t "fc%s") 1] = SUndef /\ run empty [Operator (t "conv2d") (t "90%") 1] = SUndef.
Proof. split; vm_compute; reflexivity. Qed.
(** Profiler::clean keeps the times and forgets the numbers: another operator gets the
    number of the first. *)
Theorem C172_clean_refuted : exists p, run empty [Operator (t "a") (t "x") 1; Clean; Operator (t "b") (t "y") 2; Operator (t "a") (t "x") 3] = SOk p /\
  log p = [(t "op(0001):a:x", 1%Q); (t "op(0001):b:y", 2%Q); (t "op(0002):a:x", 3%Q)].
Proof. eexists. split; [vm_compute; reflexivity|]. vm_compute. reflexivity. Qed.
Print Assumptions C172_number.
Print Assumptions C172_distinct.
Print Assumptions C172_recorded_partial.
Print Assumptions C172_mean.
Print Assumptions C172_clear_refuted.
Print Assumptions C172_percent_refuted.
Print Assumptions C172_clean_refuted.
Example C172_example : Forall plain [Operator (t "a") (t "x") 1; Timer (t "all") 5; Operator (t "b") (t "y") 2; Operator (t "a") (t "x") 3] /\
  exists p, run empty [Operator (t "a") (t "x") 1; Timer (t "all") 5; Operator (t "b") (t "y") 2; Operator (t "a") (t "x") 3] = SOk p /\
    map (fun e => (fst e, Qred (snd e))) (log p) = [(t "op(0001):a:x", 2%Q); (t "all", 5%Q); (t "op(0002):b:y", 2%Q)].
Proof.
  split; [repeat constructor; cbn; intuition discriminate|]. eexists. split; vm_compute; reflexivity.
Qed.
