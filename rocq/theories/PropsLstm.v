(** C155: the LSTM operator on the stack. *)
From Coq Require Import String List ZArith Bool Arith Lia.
From Verif Require Import ShapeModel ResizeModel LstmModel LstmSpec.
Import ListNotations.
Local Open Scope nat_scope.

Section Lists.
Lemma nth_map_seq {A} (f : nat -> A) n i d : i < n -> nth i (map f (seq 0 n)) d = f i.
Proof. intros H. rewrite (nth_indep _ d (f 0)) by (rewrite map_length, seq_length; exact H). rewrite map_nth, seq_nth by exact H. reflexivity. Qed.
Lemma nth_map_in {A B} (f : A -> B) l d d' i : i < length l -> nth i (map f l) d' = f (nth i l d).
Proof. intros H. rewrite (nth_indep _ d' (f d)) by (rewrite map_length; exact H). apply map_nth. Qed.
Lemma list_seq {A} (l : list A) d : l = map (fun i => nth i l d) (seq 0 (length l)).
Proof.
  induction l as [|x l IH]; [reflexivity|]. cbn [length seq map nth]. f_equal. rewrite <- seq_shift, map_map. exact IH.
Qed.
Lemma zip_seq {A B C} (f : A -> B -> sres C) (g : nat -> C) da db : forall n a b, length a = n -> length b = n ->
  (forall i, i < n -> f (nth i a da) (nth i b db) = SOk (g i)) -> zip f a b = SOk (map g (seq 0 n)).
Proof.
  intros n. revert g. induction n as [|n IH]; intros g a b LA LB H; destruct a as [|x a], b as [|y b]; try discriminate; [reflexivity|].
  cbn [zip]. pose proof (H 0 ltac:(lia)) as H0. cbn [nth] in H0. rewrite H0. cbn [bind2].
  rewrite (IH (fun i => g (S i))); [|cbn in LA; lia|cbn in LB; lia|intros i I; apply (H (S i)); lia].
  cbn [bind2 seq map]. rewrite <- seq_shift, map_map. reflexivity.
Qed.
Lemma each_seq {A C} (f : A -> sres C) (g : nat -> C) da : forall n a, length a = n ->
  (forall i, i < n -> f (nth i a da) = SOk (g i)) -> each f a = SOk (map g (seq 0 n)).
Proof.
  intros n. revert g. induction n as [|n IH]; intros g a LA H; destruct a as [|x a]; try discriminate; [reflexivity|].
  cbn [each]. pose proof (H 0 ltac:(lia)) as H0. cbn [nth] in H0. rewrite H0. cbn [bind2].
  rewrite (IH (fun i => g (S i))); [|cbn in LA; lia|intros i I; apply (H (S i)); lia].
  cbn [bind2 seq map]. rewrite <- seq_shift, map_map. reflexivity.
Qed.
End Lists.

Section Lstm.
Context {V : Type}.
Variables (zero : V) (add mul : V -> V -> V) (dot : list V -> list V -> V) (sigmoid tanh : V -> V).
Hypothesis addC : forall a b, add a b = add b a.
Hypothesis mulC : forall a b, mul a b = mul b a.
Notation matrix := (list (list V)).
Notation gemm := (gemm add dot).

Lemma grid_shaped n k f : shaped n k (@grid V n k f).
Proof.
  split; [unfold grid; rewrite map_length, seq_length; reflexivity|]. apply Forall_forall. intros r H. apply in_map_iff in H.
  destruct H as (i & <- & _). rewrite map_length, seq_length. reflexivity.
Qed.
Lemma grid_ext n k (f g : nat -> nat -> V) : (forall i j, i < n -> j < k -> f i j = g i j) -> grid n k f = grid n k g.
Proof.
  intros H. apply map_ext_in. intros i I. apply in_seq in I. apply map_ext_in. intros j J. apply in_seq in J. apply H; lia.
Qed.
Lemma entry_grid n k (f : nat -> nat -> V) i j : i < n -> j < k -> entry zero (grid n k f) i j = f i j.
Proof. intros I J. unfold entry, grid. rewrite nth_map_seq by exact I. apply nth_map_seq. exact J. Qed.
Lemma shaped_row n k (m : matrix) i : shaped n k m -> i < n -> length (nth i m []) = k.
Proof. intros (L & F) I. rewrite Forall_forall in F. apply F. apply nth_In. rewrite L. exact I. Qed.
Lemma as_grid n k (m : matrix) : shaped n k m -> m = grid n k (entry zero m).
Proof.
  intros S. unfold grid. rewrite (list_seq m []) at 1. destruct S as (L & F). rewrite L. apply map_ext_in. intros i I. apply in_seq in I.
  rewrite (list_seq (nth i m []) zero) at 1. rewrite (shaped_row n k m i (conj L F)) by lia. reflexivity.
Qed.

Lemma gemm_grid B H K (a b : matrix) c : shaped B K a -> shaped H K b -> length c = H ->
  gemm a b c = SOk (grid B H (fun n j => add (dot (nth n a []) (nth j b [])) (nth j c zero))).
Proof.
  intros SA SB LC. unfold LstmModel.gemm. apply (each_seq _ _ []); [apply SA|]. intros i I.
  apply (zip_seq _ (fun j => add (dot (nth i a []) (nth j b [])) (nth j c zero)) [] zero); [apply SB|exact LC|].
  intros j J. rewrite (shaped_row B K a i SA I), (shaped_row H K b j SB J), Nat.eqb_refl. reflexivity.
Qed.
Lemma wise_grid (f : V -> V -> V) B H (x y : nat -> nat -> V) :
  element_wise f [Mat (grid B H x); Mat (grid B H y)] = SOk (Mat (grid B H (fun n j => f (x n j) (y n j)))).
Proof.
  cbn [element_wise]. rewrite (zip_seq _ (fun n => map (fun j => f (x n j) (y n j)) (seq 0 H)) [] [] B); [reflexivity|apply grid_shaped|apply grid_shaped|].
  intros i I. unfold grid. rewrite !nth_map_seq by exact I.
  apply (zip_seq _ _ zero zero); [rewrite map_length, seq_length; reflexivity|rewrite map_length, seq_length; reflexivity|].
  intros j J. rewrite !nth_map_seq by exact J. reflexivity.
Qed.
Lemma act_grid (f : V -> V) B H (x : nat -> nat -> V) :
  activation f [Mat (grid B H x)] = SOk (Mat (grid B H (fun n j => f (x n j)))).
Proof.
  cbn [activation]. do 2 f_equal. unfold grid. rewrite map_map. apply map_ext. intros n. rewrite map_map. reflexivity.
Qed.

(** *** the stack *)
Lemma operate_top n f (L args : list (@value V)) e : length args = n ->
  operate n f (Machine (L ++ args) e) = bind2 (f args) (fun r => SOk (Machine (L ++ [r]) (S e))).
Proof.
  intros H. unfold operate. cbn [stack epoch]. rewrite app_length. destruct (Nat.ltb_spec (length L + length args) n); [lia|].
  replace (length L + length args - n) with (length L) by lia.
  rewrite skipn_app, firstn_app, skipn_all, firstn_all, Nat.sub_diag. cbn [skipn firstn app]. rewrite app_nil_r. reflexivity.
Qed.
Lemma top_app (L : list (@value V)) v e : top (Machine (L ++ [v]) e) = SOk (v, Pointer (length L) e).
Proof. unfold top. cbn [stack epoch]. rewrite rev_app_distr, app_length. cbn [rev app length]. rewrite Nat.add_sub. reflexivity. Qed.
Lemma deref_in (L rest : list (@value V)) v e e' : deref false (Pointer (length L) e) (Machine (L ++ v :: rest) e') = SOk v.
Proof. unfold deref. cbn [andb stack p_at]. rewrite nth_error_app2, Nat.sub_diag by lia. reflexivity. Qed.
Lemma deref_stale p (m : @machine V) : p_epoch p <> epoch m -> deref true p m = SUndef.
Proof. intros H. unfold deref. cbn [andb]. apply Nat.eqb_neq in H. rewrite H. reflexivity. Qed.
Lemma erase_below_app (L : list (@value V)) v e k : k <= length L -> erase_below k (Machine (L ++ [v]) e) = SOk (Machine (firstn k L ++ [v]) (S e)).
Proof.
  intros H. unfold erase_below. cbn [stack epoch]. rewrite app_length. cbn [length].
  destruct (Nat.ltb_spec (length L + 1) 1); [lia|]. rewrite Nat.add_sub. destruct (Nat.ltb_spec (length L) k); [lia|].
  rewrite skipn_app, firstn_app, skipn_all, Nat.sub_diag. replace (k - length L) with 0 by lia. cbn [skipn firstn app]. rewrite app_nil_r. reflexivity.
Qed.
Lemma erase_top_app (L : list (@value V)) v e : erase_top (Machine (L ++ [v]) e) = SOk (Machine L e).
Proof. unfold erase_top. cbn [stack epoch]. rewrite rev_app_distr. cbn [rev app]. rewrite rev_involutive. reflexivity. Qed.
Lemma push3 (L : list (@value V)) a b c e : push c (push b (push a (Machine L e))) = Machine (L ++ [a; b; c]) e.
Proof. unfold push. cbn [stack epoch]. rewrite <- !app_assoc. reflexivity. Qed.
Lemma push2 (L : list (@value V)) a b e : push b (push a (Machine L e)) = Machine (L ++ [a; b]) e.
Proof. unfold push. cbn [stack epoch]. rewrite <- app_assoc. reflexivity. Qed.
Lemma push1 (L l : list (@value V)) a e : push a (Machine (L ++ l) e) = Machine (L ++ (l ++ [a])) e.
Proof. unfold push. cbn [stack epoch]. rewrite <- app_assoc. reflexivity. Qed.

(** *** one gate *)
Record gate_shaped (I H : nat) (g : @gate V) : Prop := {
  gs_w : shaped H I (gw g); gs_r : shaped H H (gr g); gs_wb : length (gwb g) = H; gs_rb : length (grb g) = H }.
Definition gate_grid (act : V -> V) (g : gate) (x h : matrix) (n j : nat) : V :=
  act (add (add (dot (nth n x []) (nth j (gw g) [])) (nth j (gwb g) zero)) (add (dot (nth n h []) (nth j (gr g) [])) (nth j (grb g) zero))).
Lemma run_gate_grid act B I H x h g L e : shaped B I x -> shaped B H h -> gate_shaped I H g ->
  run_gate add dot act x h g (Machine L e) = SOk (Machine (L ++ [Mat (grid B H (gate_grid act g x h))]) (4 + e)).
Proof.
  intros SX SH [W R WB RB]. unfold run_gate. rewrite push3, operate_top by reflexivity. cbn [op_gemm].
  rewrite (gemm_grid B H I x (gw g) (gwb g) SX W WB). cbn [bind2].
  rewrite push3, operate_top by reflexivity. cbn [op_gemm]. rewrite (gemm_grid B H H h (gr g) (grb g) SH R RB). cbn [bind2].
  rewrite <- app_assoc. cbn [app]. rewrite operate_top by reflexivity. rewrite wise_grid. cbn [bind2].
  rewrite operate_top by reflexivity. rewrite act_grid. cbn [bind2]. reflexivity.
Qed.
Section Turn.
Variables (B I H : nat) (gi go gf gc : @gate V).
Hypotheses (Si : gate_shaped I H gi) (So : gate_shaped I H go) (Sf : gate_shaped I H gf) (Sc : gate_shaped I H gc).
Definition turn_c (x h c : matrix) : matrix := grid B H (fun n j =>
  add (mul (gate_grid sigmoid gf x h n j) (entry zero c n j)) (mul (gate_grid sigmoid gi x h n j) (gate_grid tanh gc x h n j))).
Definition turn_h (x h c : matrix) : matrix := grid B H (fun n j =>
  mul (gate_grid sigmoid go x h n j) (tanh (entry zero (turn_c x h c) n j))).
Notation turn := (turn add mul dot sigmoid tanh).
Notation turns := (turns add mul dot sigmoid tanh).

Definition out_after (reverse first : bool) (o : option (list matrix)) (h : matrix) : option (list matrix) :=
  match first, o with
  | true, _ => Some [h]
  | false, Some l => Some (if reverse then h :: l else l ++ [h])
  | false, None => None
  end.

Lemma turn_ok reverse x first L e h c o : 6 <= length L -> shaped B I x -> shaped B H h -> shaped B H c ->
  (first = true \/ o <> None) ->
  exists y last e', turn false reverse gi go gf gc x first (Progress (Machine L e) h c o) =
    SOk (Progress (Machine (firstn 7 (L ++ [y]) ++ [last]) e') (turn_h x h c) (turn_c x h c) (out_after reverse first o (turn_h x h c))).
Proof.
  intros LL SX SH SC FO. unfold LstmModel.turn. cbn [at_machine ht ct output].
  set (F := Mat (grid B H (gate_grid sigmoid gf x h))). set (O := Mat (grid B H (gate_grid sigmoid go x h))).
  rewrite (run_gate_grid sigmoid B I H x h gf L e SX SH Sf). cbn [bind2]. fold F. rewrite top_app. cbn [bind2].
  rewrite (run_gate_grid sigmoid B I H x h go _ _ SX SH So). cbn [bind2]. fold O. rewrite top_app. cbn [bind2].
  set (X := ((L ++ [F]) ++ [O])).
  rewrite (run_gate_grid sigmoid B I H x h gi _ _ SX SH Si). cbn [bind2].
  rewrite (run_gate_grid tanh B I H x h gc _ _ SX SH Sc). cbn [bind2].
  rewrite <- (app_assoc X). cbn [app]. rewrite operate_top by reflexivity. rewrite wise_grid. cbn [bind2].
  set (IG := Mat (grid B H (fun n j => mul (gate_grid sigmoid gi x h n j) (gate_grid tanh gc x h n j)))). cbn [snd].
  assert (DF : forall e1 e2 v, deref false (Pointer (length L) e1) (Machine (X ++ [v]) e2) = SOk F).
  { intros e1 e2 v. replace (X ++ [v]) with (L ++ F :: [O; v]) by (unfold X; rewrite <- !app_assoc; reflexivity). apply deref_in. }
  assert (DO : forall e1 e2 v, deref false (Pointer (length (L ++ [F])) e1) (Machine (X ++ [v]) e2) = SOk O).
  { intros e1 e2 v. replace (X ++ [v]) with ((L ++ [F]) ++ O :: [v]) by (unfold X; rewrite <- !app_assoc; reflexivity). apply deref_in. }
  rewrite DF. cbn [bind2]. rewrite push1, push1. cbn [app].
  replace (X ++ [IG; F; Mat c]) with ((X ++ [IG]) ++ [F; Mat c]) by (rewrite <- app_assoc; reflexivity).
  assert (EW : element_wise mul [F; Mat c] = SOk (Mat (grid B H (fun n j => mul (gate_grid sigmoid gf x h n j) (entry zero c n j))))).
  { transitivity (element_wise mul [F; Mat (grid B H (entry zero c))]); [rewrite <- (as_grid B H c SC); reflexivity|apply wise_grid]. }
  rewrite operate_top by reflexivity. rewrite EW. cbn [bind2].
  rewrite <- (app_assoc X). cbn [app]. unfold IG at 1. rewrite operate_top by reflexivity. rewrite wise_grid. cbn [bind2].
  assert (EC : grid B H (fun n j => add (mul (gate_grid sigmoid gi x h n j) (gate_grid tanh gc x h n j)) (mul (gate_grid sigmoid gf x h n j) (entry zero c n j))) = turn_c x h c).
  { apply grid_ext. intros n j _ _. apply addC. }
  rewrite EC. rewrite top_app. cbn [bind2 fst as_mat].
  assert (EA : activation tanh [Mat (turn_c x h c)] = SOk (Mat (grid B H (fun n j => tanh (entry zero (turn_c x h c) n j))))).
  { transitivity (activation tanh [Mat (grid B H (entry zero (turn_c x h c)))]); [rewrite <- (as_grid B H (turn_c x h c)) by apply grid_shaped; reflexivity|apply act_grid]. }
  rewrite operate_top by reflexivity. rewrite EA. cbn [bind2 snd].
  set (TC := Mat (grid B H (fun n j => tanh (entry zero (turn_c x h c) n j)))).
  rewrite DO. cbn [bind2]. rewrite push1. cbn [app]. rewrite operate_top by reflexivity.
  unfold TC, O at 1. rewrite wise_grid. cbn [bind2].
  assert (EH : grid B H (fun n j => mul (tanh (entry zero (turn_c x h c) n j)) (gate_grid sigmoid go x h n j)) = turn_h x h c).
  { apply grid_ext. intros n j _ _. apply mulC. }
  rewrite EH. rewrite top_app. cbn [bind2 fst as_mat].
  assert (LX : 7 <= length X) by (unfold X; rewrite !app_length; cbn [length]; lia).
  assert (F7 : firstn 7 X = firstn 7 (L ++ [F])).
  { unfold X. rewrite (firstn_app 7 (L ++ [F])). replace (7 - length (L ++ [F])) with 0 by (rewrite app_length; cbn [length]; lia). cbn [firstn]. apply app_nil_r. }
  destruct first.
  - cbn [bind2 fst snd]. rewrite erase_below_app by exact LX. cbn [bind2]. rewrite F7. eexists. eexists. eexists. reflexivity.
  - destruct o as [out|]; [|destruct FO; [discriminate|congruence]].
    set (Y := X ++ [Mat (turn_h x h c)]).
    assert (CAT : forall e1, bind2 (operate 2 concat0 (if reverse then push (Cube out) (push (Cube [turn_h x h c]) (Machine Y e1))
        else push (Cube [turn_h x h c]) (push (Cube out) (Machine Y e1))))
      (fun m => bind2 (top m) (fun o => bind2 (as_cube (fst o)) (fun c => SOk (m, c)))) =
      SOk (Machine (Y ++ [Cube (if reverse then turn_h x h c :: out else out ++ [turn_h x h c])]) (S e1),
           if reverse then turn_h x h c :: out else out ++ [turn_h x h c])).
    { intros e1. destruct reverse; rewrite push2, operate_top by reflexivity; cbn [concat0 bind2 app]; rewrite top_app; reflexivity. }
    cbv zeta. cbn [fst]. rewrite CAT. cbn [bind2 fst snd].
    assert (LY : 7 <= length Y) by (unfold Y; rewrite app_length; lia).
    rewrite erase_below_app by exact LY. cbn [bind2].
    assert (FY : firstn 7 Y = firstn 7 (L ++ [F])).
    { unfold Y. rewrite (firstn_app 7 X). replace (7 - length X) with 0 by lia. cbn [firstn]. rewrite app_nil_r. exact F7. }
    rewrite FY. eexists. eexists. eexists. reflexivity.
Qed.

(** references that do not survive the erasing of the arguments *)
Lemma turn_strict reverse x first L e h c o : shaped B I x -> shaped B H h ->
  turn true reverse gi go gf gc x first (Progress (Machine L e) h c o) = SUndef.
Proof.
  intros SX SH. unfold LstmModel.turn. cbn [at_machine ht ct output].
  rewrite (run_gate_grid sigmoid B I H x h gf L e SX SH Sf). cbn [bind2]. rewrite top_app. cbn [bind2].
  rewrite (run_gate_grid sigmoid B I H x h go _ _ SX SH So). cbn [bind2]. rewrite top_app. cbn [bind2].
  rewrite (run_gate_grid sigmoid B I H x h gi _ _ SX SH Si). cbn [bind2].
  rewrite (run_gate_grid tanh B I H x h gc _ _ SX SH Sc). cbn [bind2].
  rewrite <- app_assoc. cbn [app]. rewrite operate_top by reflexivity. rewrite wise_grid. cbn [bind2 snd].
  rewrite deref_stale; [reflexivity|]. cbn [p_epoch epoch]. lia.
Qed.

Fixpoint walk (xs : list matrix) (h c : matrix) : list (matrix * matrix) :=
  match xs with
  | [] => []
  | x :: xs' => (turn_h x h c, turn_c x h c) :: walk xs' (turn_h x h c) (turn_c x h c)
  end.
Definition so_far (reverse : bool) (o : list matrix) (l : list (matrix * matrix)) : list matrix :=
  if reverse then rev (map fst l) ++ o else o ++ map fst l.
Lemma turns_ok reverse xs : Forall (shaped B I) xs -> forall first L e h c o, (length L = 6 \/ length L = 8) ->
  shaped B H h -> shaped B H c -> (first = true -> o = None) -> (first = false -> o <> None) ->
  exists L' e', turns false reverse gi go gf gc xs first (Progress (Machine L e) h c o) =
    SOk (Progress (Machine L' e') (fst (last (walk xs h c) (h, c))) (snd (last (walk xs h c) (h, c)))
      (match xs with [] => o | _ => Some (so_far reverse (match o with Some l => l | None => [] end) (walk xs h c)) end)) /\
    (xs = [] -> L' = L) /\ (xs <> [] -> exists y z, L' = firstn 6 L ++ [y; z]).
Proof.
  induction 1 as [|x xs SX F IH]; intros first L e h c o LL SH SC F1 F2.
  - exists L, e. cbn. split; [reflexivity|]. split; [reflexivity|congruence].
  - cbn [LstmModel.turns].
    destruct (turn_ok reverse x first L e h c o) as (y & z & e' & ->); [lia|exact SX|exact SH|exact SC| |].
    { destruct first; [now left|right; auto]. }
    cbn [bind2]. assert (S1 : shaped B H (turn_h x h c)) by apply grid_shaped. assert (S2 : shaped B H (turn_c x h c)) by apply grid_shaped.
    assert (SH1 : exists y', firstn 7 (L ++ [y]) = firstn 6 L ++ [y']).
    { destruct LL as [LL|LL].
      - exists y. rewrite firstn_all2 by (rewrite app_length; cbn; lia). rewrite firstn_all2 by lia. reflexivity.
      - destruct L as [|a1 [|a2 [|a3 [|a4 [|a5 [|a6 [|a7 L]]]]]]]; try discriminate LL. exists a7. reflexivity. }
    destruct SH1 as (y' & E7). rewrite E7.
    assert (L6 : length (firstn 6 L) = 6) by (rewrite firstn_length; lia).
    destruct (IH false ((firstn 6 L ++ [y']) ++ [z]) e' (turn_h x h c) (turn_c x h c) (out_after reverse first o (turn_h x h c))) as (L' & e2 & E & A & Bq).
    { right. rewrite !app_length. cbn [length]. lia. }
    { exact S1. } { exact S2. } { discriminate. }
    { intros _. destruct first; [discriminate|]. destruct o; [discriminate|]. exfalso. apply F2; reflexivity. }
    exists L', e2. rewrite E. split.
    + cbn [walk]. destruct xs as [|x2 xs].
      * cbn [walk last fst snd LstmModel.turns]. do 2 f_equal.
        destruct first; [rewrite (F1 eq_refl)|destruct o as [l|]; [|exfalso; apply F2; reflexivity]]; unfold so_far; destruct reverse; reflexivity.
      * assert (W : walk (x2 :: xs) (turn_h x h c) (turn_c x h c) <> []) by discriminate.
        assert (LAST : forall d d', last (walk (x2 :: xs) (turn_h x h c) (turn_c x h c)) d = last (walk (x2 :: xs) (turn_h x h c) (turn_c x h c)) d').
        { intros d d'. destruct (exists_last W) as (l & a & ->). rewrite !last_last. reflexivity. }
        do 2 f_equal.
        -- change (last ((turn_h x h c, turn_c x h c) :: walk (x2 :: xs) (turn_h x h c) (turn_c x h c)) (h, c)) with (last (walk (x2 :: xs) (turn_h x h c) (turn_c x h c)) (h, c)).
           f_equal. apply LAST.
        -- change (last ((turn_h x h c, turn_c x h c) :: walk (x2 :: xs) (turn_h x h c) (turn_c x h c)) (h, c)) with (last (walk (x2 :: xs) (turn_h x h c) (turn_c x h c)) (h, c)).
           f_equal. apply LAST.
        -- f_equal. unfold so_far, out_after. cbn [map fst rev].
           destruct first; [rewrite (F1 eq_refl)|destruct o as [l|]; [|exfalso; apply F2; reflexivity]]; destruct reverse; cbn [map fst rev app];
             rewrite <- ?app_assoc; reflexivity.
    + split; [discriminate|]. intros _. destruct xs as [|x2 xs].
      * rewrite (A eq_refl). exists y', z. rewrite <- app_assoc. reflexivity.
      * destruct (Bq ltac:(discriminate)) as (u & v & ->). exists u, v. f_equal. rewrite <- app_assoc.
        rewrite firstn_app, L6, Nat.sub_diag, firstn_O, app_nil_r, firstn_firstn. reflexivity.
Qed.
End Turn.

(** *** the gates of the weights *)
Lemma slice_ok {A} (l : list A) b e : b <= e -> e <= length l -> exists s, LstmModel.slice l b e = SOk s /\ length s = e - b /\
  (forall j d, j < e - b -> nth j s d = nth (b + j) l d) /\ (forall x, In x s -> In x l).
Proof.
  intros BE EL. unfold LstmModel.slice. destruct (Nat.ltb_spec (length l) e); [lia|]. eexists. split; [reflexivity|].
  split; [rewrite firstn_length, skipn_length; lia|]. split.
  - intros j d J. rewrite <- (firstn_skipn b l) at 2. rewrite app_nth2; rewrite firstn_length; [|lia].
    replace (b + j - Nat.min b (length l)) with j by lia.
    rewrite <- (firstn_skipn (e - b) (skipn b l)) at 2. rewrite app_nth1; [reflexivity|]. rewrite firstn_length, skipn_length. lia.
  - intros x X. rewrite <- (firstn_skipn b l). apply in_or_app. right. rewrite <- (firstn_skipn (e - b) (skipn b l)). apply in_or_app. now left.
Qed.
Lemma slice_shaped H I (m : matrix) b e n : shaped n I m -> b <= e -> e <= n -> e - b = H ->
  exists s, LstmModel.slice m b e = SOk s /\ shaped H I s /\ forall j, j < H -> nth j s [] = nth (b + j) m [].
Proof.
  intros (L & F) BE EN EH. destruct (slice_ok m b e BE) as (s & E & LS & N & IN); [lia|]. exists s. split; [exact E|]. split.
  - split; [lia|]. apply Forall_forall. intros x X. rewrite Forall_forall in F. apply F, IN, X.
  - intros j J. apply N. lia.
Qed.
Lemma take_gate_ok I H (w r : matrix) (b : list V) g : g < 4 -> shaped (4 * H) I w -> shaped (4 * H) H r -> length b = 8 * H ->
  exists q, take_gate H w r b g = SOk q /\ gate_shaped I H q /\
    forall B act x h, grid B H (gate_grid act q x h) = grid B H (gate_value zero add dot H w r b act g x h).
Proof.
  intros G SW SR SB. unfold take_gate.
  assert (E : H * (g + 1) - H * g = H) by lia. assert (E4 : H * (4 + g + 1) - H * (4 + g) = H) by lia.
  destruct (slice_shaped H I w (H * g) (H * (g + 1)) (4 * H) SW) as (sw & -> & W1 & W2); [nia|nia|exact E|]. cbn [bind2].
  destruct (slice_shaped H H r (H * g) (H * (g + 1)) (4 * H) SR) as (sr & -> & R1 & R2); [nia|nia|exact E|]. cbn [bind2].
  destruct (slice_ok b (H * g) (H * (g + 1))) as (sb & -> & B1 & B2 & _); [nia|nia|]. cbn [bind2].
  destruct (slice_ok b (H * (4 + g)) (H * (4 + g + 1))) as (sb' & -> & B1' & B2' & _); [nia|nia|]. cbn [bind2].
  eexists. split; [reflexivity|]. split.
  - constructor; cbn [gw gr gwb grb]; [exact W1|exact R1|lia|lia].
  - intros B act x h. apply grid_ext. intros n j _ J. unfold gate_grid, gate_value. cbn [gw gr gwb grb].
    rewrite W2, R2, B2, B2' by lia. reflexivity.
Qed.

Section Layer.
Variables (B I H : nat).
Notation states w r b := (states zero add mul dot sigmoid tanh B H w r b).
Notation final w r b := (final zero add mul dot sigmoid tanh B H w r b).

Lemma walk_states gi go gf gc w r b :
  (forall B act x h, grid B H (gate_grid act gi x h) = grid B H (gate_value zero add dot H w r b act 0 x h)) ->
  (forall B act x h, grid B H (gate_grid act go x h) = grid B H (gate_value zero add dot H w r b act 1 x h)) ->
  (forall B act x h, grid B H (gate_grid act gf x h) = grid B H (gate_value zero add dot H w r b act 2 x h)) ->
  (forall B act x h, grid B H (gate_grid act gc x h) = grid B H (gate_value zero add dot H w r b act 3 x h)) ->
  forall xs h c, walk B H gi go gf gc xs h c = states w r b xs h c.
Proof.
  intros Ei Eo Ef Ec.
  assert (P : forall q g, (forall B act x h, grid B H (gate_grid act q x h) = grid B H (gate_value zero add dot H w r b act g x h)) ->
    forall act x h n j, n < B -> j < H -> gate_grid act q x h n j = gate_value zero add dot H w r b act g x h n j).
  { intros q g E act x h n j N J. rewrite <- (entry_grid B H (gate_grid act q x h) n j N J), E. apply entry_grid; assumption. }
  assert (C : forall x h c, turn_c B H gi gf gc x h c = next_c zero add mul dot sigmoid tanh B H w r b x h c).
  { intros x h c. apply grid_ext. intros n j N J. rewrite (P gf 2 Ef), (P gi 0 Ei), (P gc 3 Ec) by assumption. reflexivity. }
  assert (HH : forall x h c, turn_h B H gi go gf gc x h c = next_h zero add mul dot sigmoid tanh B H w r b x h c).
  { intros x h c. apply grid_ext. intros n j N J. rewrite (P go 1 Eo) by assumption. rewrite C. reflexivity. }
  induction xs as [|x xs IH]; intros h c; [reflexivity|]. cbn [walk LstmSpec.states]. cbv zeta. rewrite HH, C. f_equal. apply IH.
Qed.

Lemma compute_ok w r b x h c (reverse : bool) L e : shaped (4 * H) I w -> shaped (4 * H) H r -> length b = 8 * H ->
  Forall (shaped B I) x -> x <> [] -> shaped B H h -> shaped B H c -> length L = 6 \/ length L = 8 ->
  let xs := if reverse then rev x else x in
  exists y z e', lstm_compute add mul dot sigmoid tanh false H x w r b h c reverse (Machine L e) =
    SOk (Progress (Machine (firstn 6 L ++ [y; z]) e') (fst (final w r b xs h c)) (snd (final w r b xs h c))
          (Some (if reverse then rev (map fst (states w r b xs h c)) else map fst (states w r b xs h c)))).
Proof.
  intros SW SR SB SX NE SH SC LL xs. unfold lstm_compute.
  destruct (take_gate_ok I H w r b 0) as (gi & -> & Si & Ei); [lia|assumption|assumption|assumption|]. cbn [bind2].
  destruct (take_gate_ok I H w r b 1) as (go & -> & So & Eo); [lia|assumption|assumption|assumption|]. cbn [bind2].
  destruct (take_gate_ok I H w r b 2) as (gf & -> & Sf & Ef); [lia|assumption|assumption|assumption|]. cbn [bind2].
  destruct (take_gate_ok I H w r b 3) as (gc & -> & Sc & Ec); [lia|assumption|assumption|assumption|]. cbn [bind2].
  fold xs. assert (SXS : Forall (shaped B I) xs).
  { unfold xs. destruct reverse; [|exact SX]. apply Forall_forall. intros y Y. apply in_rev in Y. rewrite Forall_forall in SX. auto. }
  assert (NXS : xs <> []).
  { unfold xs. destruct reverse; [|exact NE]. intros E. apply NE. apply (f_equal (@rev _)) in E. rewrite rev_involutive in E. exact E. }
  destruct (turns_ok B I H gi go gf gc Si So Sf Sc reverse xs SXS true L e h c None LL SH SC) as (L' & e' & E & _ & Q); [reflexivity|discriminate|].
  destruct (Q NXS) as (y & z & ->). exists y, z, e'. etransitivity; [exact E|]. rewrite (walk_states gi go gf gc w r b Ei Eo Ef Ec).
  unfold LstmSpec.final. do 2 f_equal. destruct xs as [|a xs']; [contradiction|]. unfold so_far. destruct reverse; [rewrite app_nil_r|]; reflexivity.
Qed.
End Layer.
End Lstm.

(** ** The theorems *)
Section Theorems.
Context {V : Type}.
Variables (zero : V) (add mul : V -> V -> V) (dot : list V -> list V -> V) (sigmoid tanh : V -> V).
Notation matrix := (list (list V)).
Notation run strict := (run zero add mul dot sigmoid tanh strict).
Notation states := (states zero add mul dot sigmoid tanh).
Notation final := (final zero add mul dot sigmoid tanh).

(** arguments of the operator: a sequence x of [batch] rows with [ins] elements,
    weights, recurrent weights and biases for each direction, and the states to
    start with (nothing of rank 3: zeros) *)
Record arguments (dirs batch ins hidden : nat) (x w r : list matrix) (b : matrix) (h c : value) (h0 c0 : list matrix) : Prop := {
  a_x : Forall (shaped batch ins) x; a_seq : x <> [];
  a_w : Forall (shaped (4 * hidden) ins) w; a_r : Forall (shaped (4 * hidden) hidden) r; a_b : shaped dirs (8 * hidden) b;
  a_dirs : length w = dirs /\ length r = dirs; a_some : 0 < dirs /\ 0 < hidden;
  a_h : h = Cube h0 \/ ((exists v, h = Vec v) /\ h0 = repeat (grid batch hidden (fun _ _ => zero)) dirs);
  a_c : c = Cube c0 \/ ((exists v, c = Vec v) /\ c0 = repeat (grid batch hidden (fun _ _ => zero)) dirs);
  a_h0 : length h0 = dirs /\ Forall (shaped batch hidden) h0; a_c0 : length c0 = dirs /\ Forall (shaped batch hidden) c0 }.

Lemma grid_const B H (v : V) : grid B H (fun _ _ => v) = repeat (repeat v H) B.
Proof.
  unfold grid. assert (E : forall n m (a : V), map (fun _ : nat => a) (seq m n) = repeat a n) by (induction n; intros; cbn; f_equal; auto).
  assert (E2 : forall n m (a : list V), map (fun _ : nat => a) (seq m n) = repeat a n) by (induction n; intros; cbn; f_equal; auto).
  rewrite E, E2. reflexivity.
Qed.
Lemma initial_ok dirs batch ins hidden x w r (v : value) s : Forall (shaped batch ins) x -> x <> [] ->
  Forall (shaped (4 * hidden) hidden) r -> length w = dirs -> length r = dirs -> 0 < dirs -> 0 < hidden ->
  (v = Cube s \/ ((exists u, v = Vec u) /\ s = repeat (grid batch hidden (fun _ _ => zero)) dirs)) ->
  initial zero v w x r = SOk s.
Proof.
  intros SX NX SR LW LR D HH [->|((u & ->) & ->)]; [reflexivity|]. cbn [initial].
  destruct x as [|x0 x]; [congruence|]. destruct r as [|r0 r]; [cbn in LR; lia|].
  pose proof (Forall_inv SR) as S0. pose proof (Forall_inv SX) as X0. destruct S0 as (L0 & F0). destruct r0 as [|r00 r0]; [cbn in L0; lia|].
  pose proof (Forall_inv F0) as R0. cbn beta in R0. destruct X0 as (LX & _). rewrite R0, LX, LW, grid_const. reflexivity.
Qed.
Lemma pick {A} (P : A -> Prop) l n i (d : A) : length l = n -> Forall P l -> i < n -> slice1 l i = SOk (nth i l d) /\ P (nth i l d).
Proof.
  intros L F I. unfold slice1. assert (K : nth_error l i = Some (nth i l d)) by (apply nth_error_nth'; lia).
  rewrite K. split; [reflexivity|]. rewrite Forall_forall in F. apply F. eapply nth_error_In. exact K.
Qed.
Lemma expand_ok (l : list matrix) : l <> [] -> expand (Some l) = SOk (map (fun h => [h]) l).
Proof. destruct l; [congruence|reflexivity]. Qed.
Lemma states_len B H (w r : matrix) b xs : forall h c, length (states B H w r b xs h c) = length xs.
Proof. induction xs; intros; cbn; auto. Qed.

(** forward: Y, Y_h and Y_c of ONNX, the arguments still below *)
Theorem C155_forward_partial dirs batch ins hidden x w r b h c h0 c0 e :
  (forall a b, add a b = add b a) -> (forall a b, mul a b = mul b a) ->
  arguments dirs batch ins hidden x w r b h c h0 c0 ->
  let L := [Cube x; Cube w; Cube r; Mat b; h; c] in
  let w0 := nth 0 w [] in let r0 := nth 0 r [] in let b0 := nth 0 b [] in
  let hs := states batch hidden w0 r0 b0 x (nth 0 h0 []) (nth 0 c0 []) in
  let hc := final batch hidden w0 r0 b0 x (nth 0 h0 []) (nth 0 c0 []) in
  exists y e', run false "forward" hidden (Machine L e) =
    SOk (Machine (L ++ [y; Packed [Hyper (map (fun s => [fst s]) hs); Cube [fst hc]; Cube [snd hc]]]) e').
Proof.
  intros AC MC A L w0 r0 b0 hs hc. destruct A as [AX ASQ AW AR AB (LW & LR) (D & HH) AH AK (LH & SH) (LC & SC)].
  unfold LstmModel.run, L. cbn [stack].
  rewrite (initial_ok dirs batch ins hidden x w r h h0) by assumption. cbn [bind2].
  rewrite (initial_ok dirs batch ins hidden x w r c c0) by assumption. cbn [bind2]. fold L. change (direction_of "forward" =? 2) with false. cbv beta iota zeta.
  destruct (pick _ w dirs 0 [] LW AW D) as (-> & SW0). cbn [bind2].
  destruct (pick _ r dirs 0 [] LR AR D) as (-> & SR0). cbn [bind2].
  destruct AB as (LB & FB). destruct (pick _ b dirs 0 [] LB FB D) as (-> & SB0). cbn [bind2]. cbn beta in SB0.
  destruct (pick _ h0 dirs 0 [] LH SH D) as (-> & SH0). cbn [bind2].
  destruct (pick _ c0 dirs 0 [] LC SC D) as (-> & SC0). cbn [bind2]. fold w0 r0 b0.
  destruct (compute_ok zero add mul dot sigmoid tanh AC MC batch ins hidden w0 r0 b0 x (nth 0 h0 []) (nth 0 c0 []) false L e SW0 SR0 SB0 AX ASQ SH0 SC0) as (y & z & e' & E); [now left|].
  rewrite E. cbn [bind2 at_machine output ht ct]. fold hs hc.
  replace (firstn 6 L ++ [y; z]) with ((L ++ [y]) ++ [z]) by reflexivity. rewrite erase_top_app. cbn [bind2].
  rewrite expand_ok.
  2:{ intros K. apply (f_equal (@length _)) in K. unfold hs in K. rewrite map_length, states_len in K. destruct x; [congruence|discriminate]. }
  cbn [bind2]. rewrite map_map. exists y, e'. unfold push. cbn [stack epoch]. rewrite <- app_assoc. reflexivity.
Qed.

(** both directions: the second walks the sequence from its end, and its outputs
    stand at the elements they belong to *)
Theorem C155_both dirs batch ins hidden x w r b h c h0 c0 e :
  (forall a b, add a b = add b a) -> (forall a b, mul a b = mul b a) ->
  arguments dirs batch ins hidden x w r b h c h0 c0 -> 2 <= dirs ->
  let L := [Cube x; Cube w; Cube r; Mat b; h; c] in
  let st d xs := states batch hidden (nth d w []) (nth d r []) (nth d b []) xs (nth d h0 []) (nth d c0 []) in
  let fin d xs := final batch hidden (nth d w []) (nth d r []) (nth d b []) xs (nth d h0 []) (nth d c0 []) in
  exists y Y e', run false "bidirectional" hidden (Machine L e) =
    SOk (Machine (L ++ [y; Packed [Hyper Y; Cube [fst (fin 0 x); fst (fin 1 (rev x))]; Cube [snd (fin 0 x); snd (fin 1 (rev x))]]]) e') /\
    length Y = length x /\
    forall t, t < length x -> nth t Y [] = [fst (nth t (st 0 x) ([], [])); fst (nth (length x - 1 - t) (st 1 (rev x)) ([], []))].
Proof.
  intros AC MC A D2 L st fin. destruct A as [AX ASQ AW AR AB (LW & LR) (D & HH) AH AK (LH & SH) (LC & SC)].
  unfold LstmModel.run, L. cbn [stack].
  rewrite (initial_ok dirs batch ins hidden x w r h h0) by assumption. cbn [bind2].
  rewrite (initial_ok dirs batch ins hidden x w r c c0) by assumption. cbn [bind2]. fold L. change (direction_of "bidirectional" =? 2) with true. cbv beta iota zeta.
  destruct AB as (LB & FB).
  destruct (pick _ w dirs 0 [] LW AW D) as (-> & SW0). destruct (pick _ w dirs 1 [] LW AW D2) as (-> & SW1).
  destruct (pick _ r dirs 0 [] LR AR D) as (-> & SR0). destruct (pick _ r dirs 1 [] LR AR D2) as (-> & SR1).
  destruct (pick _ b dirs 0 [] LB FB D) as (-> & SB0). destruct (pick _ b dirs 1 [] LB FB D2) as (-> & SB1).
  destruct (pick _ h0 dirs 0 [] LH SH D) as (-> & SH0). destruct (pick _ h0 dirs 1 [] LH SH D2) as (-> & SH1).
  destruct (pick _ c0 dirs 0 [] LC SC D) as (-> & SC0). destruct (pick _ c0 dirs 1 [] LC SC D2) as (-> & SC1).
  cbn [bind2]. cbn beta in SB0, SB1.
  destruct (compute_ok zero add mul dot sigmoid tanh AC MC batch ins hidden _ _ _ x _ _ false L e SW0 SR0 SB0 AX ASQ SH0 SC0) as (y & z & e1 & E); [now left|].
  rewrite E. cbn [bind2 at_machine output ht ct]. clear E.
  destruct (compute_ok zero add mul dot sigmoid tanh AC MC batch ins hidden _ _ _ x _ _ true (firstn 6 L ++ [y; z]) e1 SW1 SR1 SB1 AX ASQ SH1 SC1) as (y' & z' & e2 & E); [now right|].
  rewrite E. cbn [bind2 at_machine output ht ct]. clear E.
  change (firstn 6 (firstn 6 L ++ [y; z]) ++ [y'; z']) with ((L ++ [y']) ++ [z']). rewrite erase_top_app. cbn [bind2].
  fold (st 0 x) (st 1 (rev x)) (fin 0 x) (fin 1 (rev x)).
  assert (L0 : length (st 0 x) = length x) by apply states_len.
  assert (L1 : length (st 1 (rev x)) = length x) by (unfold st; rewrite states_len; apply rev_length).
  assert (XP : 0 < length x) by (destruct x; [congruence|cbn; lia]).
  rewrite expand_ok by (intros K; apply (f_equal (@length _)) in K; rewrite map_length, L0 in K; cbn in K; lia). cbn [bind2].
  rewrite expand_ok by (intros K; apply (f_equal (@length _)) in K; rewrite rev_length, map_length, L1 in K; cbn in K; lia). cbn [bind2].
  rewrite push2, operate_top by reflexivity. cbn [concat1].
  set (Yt := fun t => [fst (nth t (st 0 x) ([], [])); fst (nth (length x - 1 - t) (st 1 (rev x)) ([], []))]).
  rewrite (zip_seq _ Yt [] [] (length x)); [|rewrite !map_length; exact L0|rewrite map_length, rev_length, map_length; exact L1|].
  2:{ intros t T. rewrite (nth_map_in (fun h : matrix => [h]) _ [] []) by (rewrite map_length; lia).
      rewrite (nth_map_in (fun h : matrix => [h]) _ [] []) by (rewrite rev_length, map_length; lia).
      rewrite rev_nth by (rewrite map_length; lia). rewrite map_length, L1.
      rewrite (nth_map_in fst _ ([], []) []) by lia. rewrite (nth_map_in fst _ ([], []) []) by lia.
      replace (length x - S t) with (length x - 1 - t) by lia. reflexivity. }
  cbn [bind2]. rewrite top_app. cbn [bind2]. rewrite erase_top_app. cbn [bind2].
  rewrite push2, operate_top by reflexivity. cbn [concat0 bind2 app]. rewrite top_app. cbn [bind2]. rewrite erase_top_app. cbn [bind2].
  rewrite push2, operate_top by reflexivity. cbn [concat0 bind2 app]. rewrite top_app. cbn [bind2]. rewrite erase_top_app. cbn [bind2 fst].
  exists y', (map Yt (seq 0 (length x))). eexists. split; [unfold push; cbn [stack epoch]; rewrite <- app_assoc; reflexivity|].
  split; [rewrite map_length, seq_length; reflexivity|]. intros t T. exact (nth_map_seq Yt (length x) t [] T).
Qed.

(** the direction "reverse" computes forward *)
Theorem C155_reverse_refuted strict hidden m : run strict "reverse" hidden m = run strict "forward" hidden m.
Proof. reflexivity. Qed.

(** by the rules of std::deque the references to gate values are not valid when
    they are used: whatever the weights, the run is undefined *)
Theorem C155_references_refuted dirs batch ins hidden x w r b h c h0 c0 e :
  arguments dirs batch ins hidden x w r b h c h0 c0 ->
  run true "forward" hidden (Machine [Cube x; Cube w; Cube r; Mat b; h; c] e) = SUndef.
Proof.
  intros A. destruct A as [AX ASQ AW AR AB (LW & LR) (D & HH) AH AK (LH & SH) (LC & SC)].
  unfold LstmModel.run. cbn [stack].
  rewrite (initial_ok dirs batch ins hidden x w r h h0) by assumption. cbn [bind2].
  rewrite (initial_ok dirs batch ins hidden x w r c c0) by assumption. cbn [bind2]. change (direction_of "forward" =? 2) with false. cbv beta iota zeta.
  destruct (pick _ w dirs 0 [] LW AW D) as (-> & SW0). cbn [bind2].
  destruct (pick _ r dirs 0 [] LR AR D) as (-> & SR0). cbn [bind2].
  destruct AB as (LB & FB). destruct (pick _ b dirs 0 [] LB FB D) as (-> & SB0). cbn [bind2]. cbn beta in SB0.
  destruct (pick _ h0 dirs 0 [] LH SH D) as (-> & SH0). cbn [bind2].
  destruct (pick _ c0 dirs 0 [] LC SC D) as (-> & SC0). cbn [bind2]. unfold lstm_compute.
  destruct (take_gate_ok zero add dot ins hidden _ _ _ 0 ltac:(lia) SW0 SR0 SB0) as (gi & -> & Si & _). cbn [bind2].
  destruct (take_gate_ok zero add dot ins hidden _ _ _ 1 ltac:(lia) SW0 SR0 SB0) as (go & -> & So & _). cbn [bind2].
  destruct (take_gate_ok zero add dot ins hidden _ _ _ 2 ltac:(lia) SW0 SR0 SB0) as (gf & -> & Sf & _). cbn [bind2].
  destruct (take_gate_ok zero add dot ins hidden _ _ _ 3 ltac:(lia) SW0 SR0 SB0) as (gc & -> & Sc & _). cbn [bind2].
  destruct x as [|x0 x]; [congruence|]. cbn [turns].
  rewrite (turn_strict zero add mul dot sigmoid tanh batch ins hidden gi go gf gc Si So Sf Sc); [reflexivity|exact (Forall_inv AX)|exact SH0].
Qed.

(** a sequence without elements is undefined *)
Theorem C155_empty_refuted strict hidden w r b h0 c0 e :
  4 * hidden <= length w -> 4 * hidden <= length r -> 8 * hidden <= length b ->
  run strict "forward" hidden (Machine [Cube []; Cube [w]; Cube [r]; Mat [b]; Cube [h0]; Cube [c0]] e) = SUndef.
Proof.
  intros W R Bb. unfold LstmModel.run. cbn [stack initial bind2]. change (direction_of "forward" =? 2) with false.
  cbv beta iota zeta. cbn [slice1 nth_error bind2]. unfold lstm_compute.
  assert (T : forall g, g < 4 -> exists q, take_gate hidden w r b g = SOk q).
  { intros g G. unfold take_gate. destruct (slice_ok w (hidden * g) (hidden * (g + 1))) as (a1 & -> & _); [nia|nia|]. cbn [bind2].
    destruct (slice_ok r (hidden * g) (hidden * (g + 1))) as (a2 & -> & _); [nia|nia|]. cbn [bind2].
    destruct (slice_ok b (hidden * g) (hidden * (g + 1))) as (a3 & -> & _); [nia|nia|]. cbn [bind2].
    destruct (slice_ok b (hidden * (4 + g)) (hidden * (4 + g + 1))) as (a4 & -> & _); [nia|nia|]. eexists. reflexivity. }
  destruct (T 0 ltac:(lia)) as (g0 & ->). destruct (T 1 ltac:(lia)) as (g1 & ->). destruct (T 2 ltac:(lia)) as (g2 & ->). destruct (T 3 ltac:(lia)) as (g3 & ->).
  cbn [bind2 turns at_machine erase_top stack rev app output expand]. reflexivity.
Qed.
End Theorems.
Print Assumptions C155_forward_partial.
Print Assumptions C155_both.
Print Assumptions C155_reverse_refuted.
Print Assumptions C155_references_refuted.
Print Assumptions C155_empty_refuted.

(** *** A concrete layer: one unit, a sequence of two numbers *)
Local Open Scope Z_scope.
Definition zdot (a b : list Z) : Z := fold_right Z.add 0 (map (fun p => fst p * snd p) (combine a b)).
Definition ex_x : list (list (list Z)) := [[[1]]; [[2]]].
Definition ex_w : list (list (list Z)) := [[[1]; [2]; [3]; [4]]; [[1]; [1]; [1]; [1]]].
Definition ex_r : list (list (list Z)) := [[[1]; [0]; [1]; [1]]; [[1]; [2]; [1]; [0]]].
Definition ex_b : list (list Z) := [[1; 1; 1; 1; 0; 0; 0; 0]; [0; 0; 1; 0; 0; 1; 0; 0]].
Definition ex_run d := LstmModel.run 0 Z.add Z.mul zdot (fun v => v) (fun v => v) false d 1
  (Machine [Cube ex_x; Cube ex_w; Cube ex_r; Mat ex_b; Vec []; Cube [[[1]]; [[2]]]] 0).
Example C155_example : arguments 0 2 1 1 1 ex_x ex_w ex_r ex_b (Vec []) (Cube [[[1]]; [[2]]]) [[[0]]; [[0]]] [[[1]]; [[2]]].
Proof.
  constructor.
  8: { right. split; [exists []; reflexivity|reflexivity]. }
  8: { left. reflexivity. }
  2: discriminate.
  all: repeat constructor.
Qed.
Example C155_example_value : match ex_run "forward" with
  | SOk m => last (stack m) (Vec []) = Packed [Hyper [[[[42]]]; [[[14905]]]]; Cube [[[14905]]]; Cube [[[2981]]]]
  | _ => False end.
Proof. vm_compute. reflexivity. Qed.
(** "reverse" is accepted, and its answer is not that of walking the sequence
    from its end *)
Theorem C155_direction_refuted : exists m Y yh yc,
  ex_run "reverse" = SOk m /\ last (stack m) (Vec []) = Packed [Hyper Y; yh; yc] /\
  nth 0 Y [] <> [fst (nth 1 (LstmSpec.states 0 Z.add Z.mul zdot (fun v => v) (fun v => v) 1 1 (nth 0 ex_w []) (nth 0 ex_r []) (nth 0 ex_b [])
     (rev ex_x) [[0]] [[1]]) ([], []))].
Proof.
  destruct (ex_run "reverse") as [m| |] eqn:E; [|vm_compute in E; discriminate E|vm_compute in E; discriminate E].
  vm_compute in E. injection E as <-. eexists. eexists. eexists. eexists. split; [reflexivity|]. split; [reflexivity|]. vm_compute. discriminate.
Qed.
Print Assumptions C155_direction_refuted.
