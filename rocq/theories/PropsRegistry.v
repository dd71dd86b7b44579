(** C140: what is found is what was registered last; C141: where operators are
    looked for. *)
From Coq Require Import String List Bool Arith Lia.
From Verif Require Import RegistryModel.
Import ListNotations.

Lemma same_key_spec a b : same_key a b = true <-> a = b.
Proof.
  destruct a as [a1 a2], b as [b1 b2]. unfold same_key. cbn. rewrite andb_true_iff, !String.eqb_eq.
  split; [intros [-> ->]; reflexivity|intro H; injection H; auto].
Qed.

Section Map.
Context {K V : Type} (same : K -> K -> bool) (Hs : forall a b, same a b = true <-> a = b).
Lemma find_assign (m : map K V) k v k' : find same (assign same m k v) k' = if same k k' then Some v else find same m k'.
Proof.
  induction m as [|[k0 v0] r IH]; [reflexivity|]. cbn [assign].
  destruct (same k0 k) eqn:E.
  - apply Hs in E. subst k0. cbn [find]. destruct (same k k'); reflexivity.
  - cbn [find]. rewrite IH. destruct (same k0 k') eqn:E2; [|reflexivity].
    destruct (same k k') eqn:E3; [|reflexivity]. apply Hs in E2, E3. subst. assert (same k' k' = true) by now apply Hs. congruence.
Qed.
Lemma keys_assign (m : map K V) k v k' : In k' (List.map fst (assign same m k v)) <-> k' = k \/ In k' (List.map fst m).
Proof.
  induction m as [|[k0 v0] r IH]; [cbn; intuition|]. cbn [assign].
  destruct (same k0 k) eqn:E.
  - apply Hs in E. subst. cbn. intuition.
  - cbn [List.map fst In]. rewrite IH. intuition.
Qed.
Lemma find_keys (m : map K V) k : (exists v, find same m k = Some v) <-> In k (List.map fst m).
Proof.
  induction m as [|[k0 v0] r IH]; [cbn; split; [intros [v H]; discriminate|intros []]|]. cbn [find List.map fst In].
  destruct (same k0 k) eqn:E.
  - apply Hs in E. subst. split; [now left|]. intros _. now exists v0.
  - rewrite IH. split; [now right|]. intros [->|H]; [|exact H]. assert (same k k = true) by now apply Hs. congruence.
Qed.
Lemma find_flush (l : map K V) : forall m k, NoDup (List.map fst l) ->
  find same (fold_left (fun m kv => assign same m (fst kv) (snd kv)) l m) k =
  match find same l k with Some v => Some v | None => find same m k end.
Proof.
  induction l as [|[k0 v0] r IH]; intros m k Hn; [reflexivity|]. cbn [fold_left List.map fst snd] in *.
  inversion Hn as [|? ? Hni Hn']; subst. rewrite IH by exact Hn'. rewrite find_assign. cbn [find].
  destruct (find same r k) as [v|] eqn:E.
  - destruct (same k0 k) eqn:E2; [|reflexivity]. apply Hs in E2. subst. exfalso. apply Hni, find_keys. now exists v.
  - destruct (same k0 k); reflexivity.
Qed.
Lemma nodup_assign (m : map K V) k v : NoDup (List.map fst m) -> NoDup (List.map fst (assign same m k v)).
Proof.
  induction m as [|[k0 v0] r IH]; intro Hn; [cbn; constructor; [intros []|constructor]|]. cbn [assign].
  inversion Hn as [|? ? Hni Hn']; subst. destruct (same k0 k) eqn:E; [exact Hn|]. cbn [List.map fst]. constructor; [|now apply IH].
  intro H. apply keys_assign in H. destruct H as [->|H]; [|contradiction]. assert (same k k = true) by now apply Hs. congruence.
Qed.
Lemma nodup_flush (l : map K V) : forall m, NoDup (List.map fst m) ->
  NoDup (List.map fst (fold_left (fun m kv => assign same m (fst kv) (snd kv)) l m)).
Proof. induction l as [|e r IH]; intros m H; [exact H|]. cbn. now apply IH, nodup_assign. Qed.
End Map.

(** ** Specification: the answer for a device and a name, reading the history
    backwards; a restore continues where the copy was made *)
Fixpoint saves (h : list event) : nat := match h with [] => 0 | Save :: r => S (saves r) | _ :: r => saves r end.
(** the history before the i-th Save *)
Fixpoint before_save (h : list event) (i : nat) : option (list event) :=
  match h with
  | [] => None
  | Save :: r => match i with 0 => Some [] | S j => option_map (cons Save) (before_save r j) end
  | e :: r => option_map (cons e) (before_save r i)
  end.

(** [answer h d n r]: the registration that counts after [h]; None: there is none *)
Inductive answer : list event -> string -> string -> option (option nat) -> Prop :=
| never d n : answer [] d n None
| this h d n f : answer (h ++ [Register d n f]) d n (Some f)
| other h d n d' n' f g : (d', n') <> (d, n) -> answer h d n g -> answer (h ++ [Register d' n' f]) d n g
| cleared h d n : answer (h ++ [Clear]) d n None
| saved h d n g : answer h d n g -> answer (h ++ [Save]) d n g
| restored h i p d n g : before_save h i = Some p -> answer p d n g -> answer (h ++ [Restore i]) d n g
| nothing_saved h i d n : before_save h i = None -> answer (h ++ [Restore i]) d n None.

Lemma after_snoc h e : after (h ++ [e]) = happen (after h) e.
Proof. unfold after. now rewrite fold_left_app. Qed.

Lemma kept h : forall e, exists l, snd (after (h ++ [e])) = snd (after h) ++ l /\ (e = Save -> l = [now h]) /\ (e <> Save -> l = []).
Proof.
  intro e. rewrite after_snoc. unfold now. destruct (after h) as [c s]. destruct e; cbn.
  - exists []. rewrite app_nil_r. split; [reflexivity|]. split; [discriminate|reflexivity].
  - exists []. rewrite app_nil_r. split; [reflexivity|]. split; [discriminate|reflexivity].
  - exists [c]. split; [reflexivity|]. split; [reflexivity|congruence].
  - exists []. rewrite app_nil_r. split; [reflexivity|]. split; [discriminate|reflexivity].
Qed.

Lemma before_snoc h e i : before_save (h ++ [e]) i =
  match before_save h i with Some p => Some p | None => match e with Save => if Nat.eqb i (saves h) then Some h else None | _ => None end end.
Proof.
  revert i. induction h as [|a r IH]; intro i.
  - cbn [app before_save saves]. destruct e, i; reflexivity.
  - cbn [app before_save saves]. destruct a; rewrite ?IH.
    + destruct (before_save r i); [reflexivity|]. destruct e; try reflexivity. destruct (Nat.eqb i (saves r)); reflexivity.
    + destruct (before_save r i); [reflexivity|]. destruct e; try reflexivity. destruct (Nat.eqb i (saves r)); reflexivity.
    + destruct i as [|i]; [reflexivity|]. rewrite IH. destruct (before_save r i); [reflexivity|]. destruct e; try reflexivity. cbn [Nat.eqb]. destruct (Nat.eqb i (saves r)); reflexivity.
    + destruct (before_save r i); [reflexivity|]. destruct e; try reflexivity. cbn. destruct (Nat.eqb i (saves r)); reflexivity.
Qed.
Lemma saves_snoc h e : saves (h ++ [e]) = saves h + match e with Save => 1 | _ => 0 end.
Proof. induction h as [|a r IH]; [destruct e; reflexivity|]. cbn [app saves]. destruct a; rewrite IH; lia. Qed.

Lemma saved_are h : List.length (snd (after h)) = saves h /\
  forall i, nth_error (snd (after h)) i = option_map now (before_save h i).
Proof.
  induction h as [|e h [IHl IHn]] using rev_ind; [split; [reflexivity|intros [|i]; reflexivity]|].
  destruct (kept h e) as (l & El & Hsave & Hno). rewrite El. split.
  - rewrite app_length, IHl, saves_snoc. destruct e; try (rewrite Hno by discriminate; cbn; lia). rewrite (Hsave eq_refl). reflexivity.
  - intro i. rewrite before_snoc. destruct (Nat.lt_ge_cases i (saves h)) as [Hi|Hi].
    + rewrite nth_error_app1 by (rewrite IHl; exact Hi). rewrite IHn. destruct (before_save h i) as [p|] eqn:E; [reflexivity|].
      assert (nth_error (snd (after h)) i <> None) by (apply nth_error_Some; lia). specialize (IHn i). rewrite E in IHn. contradiction.
    + rewrite nth_error_app2 by (rewrite IHl; exact Hi). rewrite IHl.
      assert (E : before_save h i = None).
      { specialize (IHn i). rewrite (proj2 (nth_error_None _ _)) in IHn by lia. destruct (before_save h i); [discriminate|reflexivity]. }
      rewrite E. destruct e; try (rewrite Hno by discriminate; destruct (i - saves h); reflexivity).
      rewrite (Hsave eq_refl). destruct (Nat.eqb_spec i (saves h)) as [->|Hne].
      * rewrite Nat.sub_diag. reflexivity.
      * destruct (i - saves h) as [|k] eqn:Ek; [lia|]. destruct k; reflexivity.
Qed.

Lemma proper h : NoDup (List.map fst (now h)) /\ (forall c, In c (snd (after h)) -> NoDup (List.map fst c)).
Proof.
  induction h as [|e h [IH1 IH2]] using rev_ind; [split; [constructor|intros c []]|].
  unfold now in *. rewrite after_snoc. destruct (after h) as [c s]. cbn [fst snd] in *.
  destruct e as [d n f| | |i]; cbn [happen fst snd].
  - split; [|exact IH2]. apply nodup_assign; [exact same_key_spec|exact IH1].
  - split; [constructor|exact IH2].
  - split; [exact IH1|]. intros x Hx. apply in_app_or in Hx. destruct Hx as [Hx|[<-|[]]]; [now apply IH2|exact IH1].
  - split; [|exact IH2]. unfold flush. apply nodup_flush; [exact same_key_spec|constructor].
Qed.

Lemma flush_find c k : NoDup (List.map fst c) -> find same_key (flush c) k = find same_key c k.
Proof. intro H. unfold flush. rewrite (find_flush same_key same_key_spec) by exact H. now destruct (find same_key c k). Qed.

Lemma exists_last_or {A} (l : list A) : l = [] \/ exists l' a, l = l' ++ [a].
Proof. destruct l as [|a r] using rev_ind; [now left|]. right. now exists r, a. Qed.
Lemma before_length h : forall i p, before_save h i = Some p -> List.length p <= List.length h.
Proof.
  induction h as [|e r IH]; intros i p H; [discriminate|]. cbn [before_save] in H.
  assert (Hm : forall e' j, option_map (cons e') (before_save r j) = Some p -> List.length p <= S (List.length r)).
  { intros e' j E. destruct (before_save r j) as [q|] eqn:E2; [|discriminate]. injection E as <-. cbn. specialize (IH _ _ E2). lia. }
  cbn. destruct e; try (eapply Hm, H). destruct i; [injection H as <-; cbn; lia|eapply Hm, H].
Qed.

(** *** C140 *)
(** Asking for a device and an operator name gives the function registered last
    for exactly that pair since the last clear; restoring a copy of the registry
    gives the answers of the moment when the copy was made. *)
Theorem C140_latest : forall history d n, exists r,
  (forall r', answer history d n r' <-> r' = r) /\
  query (now history) d n = match r with Some f => f | None => None end /\
  (In (d, n) (all_keys (now history)) <-> r <> None).
Proof.
  assert (Hone : forall history d n f, answer history d n f -> find same_key (now history) (d, n) = f).
  { intros history d n f H. induction H as [d n|h d n f|h d n d' n' f g Hne H IH|h d n|h d n g H IH|h i p d n g Hb H IH|h i d n Hb]; unfold now in *.
    - reflexivity.
    - rewrite after_snoc. destruct (after h) as [c s]. cbn. unfold register. rewrite (find_assign _ same_key_spec).
      now rewrite (proj2 (same_key_spec _ _) eq_refl).
    - rewrite after_snoc. destruct (after h) as [c s]. cbn in *. unfold register in *. rewrite (find_assign _ same_key_spec).
      destruct (same_key (d', n') (d, n)) eqn:E; [apply same_key_spec in E; contradiction|exact IH].
    - rewrite after_snoc. destruct (after h) as [c s]. reflexivity.
    - rewrite after_snoc. destruct (after h) as [c s]. exact IH.
    - rewrite after_snoc. destruct (saved_are h) as [_ Hn]. specialize (Hn i). rewrite Hb in Hn. cbn in Hn.
      pose proof (proj2 (proper h)) as Hp. destruct (after h) as [c s]. cbn [happen fst snd] in *.
      rewrite (nth_error_nth _ _ _ Hn). rewrite flush_find by (apply Hp; eapply nth_error_In, Hn). exact IH.
    - rewrite after_snoc. destruct (saved_are h) as [_ Hn]. specialize (Hn i). rewrite Hb in Hn. cbn in Hn.
      destruct (after h) as [c s]. cbn [happen fst snd] in *. rewrite nth_overflow by (now apply nth_error_None). reflexivity. }
  assert (Hall : forall N h d n, List.length h <= N -> answer h d n (find same_key (now h) (d, n))).
  { induction N as [|N IHN]; intros h d n Hl.
    - destruct h; [constructor|cbn in Hl; lia].
    - destruct (exists_last_or h) as [->|(h' & e & ->)]; [constructor|].
      rewrite app_length in Hl. cbn in Hl. unfold now. rewrite after_snoc. pose proof (IHN h' d n ltac:(lia)) as IH. unfold now in IH.
      destruct e as [d' n' g| | |i].
      + destruct (after h') as [c s]. cbn in *. unfold register. rewrite (find_assign _ same_key_spec).
        destruct (same_key (d', n') (d, n)) eqn:E.
        * apply same_key_spec in E. injection E as -> ->. apply this.
        * apply other; [intro E2; rewrite (proj2 (same_key_spec _ _) E2) in E; discriminate|]. exact IH.
      + destruct (after h') as [c s]. apply cleared.
      + destruct (after h') as [c s]. apply saved. exact IH.
      + destruct (saved_are h') as [_ Hn]. specialize (Hn i). destruct (before_save h' i) as [p|] eqn:Eb.
        * apply restored with (p := p); [exact Eb|]. cbn in Hn.
          pose proof (proj2 (proper h')) as Hp. destruct (after h') as [c s]. cbn [happen fst snd] in *.
          rewrite (nth_error_nth _ _ _ Hn). rewrite flush_find by (apply Hp; eapply nth_error_In, Hn).
          apply IHN. pose proof (before_length h' i p Eb). lia.
        * cbn in Hn. destruct (after h') as [c s]. cbn [happen fst snd] in *. rewrite nth_overflow by (now apply nth_error_None). now apply nothing_saved. }
  intros history d n. exists (find same_key (now history) (d, n)). split; [|split].
  - intro r'. split; [intro H; symmetry; now apply Hone|]. intros ->. now apply (Hall (List.length history)).
  - reflexivity.
  - unfold all_keys. rewrite <- (find_keys same_key same_key_spec). destruct (find same_key (now history) (d, n)) as [f|].
    + split; [discriminate|]. intros _. now exists f.
    + split; [intros [v H]; discriminate|congruence].
Qed.
Print Assumptions C140_latest.

(** No pair is reported twice. *)
Theorem C140_keys_unique : forall history, NoDup (all_keys (now history)).
Proof. intro history. apply proper. Qed.
Print Assumptions C140_keys_unique.

(** The registry of converters between devices: the same for pairs of devices. *)
Definition convert_after (h : list (string * string * option nat)) : converters :=
  fold_left (fun c e => match e with (d, s, f) => convert_register c d s f end) h [].
Theorem C140_converters : forall history dst src f,
  (forall dst' src', convert_query (convert_after (history ++ [(dst, src, f)])) dst' src' =
     if String.eqb dst dst' && String.eqb src src' then f else convert_query (convert_after history) dst' src') /\
  convert_query (convert_after []) dst src = None.
Proof.
  intros history dst src f. split; [|reflexivity]. intros dst' src'.
  unfold convert_after. rewrite fold_left_app. cbn [fold_left]. fold (convert_after history). generalize (convert_after history) as c. intro c.
  unfold convert_query, convert_register. destruct (find String.eqb c dst) as [m|] eqn:E.
  - rewrite (find_assign _ String.eqb_eq). destruct (String.eqb dst dst') eqn:E1; cbn [andb].
    + apply String.eqb_eq in E1. subst dst'. rewrite (find_assign _ String.eqb_eq), E. destruct (String.eqb src src'); reflexivity.
    + reflexivity.
  - rewrite (find_assign _ String.eqb_eq). destruct (String.eqb dst dst') eqn:E1; cbn [andb].
    + apply String.eqb_eq in E1. subst dst'. rewrite E. cbn [find]. destruct (String.eqb src src'); reflexivity.
    + reflexivity.
Qed.
Print Assumptions C140_converters.

Example C140_example :
  let h := [Register "cpu" "add" (Some 1); Save; Register "cpu" "add" (Some 2); Clear; Register "gpu" "add" (Some 3); Restore 0] in
  query (now (firstn 3 h)) "cpu" "add" = Some 2 /\ query (now h) "cpu" "add" = Some 1 /\ query (now h) "gpu" "add" = None /\
  answer (firstn 4 h) "cpu" "add" None /\ all_keys (now h) = [("cpu"%string, "add"%string)].
Proof. cbn [firstn]. split; [reflexivity|]. split; [reflexivity|]. split; [reflexivity|]. split; [apply (cleared [_; _; _])|reflexivity]. Qed.

(** *** C141 *)
(** [at_device c d n f]: an operator is registered for the device *)
Definition at_device (c : creators) (d n : string) (f : nat) : Prop := find same_key c (d, n) = Some (Some f).
Definition nowhere (c : creators) (d n : string) : Prop := forall f, ~ at_device c d n f.

(** where an operator is taken from: the device asked for, else the device its
    memory is on, else the CPU *)
Inductive source (c : creators) (m : memories) (d n : string) (f : nat) : Prop :=
| own_device : at_device c d n f -> source c m d n f
| memory_device d' : nowhere c d n -> memory_of m d = Some d' -> at_device c d' n f -> source c m d n f
| on_cpu d' : nowhere c d n -> memory_of m d = Some d' -> nowhere c d' n -> at_device c "cpu" n f -> source c m d n f.

Lemma query_at c d n f : query c d n = Some f <-> at_device c d n f.
Proof. unfold query, at_device. destruct (find same_key c (d, n)) as [g|]; split; intro H; congruence. Qed.
Lemma query_none c d n : query c d n = None <-> nowhere c d n.
Proof.
  unfold nowhere. split.
  - intros H f Hf. apply query_at in Hf. congruence.
  - intro H. destruct (query c d n) as [f|] eqn:E; [|reflexivity]. apply query_at in E. now apply H in E.
Qed.

(** In strict mode only the device itself counts. *)
Theorem C141_strict : forall run c m d n,
  (forall op, create run c m d n true = Made op <-> exists f, at_device c d n f /\ run f = Some op) /\
  create run c m d n true <> Terminates.
Proof.
  intros run c m d n. unfold create, create_no_exception, talent_query. destruct (query c d n) as [f|] eqn:E.
  - pose proof (proj1 (query_at _ _ _ _) E) as Hf. split.
    + intro op. split.
      * destruct (run f) as [o|] eqn:Er; [|discriminate]. intro H. injection H as <-. now exists f.
      * intros (g & Hg & Hr). unfold at_device in *. rewrite Hf in Hg. injection Hg as <-. now rewrite Hr.
    + destruct (run f); discriminate.
  - split; [|discriminate]. intro op. split; [discriminate|]. intros (f & Hf & _). apply query_at in Hf. congruence.
Qed.
Print Assumptions C141_strict.

(** Otherwise, for every registered device, the operator comes from the first of
    device, memory device and CPU that has it; a missing operator is an exception
    and the process goes on. *)
Theorem C141_fallback_partial : forall run c m d n d',
  memory_of m d = Some d' ->
  (forall op, create run c m d n false = Made op <-> exists f, source c m d n f /\ run f = Some op) /\
  create run c m d n false <> Terminates /\
  (create run c m d n false = NotFound <-> forall f, source c m d n f -> run f = None).
Proof.
  intros run c m d n d' Hm.
  assert (Hq : exists r, talent_query c m d n false = Some r /\ (forall f, r = Some f <-> source c m d n f)).
  { unfold talent_query. destruct (query c d n) as [f|] eqn:E.
    - exists (Some f). split; [reflexivity|]. apply query_at in E. intro g. split.
      + intro H. injection H as <-. now apply own_device.
      + intros [H|x H|x H]; [unfold at_device in *; congruence|exfalso; eapply H, E|exfalso; eapply H, E].
    - rewrite Hm. apply query_none in E. destruct (query c d' n) as [f|] eqn:E2.
      + exists (Some f). split; [reflexivity|]. apply query_at in E2. intro g. split.
        * intro H. injection H as <-. now apply memory_device with d'.
        * intros [H|x H Hx Hy|x H Hx Hy Hz]; [exfalso; eapply E, H| |].
          -- rewrite Hm in Hx. injection Hx as <-. unfold at_device in *. congruence.
          -- rewrite Hm in Hx. injection Hx as <-. exfalso. eapply Hy, E2.
      + apply query_none in E2.
        assert (Hcpu : forall g, source c m d n g <-> at_device c "cpu" n g).
        { intro g. split.
          - intros [H|x H Hx Hy|x H Hx Hy Hz]; [exfalso; eapply E, H| |exact Hz].
            rewrite Hm in Hx. injection Hx as <-. exfalso. eapply E2, Hy.
          - intro H. now apply on_cpu with d'. }
        destruct (String.eqb_spec d "cpu") as [->|Hd].
        * exists None. split; [reflexivity|]. intro g. rewrite Hcpu. split; [discriminate|]. intro H. exfalso. eapply E, H.
        * exists (query c "cpu" n). split; [reflexivity|]. intro g. rewrite Hcpu. apply query_at. }
  destruct Hq as (r & Hr & Hs). unfold create, create_no_exception. rewrite Hr.
  destruct r as [f|].
  - pose proof (proj1 (Hs f) eq_refl) as Hf. split; [|split].
    + intro op. split.
      * destruct (run f) as [o|] eqn:E; [|discriminate]. intro H. injection H as <-. now exists f.
      * intros (g & Hg & Hrun). apply Hs in Hg. injection Hg as <-. now rewrite Hrun.
    + destruct (run f); discriminate.
    + split.
      * intros H g Hg. apply Hs in Hg. injection Hg as <-. destruct (run f); [discriminate|reflexivity].
      * intro H. now rewrite (H f Hf).
  - split; [|split].
    + intro op. split; [discriminate|]. intros (g & Hg & _). apply Hs in Hg. discriminate.
    + discriminate.
    + split; [|reflexivity]. intros _ g Hg. apply Hs in Hg. discriminate.
Qed.
Print Assumptions C141_fallback_partial.

(** False of the code as it stands for a device no memory is registered for: the
    operator registered for the CPU is not used and no exception is seen; the
    process ends. *)
Theorem C141_unknown_device_refuted : forall run c m d n,
  memory_of m d = None -> nowhere c d n -> create run c m d n false = Terminates.
Proof.
  intros run c m d n Hm Hn. unfold create, create_no_exception, talent_query. now rewrite (proj2 (query_none _ _ _) Hn), Hm.
Qed.
Print Assumptions C141_unknown_device_refuted.

Example C141_example :
  let c := now [Register "cpu" "add" (Some 1); Register "gpu" "add" (Some 2); Register "cpu" "nms" (Some 3); Register "cudnn" "conv" None] in
  let m := [("cpu", "cpu"); ("gpu", "gpu"); ("cudnn", "gpu")]%string in
  create Some c m "cudnn" "add" false = Made 2 /\ create Some c m "cudnn" "nms" false = Made 3 /\ create Some c m "cudnn" "nms" true = NotFound /\
  create Some c m "cudnn" "conv" false = NotFound /\ create Some c m "npu" "add" false = Terminates.
Proof. repeat split. Qed.
