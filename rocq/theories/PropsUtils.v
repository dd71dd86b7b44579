(** Properties of the utilities: text, options, contexts, fixed capacity
    containers. *)
From Coq Require Import List Bool Arith Ascii NArith Lia.
From Verif Require Import TextModel TextSpec TextProofs ArgModel ArgSpec ArgProofs CtxModel CtxSpec CtxProofs
  OtlModel OtlSpec OtlProofs.
Import ListNotations.

(** ** C45: Split returns the pieces of the text between the separator
    characters; they are unique. *)
Theorem C45_split (s sep : str) : exists pieces, TextModel.split s sep = Some pieces /\ cut s sep pieces /\
  forall other, cut s sep other -> other = pieces.
Proof.
  destruct (split_spec s sep) as (p & E & C). exists p. split; [exact E|]. split; [exact C|].
  intros o H. exact (cut_unique sep s o p H C).
Qed.
Print Assumptions C45_split.

Theorem C45_join_split (s : str) (c : ascii) : exists pieces, TextModel.split s [c] = Some pieces /\ join pieces [c] = s.
Proof. exact (join_split s c). Qed.
Print Assumptions C45_join_split.

Theorem C45_split_join (l : list str) (c : ascii) : l <> [] -> (forall x, In x l -> ~ In c x) ->
  TextModel.split (join l [c]) [c] = Some l.
Proof. exact (split_join l c). Qed.
Print Assumptions C45_split_join.

(** The empty list does not come back. *)
Theorem C45_empty_list_refuted (c : ascii) : TextModel.split (join [] [c]) [c] = Some [[]].
Proof. reflexivity. Qed.
Print Assumptions C45_empty_list_refuted.

Example C45_example : TextModel.split ["a"; ","; "b"; "c"; ";"; ";"; "d"]%char [","; ";"]%char
  = Some [["a"]; ["b"; "c"]; []; ["d"]]%char.
Proof. reflexivity. Qed.

(** ** C72: the distance between names. *)
Theorem C72_symmetric (a b : str) : edit_distance a b = edit_distance b a.
Proof. rewrite !edit_distance_E. apply E_sym. Qed.
Print Assumptions C72_symmetric.
Theorem C72_equal_is_zero (a : str) : edit_distance a a = 0.
Proof. rewrite edit_distance_E. apply E_refl. Qed.
Print Assumptions C72_equal_is_zero.
Theorem C72_bounded (a b : str) : edit_distance a b <= length a + length b.
Proof. rewrite edit_distance_E. pose proof (E_bound (rev a) (rev b)). now rewrite !rev_length in H. Qed.
Print Assumptions C72_bounded.
(** Different names can be at distance 0, and one insertion can count 3. *)
Theorem C72_zero_means_equal_refuted : exists a b, edit_distance a b = 0 /\ a <> b.
Proof. exists ["a"; "b"]%char, ["a"; "b"; "b"]%char. split; [reflexivity|discriminate]. Qed.
Print Assumptions C72_zero_means_equal_refuted.
Theorem C72_one_edit_refuted : exists a c, edit_distance a (c :: a) = 3.
Proof. exists ["b"]%char, "a"%char. reflexivity. Qed.
Print Assumptions C72_one_edit_refuted.

(** ** C46: after declaring options with distinct spellings and parsing any
    argument string, an option has the value its last word in the string
    gives it, or its default. *)
Theorem C46_last_word_wins (ds : list decl) (args : str) (words : list str) :
  NoDup (concat (map spellings ds)) -> cut args blanks words ->
  exists p p', declare new_parser ds = Some p /\ parse p args = Some p' /\
    forall d, In d ds -> get p' (name d) =
      match last_said d (filter (fun w => negb (member [[]] w)) words) with Some b => b | None => by_default d end.
Proof.
  intros N C. destruct (declare_spec ds new_parser) as (p & E & H1 & H2 & H3 & _).
  destruct (split_spec args blanks) as (ws & Es & C2). rewrite (cut_unique _ _ _ _ C C2).
  exists p, (fold_left parse_one ws p). split; [exact E|]. split; [unfold parse; now rewrite Es|].
  intros d Hd. rewrite (parse_get ds d N Hd ws p).
  - assert (F : filter (fun w => negb (member [[]] w)) ws = filter nonempty ws).
    { apply filter_ext. intros w. unfold member. destruct (in_dec (list_eq_dec ascii_dec) w [[]]) as [[<-|[]]|Hn]; [reflexivity|].
      destruct w; [exfalso; apply Hn; now left|reflexivity]. }
    rewrite F. destruct (last_said d _); [reflexivity|].
    unfold get. rewrite H3. cbn [values new_parser ArgModel.find]. rewrite (first_value_spec ds d N Hd).
    destruct (by_default d); reflexivity.
  - split; intros w; [rewrite H1|rewrite H2]; reflexivity.
Qed.
Print Assumptions C46_last_word_wins.

Definition ofloat : decl := mkDecl ["-"; "f"; "1"; "6"]%char [["-"; "f"]]%char [["-"; "n"]]%char false.
Definition opack : decl := mkDecl ["-"; "p"]%char [] [["-"; "q"]]%char true.
Example C46_example : exists p p', declare new_parser [ofloat; opack] = Some p /\
  NoDup (concat (map spellings [ofloat; opack])) /\
  parse p ["-"; "f"; " "; "-"; "n"; " "; " "; "-"; "z"; " "; "-"; "f"]%char = Some p' /\
  get p' (name ofloat) = true /\ get p' (name opack) = true.
Proof.
  eexists _, _. split; [reflexivity|]. split.
  - cbn. repeat (constructor; [cbn; intuition discriminate|]). constructor.
  - split; [reflexivity|]. split; reflexivity.
Qed.

(** ** C73: map_device follows the map to its end, and returns only then. *)
Theorem C73_map_device (p : parser) (d e : str) : leads (devices p) (stand1 d) e ->
  exists fuel0, forall fuel, fuel0 <= fuel -> map_device fuel p d = Some (stand2 e).
Proof. exact (map_loop_leads (devices p) (stand1 d) e). Qed.
Print Assumptions C73_map_device.
Theorem C73_map_device_only (p : parser) (d r : str) (fuel : nat) : map_device fuel p d = Some r ->
  exists e, leads (devices p) (stand1 d) e /\ r = stand2 e.
Proof. exact (map_loop_returns fuel (devices p) (stand1 d) r). Qed.
Print Assumptions C73_map_device_only.
(** Mapping gpu to cuda makes the call on either of them run for ever. *)
Theorem C73_cyclic_map_refuted : exists p, parse new_parser ["-"; "v"; ":"; "g"; "p"; "u"; ":"; "C"; "U"; "D"; "A"]%char = Some p /\
  forall fuel, map_device fuel p lit_gpu = None.
Proof.
  eexists. split; [reflexivity|]. intros fuel.
  assert (G : forall fuel m, find m lit_gpu = Some lit_cuda -> find m lit_cuda = Some lit_gpu ->
    map_loop fuel m lit_gpu = None /\ map_loop fuel m lit_cuda = None).
  { clear. induction fuel as [|k IH]; intros m H1 H2; [split; reflexivity|]. cbn [map_loop]. rewrite H1, H2.
    destruct (IH m H1 H2). auto. }
  apply G; reflexivity.
Qed.
Print Assumptions C73_cyclic_map_refuted.
Example C73_example : leads (devices new_parser) (stand1 [" "; "C"; "u"; "D"; "A"; " "]%char) lit_gpu
  /\ map_device 9 new_parser [" "; "C"; "u"; "D"; "A"; " "]%char = Some lit_gpu.
Proof. split; [|reflexivity]. eapply leads_on; [reflexivity|]. apply leads_end. reflexivity. Qed.

(** ** C47: in any interleaving of threads whose scopes are nested, every read
    sees what the scopes (and assignments) around it in its own thread say,
    and all scopes are closed at the end. *)
Theorem C47_nested_contexts (l : list (nat * act)) (p : nat -> list stmt) :
  (forall i, of_thread i l = program (p i)) ->
  exists rs ts, exec new_threads l = Some (rs, ts) /\
    forall i, filter is_read (of_thread i rs) = reads None (p i) /\ binds (ts i) = [].
Proof.
  intros H. destruct (exec_threads l new_threads) as (rs & ts & E & R).
  - intros i. rewrite H. destruct (program_ok (p i) None []) as (ss & E & _). unfold new_threads, new_thread. rewrite E. discriminate.
  - exists rs, ts. split; [exact E|]. intros i. specialize (R i). rewrite H in R.
    destruct (program_ok (p i) None []) as (ss & E2 & F). unfold new_threads, new_thread in R. rewrite E2 in R.
    injection R as R1 R2. rewrite <- R1, <- R2. split; [exact F|reflexivity].
Qed.
Print Assumptions C47_nested_contexts.

Example C47_example :
  let p i := match i with
             | 0 => [ReadRef; Scope (Some 1) [ReadPtr; Scope (Some 2) [ReadRef; Assign (Some 9); ReadRef]; ReadRef]; ReadPtr]
             | 1 => [Scope (Some 7) [ReadRef]]
             | _ => []
             end in
  let l := [(0, Ref); (0, Enter (Some 1)); (1, Enter (Some 7)); (0, Get); (0, Enter (Some 2)); (0, Ref); (0, CtxModel.Set_ (Some 9));
            (1, Ref); (0, Ref); (0, Leave); (1, Leave); (0, Ref); (0, Leave); (0, Get)] in
  (forall i, of_thread i l = program (p i)) /\
  reads None (p 0) = [NoContext; Pointer (Some 1); Object 2; Object 9; Object 1; Pointer None].
Proof.
  cbn zeta. split; [|reflexivity]. intros [|[|i]]; reflexivity.
Qed.

(** ** C48: while the size stays within the capacity (and resize is used on an
    empty vector only), a fixed capacity vector behaves like a list. *)
Theorem C48_behaves_like_a_list_partial {T : Type} (cap : nat) (junk : T) (ops : list (OtlModel.op T)) : within cap [] ops ->
  exists v l, OtlModel.run cap junk (new_vector cap junk) ops = Ok v /\ list_ops [] ops = Some l /\ contents v = l.
Proof.
  intros W. destruct (run_ok cap junk ops (new_vector cap junk) [] (holds_new cap junk) W) as (v & l & E & El & H).
  exists v, l. split; [exact E|]. split; [exact El|]. exact (holds_contents cap v l H).
Qed.
Print Assumptions C48_behaves_like_a_list_partial.

(** Growing past the capacity writes outside the buffer instead of throwing:
    by push_back, by insert, and from any range that is too long. *)
Theorem C48_push_back_refuted {T : Type} (cap : nat) (junk x : T) (ops : list (OtlModel.op T)) (l : list T) : within cap [] ops ->
  list_ops [] ops = Some l -> length l = cap ->
  OtlModel.run cap junk (new_vector cap junk) (ops ++ [PushBack x]) = OutOfBounds /\
  forall i, i < cap -> OtlModel.run cap junk (new_vector cap junk) (ops ++ [Insert i x]) = OutOfBounds.
Proof.
  intros W El L. destruct (run_ok cap junk ops (new_vector cap junk) [] (holds_new cap junk) W) as (v & l' & E & El' & H).
  assert (l' = l) by congruence. subst l'.
  assert (A : forall o, OtlModel.run cap junk (new_vector cap junk) (ops ++ [o]) = run1 cap junk v o).
  { intros o. clear - E. revert E. generalize (new_vector cap junk). induction ops as [|a ops IH]; intros v0 E; cbn [app OtlModel.run] in *.
    - injection E as <-. destruct (run1 cap junk v0 o); reflexivity.
    - destruct (run1 cap junk v0 a); cbn [OtlModel.bind] in *; try discriminate. now apply IH. }
  split; [rewrite A; exact (push_over cap junk v l x H L)|].
  intros i Hi. rewrite A. apply (insert_over cap junk v l i x H); lia.
Qed.
Print Assumptions C48_push_back_refuted.
Theorem C48_range_refuted {T : Type} (cap : nat) (junk : T) (l : list T) : cap < length l -> from_range cap junk l = OutOfBounds.
Proof. exact (from_range_over cap junk l). Qed.
Print Assumptions C48_range_refuted.
(** resize does not keep the elements. *)
Theorem C48_resize_refuted : exists v, OtlModel.run 7 0 (new_vector 7 0) [FromList [1; 2]; Resize 3 9] = Ok v /\
  contents v = [9; 9; 9] /\ list_ops [] [FromList [1; 2]; Resize 3 9] = Some [1; 2; 9].
Proof. eexists. split; [reflexivity|]. split; reflexivity. Qed.
Print Assumptions C48_resize_refuted.
Example C48_example : within 7 [] [FromList [1; 2; 3]; PushBack 4; Insert 1 9; InsertRange 0 [5; 6]; Erase 1 3; EraseAt 0; Set_ 1 0; PopBack] /\
  list_ops [] [FromList [1; 2; 3]; PushBack 4; Insert 1 9; InsertRange 0 [5; 6]; Erase 1 3; EraseAt 0; Set_ 1 0; PopBack] = Some [9; 0; 3].
Proof. cbn. repeat split; lia. Qed.

(** ** C74: the 8 byte strings (device ids) compare equal exactly when they are
    the same text, and are totally ordered. *)
Theorem C74_equal_iff_same (a b x y : list N) : bytes a -> bytes b -> string8 a = Some x -> string8 b = Some y ->
  (eq8 x y = true <-> a = b).
Proof.
  intros Ba Bb Ea Eb. unfold eq8. rewrite N.eqb_eq. split.
  - exact (string8_word a b x y Ba Bb Ea Eb).
  - intros ->. congruence.
Qed.
Print Assumptions C74_equal_iff_same.
Theorem C74_total_order (a b x y : list N) : bytes a -> bytes b -> string8 a = Some x -> string8 b = Some y ->
  (a <> b <-> lt8 x y = true \/ lt8 y x = true) /\ ~ (lt8 x y = true /\ lt8 y x = true).
Proof.
  intros Ba Bb Ea Eb. unfold lt8. rewrite !N.ltb_lt.
  pose proof (string8_word a b x y Ba Bb Ea Eb) as W. split; [split|lia].
  - intros H. destruct (N.eq_dec (word x) (word y)) as [E|E]; [now apply W in E|lia].
  - intros H ->. assert (x = y) by congruence. subst. lia.
Qed.
Print Assumptions C74_total_order.
Theorem C74_order_transitive (x y z : list N) : lt8 x y = true -> lt8 y z = true -> lt8 x z = true.
Proof. unfold lt8. rewrite !N.ltb_lt. lia. Qed.
Print Assumptions C74_order_transitive.
Theorem C74_too_long (s : list N) : 7 < length s <-> string8 s = None.
Proof. unfold string8. destruct (Nat.ltb_spec 7 (length s)); split; intros; try reflexivity; try discriminate; lia. Qed.
Print Assumptions C74_too_long.
(** The order is not the dictionary's. *)
Theorem C74_dictionary_refuted : exists x y, string8 [97; 98]%N = Some x /\ string8 [98; 97]%N = Some y /\ lt8 x y = false.
Proof. eexists _, _. repeat split. Qed.
Print Assumptions C74_dictionary_refuted.
