(** C133: what the C functions return and say when they fail; C134: messages of
    threads; C135: null pointers. *)
From Coq Require Import List ZArith Bool String Ascii Lia.
From Verif Require Import ApiModel ApiSpec.
Import ListNotations.
Local Open Scope string_scope.

Lemma run_seq c : forall k m,
  run (seq c k) m = match run c m with (Value v, m') => run (k v) m' | r => r end.
Proof.
  induction c as [o|s c IH|f IH|w inner _ f IH]; intros k m; cbn [seq run].
  - destruct o; reflexivity.
  - apply IH.
  - apply IH.
  - destruct (leave w (run inner (enter w m))) as [[v| | |] m']; try reflexivity. apply IH.
Qed.

Lemma plain_run c : plain c -> forall m, snd (run c m) = m.
Proof. induction 1 as [o|k _ IH]; intro m; cbn [run]; [reflexivity|apply IH]. Qed.

(** *** C133 *)

(** A function that returns a value or a status, and runs no operator of the
    user: it either returns what its body returned and the message is empty, or
    the body threw ts::Exception and it returns the failure value, with the
    message being that of the exception, or something worse happened. *)
Theorem C133_protocol_partial : forall f null body m,
  In f functions -> fn_wrapper f = Returns -> plain (guarded f null body) ->
  let r := invoke f null body m in
  match fst (run (guarded f null body) "") with
  | Value v => r = (Value v, "")
  | Exc what => r = (Value 0, what)
  | Alien => fst r = Alien
  | Undefined => fst r = Undefined
  end.
Proof.
  intros f null body m _ Hw Hp r. unfold r, invoke, call. rewrite Hw. cbn [enter].
  pose proof (plain_run _ Hp "") as Hm.
  destruct (run (guarded f null body) "") as [o m']. cbn [snd] in Hm. subst m'.
  destruct o; reflexivity.
Qed.
Print Assumptions C133_protocol_partial.

(** With operators of the user inside as well: whatever they did to the message,
    a ts::Exception that reaches the end of the function is what the message
    says. *)
Theorem C133_failure : forall f null body m what m',
  In f functions -> fn_wrapper f = Returns ->
  run (guarded f null body) "" = (Exc what, m') ->
  invoke f null body m = (Value 0, what).
Proof. intros f null body m what m' _ Hw H. unfold invoke, call. rewrite Hw. cbn [enter]. rewrite H. reflexivity. Qed.
Print Assumptions C133_failure.

Lemma ends_app a t s : ends_with t s -> ends_with (a ++ t) s.
Proof.
  intros [p ->]. exists (a ++ p). induction a as [|c a IH]; cbn; [reflexivity|]. rewrite IH. reflexivity.
Qed.
Lemma text_ends at_ head device op s : s <> "" -> ends_with (failed_text at_ head device op s) s.
Proof.
  intro Hs. unfold failed_text. do 6 apply ends_app.
  destruct (String.eqb_spec s ""); [contradiction|]. exists (String (ascii_of_nat 10) "With: "). reflexivity.
Qed.

(** The reason an operator of the user gives for returning null reaches the
    caller of the function in which the operator ran. *)
Theorem C133_reason : forall f null m before at_ device op callback rest after reason,
  In f functions -> fn_wrapper f = Returns -> (forall p, null p = false) ->
  (exists v m', run before "" = (Value v, m')) ->
  run callback "" = (Value 0, reason) -> reason <> "" ->
  exists text, invoke f null (seq before (fun _ => seq (plugin_run at_ device op callback rest) after)) m = (Value 0, text) /\
    ends_with text reason.
Proof.
  intros f null m before at_ device op callback rest after reason Hin Hw Hn (v & m' & Hb) Hc Hr.
  exists (failed_text at_ "Call ts_Operator_run failed (return null) on " device op reason).
  split; [|apply text_ends; exact Hr].
  unfold invoke, call. rewrite Hw. cbn [enter]. unfold guarded.
  assert (E1 : find (fun c => null (fst c)) (fn_checks f) = None).
  { induction (fn_checks f) as [|c l IH]; [reflexivity|]. cbn. rewrite Hn. exact IH. }
  rewrite E1.
  assert (E2 : existsb (fun p => null p && negb (existsb (Nat.eqb p) (fn_optional f))) (fn_pointers f) = false).
  { induction (fn_pointers f) as [|c l IH]; [reflexivity|]. cbn. rewrite Hn. exact IH. }
  rewrite E2, run_seq, Hb, run_seq. unfold plugin_run. cbn [run]. rewrite run_seq, Hc. reflexivity.
Qed.
Print Assumptions C133_reason.

(** An operator of the user that returned a result leaves no message, whatever
    calls it made. *)
Theorem C133_operator_clean : forall at_ device op callback rest p m1 r m2 m,
  run callback "" = (Value p, m1) -> p <> 0%Z -> run (rest p) m1 = (Value r, m2) ->
  run (plugin_run at_ device op callback rest) m = (Value r, "").
Proof.
  intros at_ device op callback rest p m1 r m2 m Hc Hp Hr. unfold plugin_run. cbn [run]. rewrite run_seq, Hc.
  rewrite (proj2 (Z.eqb_neq _ _) Hp), run_seq, Hr. reflexivity.
Qed.
Print Assumptions C133_operator_clean.

Definition fn (name : string) : function := nth 0 (filter (fun f => String.eqb (fn_name f) name) functions) (Fn "" Bare [] [] []).
Definition none_null : nat -> bool := fun _ => false.
(** [ts_Tensor_cast(NULL, ...)] *)
Definition failing_cast : code := guarded (fn "ts_Tensor_cast") (Nat.eqb 1) (Done (Value 1)).

(** False of the code as it stands: loading succeeds and yet leaves a message,
    when the init function of an operator of the user made a call that failed
    (and dealt with it). *)
Theorem C133_stale_refuted : exists callback,
  invoke (fn "ts_Workbench_Load") none_null (seq (plugin_init callback) (fun _ => Done (Value 7))) ""
  = (Value 7, "NullPointerException: @param: 1").
Proof. exists (Call Returns failing_cast (fun _ => Done (Value 1))). reflexivity. Qed.
Print Assumptions C133_stale_refuted.

(** False: registering an operator without a function to make one fails without
    a message. *)
Theorem C133_silent_refuted : forall body m,
  invoke (fn "ts_Operator_Register") (Nat.eqb 3) body m = (Value 0, "") /\
  run (guarded (fn "ts_Operator_Register") (Nat.eqb 3) body) "" = (Exc "f_new, f_free, f_init and f_run can't be nullptr", "").
Proof. intros body m. split; reflexivity. Qed.
Print Assumptions C133_silent_refuted.

(** False: other exceptions leave the C function. A shape of negative length. *)
Theorem C133_escapes_refuted : forall at_ dtype data_null made m,
  (data_null = true \/ supported_dtype dtype = true) ->
  fst (invoke (fn "ts_new_Tensor") none_null (new_tensor at_ false (-1) dtype data_null made) m) = Alien.
Proof.
  intros at_ dtype data_null made m H. unfold new_tensor. cbn [negb].
  destruct data_null; [reflexivity|]. destruct H as [H|H]; [discriminate|]. rewrite H. reflexivity.
Qed.
Print Assumptions C133_escapes_refuted.

(** Otherwise making a tensor gives a tensor or says that the type is not
    supported. *)
Theorem C133_new_tensor_partial : forall at_ shape_null shape_len dtype data_null made m,
  shape_null = true \/ (0 <= shape_len)%Z ->
  invoke (fn "ts_new_Tensor") none_null (new_tensor at_ shape_null shape_len dtype data_null made) m =
  if data_null || supported_dtype dtype then (Value made, "") else (Value 0, at_ ++ "Not support dtype: ").
Proof.
  intros at_ shape_null shape_len dtype data_null made m H. unfold new_tensor.
  assert (E : ((if shape_null then 0 else shape_len) <? 0)%Z = false).
  { destruct shape_null; [reflexivity|]. apply Z.ltb_ge. destruct H; [discriminate|assumption]. }
  rewrite E. destruct data_null; [reflexivity|]. destruct (supported_dtype dtype); reflexivity.
Qed.
Print Assumptions C133_new_tensor_partial.

Example C133_example :
  In (fn "ts_Workbench_run") functions /\ fn_wrapper (fn "ts_Workbench_run") = Returns /\
  invoke (fn "ts_Workbench_run") none_null
    (plugin_run "" "cpu" "mine" (SetMessage "too large" (Done (Value 0))) (fun p => Done (Value p))) "old"
  = (Value 0, "Call ts_Operator_run failed (return null) on cpu for mine." ++ String (ascii_of_nat 10) "With: too large").
Proof. split; [|split; reflexivity]. vm_compute. tauto. Qed.

(** *** C134 *)
Lemma put_same {A} (f : nat -> A) t a : put f t a t = a.
Proof. unfold put. now rewrite Nat.eqb_refl. Qed.
Lemma put_other {A} (f : nat -> A) t u a : u <> t -> put f t a u = f u.
Proof. intro H. unfold put. now rewrite (proj2 (Nat.eqb_neq _ _) H). Qed.

(** However the steps of the threads interleave, each is where it would be by
    itself after as many steps, with the message it would have. *)
Theorem C134_isolated : forall schedule w t,
  let w' := execute w schedule in
  (controls w' t, messages w' t) = alone (count_occ Nat.eq_dec schedule t) (controls w t, messages w t).
Proof.
  induction schedule as [|u sched IH]; intros w t w'; [reflexivity|].
  unfold w'. cbn [execute fold_left]. specialize (IH (step w u) t). cbv zeta in IH. unfold execute in IH. rewrite IH. clear IH w'.
  unfold step. destruct (tick (controls w u) (messages w u)) as [c m] eqn:E. cbn [controls messages count_occ].
  destruct (Nat.eq_dec u t) as [->|Hne].
  - rewrite !put_same. cbn [alone fst snd]. rewrite E. reflexivity.
  - rewrite !put_other by (intro H; now apply Hne). reflexivity.
Qed.
Print Assumptions C134_isolated.

Lemma alone_add a : forall b s, alone (a + b) s = alone b (alone a s).
Proof. induction a as [|a IH]; intros b s; [reflexivity|]. cbn [alone Nat.add]. apply IH. Qed.
Lemma alone_halted n : forall o m, alone n (Halted o, m) = (Halted o, m).
Proof. induction n as [|n IH]; intros o m; [reflexivity|]. cbn. apply IH. Qed.

Definition arrive (r : outcome * string) (st : list (wrapper * (Z -> code))) : control * string := (Running (Done (fst r)) st, snd r).
Lemma reaches c : forall st m, exists n, alone n (Running c st, m) = arrive (run c m) st.
Proof.
  induction c as [o|s c IH|f IH|w inner IHi f IHf]; intros st m.
  - exists 0%nat. reflexivity.
  - destruct (IH st s) as [n Hn]. exists (S n). exact Hn.
  - destruct (IH m st m) as [n Hn]. exists (S n). exact Hn.
  - destruct (IHi ((w, f) :: st) (enter w m)) as [n Hn]. cbn [run].
    destruct (run inner (enter w m)) as [o m1] eqn:E1. unfold arrive in Hn. cbn [fst snd] in Hn.
    destruct (leave w (o, m1)) as [o2 m2] eqn:E2.
    destruct o2 as [v| | |].
    + destruct (IHf v st m2) as [k Hk]. exists (S (n + S k))%nat. cbn [alone tick fst snd].
      rewrite alone_add, Hn. cbn [alone tick fst snd]. rewrite E2. exact Hk.
    + exists (S (n + 1))%nat. cbn [alone tick fst snd]. rewrite alone_add, Hn. cbn [alone tick fst snd]. rewrite E2. reflexivity.
    + exists (S (n + 1))%nat. cbn [alone tick fst snd]. rewrite alone_add, Hn. cbn [alone tick fst snd]. rewrite E2. reflexivity.
    + exists (S (n + 1))%nat. cbn [alone tick fst snd]. rewrite alone_add, Hn. cbn [alone tick fst snd]. rewrite E2. reflexivity.
Qed.

(** A thread's call ends as it would with no other threads, in every schedule
    that lets the thread make enough steps. *)
Theorem C134_same_result : forall c m, exists n, forall w t schedule,
  controls w t = Running c [] -> messages w t = m -> (n <= count_occ Nat.eq_dec schedule t)%nat ->
  let w' := execute w schedule in
  controls w' t = Halted (fst (run c m)) /\ messages w' t = snd (run c m).
Proof.
  intros c m. destruct (reaches c [] m) as [n Hn]. exists (n + 1)%nat.
  intros w t schedule Hc Hm Hle w'.
  pose proof (C134_isolated schedule w t) as H. cbv zeta in H. fold w' in H. rewrite Hc, Hm in H.
  replace (count_occ Nat.eq_dec schedule t) with (n + (1 + (count_occ Nat.eq_dec schedule t - n - 1)))%nat in H by lia.
  rewrite alone_add, Hn in H. unfold arrive in H. cbn [alone Nat.add tick fst snd] in H. rewrite alone_halted in H.
  apply pair_equal_spec in H. exact H.
Qed.
Print Assumptions C134_same_result.

Example C134_example :
  let c1 := Call Returns failing_cast (fun v => Message (fun m => Done (Value (if String.eqb m "" then 0 else 1)))) in
  let c2 := Call Returns (Done (Value 5)) (fun v => Message (fun m => Done (Value (if String.eqb m "" then 0 else 1)))) in
  let w := execute (World (fun t => if Nat.eqb t 0 then Running c1 [] else Running c2 []) (fun _ => "")) [0; 1; 0; 1; 1; 0; 1; 0; 1; 0]%nat in
  controls w 0%nat = Halted (Value 1) /\ controls w 1%nat = Halted (Value 0).
Proof. vm_compute. split; reflexivity. Qed.

(** *** C135 *)

Lemma find_first {A} (p : A -> bool) l x : find p l = Some x -> exists a b, l = (a ++ x :: b)%list /\ p x = true /\ forall y, In y a -> p y = false.
Proof.
  induction l as [|y l IH]; [discriminate|]. cbn. destruct (p y) eqn:E.
  - intros [= ->]. exists [], l. split; [reflexivity|]. split; [exact E|]. intros z [].
  - intro H. destruct (IH H) as (a & b & -> & Hx & Ha). exists (y :: a), b. split; [reflexivity|]. split; [exact Hx|].
    intros z [<-|Hz]; [exact E|]. apply Ha, Hz.
Qed.

(** Null for a pointer the function checks: the failure value and the message
    for the first such pointer; the body is never run. *)
Theorem C135_refused : forall f null p n m,
  In f functions -> fn_wrapper f = Returns -> In (p, n) (fn_checks f) -> null p = true ->
  exists earlier q k later, fn_checks f = (earlier ++ (q, k) :: later)%list /\ null q = true /\
    (forall c, In c earlier -> null (fst c) = false) /\
    forall body, invoke f null body m = (Value 0, null_text k).
Proof.
  intros f null p n m _ Hw Hin Hnull.
  destruct (find (fun c => null (fst c)) (fn_checks f)) as [[q k]|] eqn:E.
  - destruct (find_first _ _ _ E) as (a & b & Hl & Hq & Ha). exists a, q, k, b.
    repeat (split; [assumption|]). intro body. unfold invoke, call, guarded. rewrite E, Hw. reflexivity.
  - pose proof (find_none _ _ E _ Hin) as H. cbn [fst] in H. congruence.
Qed.
Print Assumptions C135_refused.

(** Except for the functions listed in [careless], null never leads to undefined
    behaviour: either it is refused, or all pointers that are null may be, and
    the function goes on to its body. *)
Theorem C135_defined_partial : forall f, In f functions -> ~ In (fn_name f) careless -> forall null body m,
  (exists e, guarded f null body = Done (Exc e)) \/
  (guarded f null body = body /\ invoke f null body m = call (fn_wrapper f) body m /\
   forall p, In p (fn_pointers f) -> null p = true -> In p (fn_optional f)).
Proof.
  intros f Hin Hc null body m.
  assert (Hall : forall p, In p (fn_pointers f) -> In p (fn_optional f) \/ exists n, In (p, n) (fn_checks f)).
  { assert (Hb : forallb (fun f => existsb (String.eqb (fn_name f)) careless ||
        forallb (fun p => existsb (Nat.eqb p) (fn_optional f) || existsb (fun c => Nat.eqb p (fst c)) (fn_checks f)) (fn_pointers f)) functions = true)
      by (vm_compute; reflexivity).
    rewrite forallb_forall in Hb. specialize (Hb f Hin). apply orb_true_iff in Hb. destruct Hb as [Hb|Hb].
    - exfalso. apply Hc. apply existsb_exists in Hb. destruct Hb as (x & Hx & E). apply String.eqb_eq in E. now rewrite E.
    - rewrite forallb_forall in Hb. intros p Hp. specialize (Hb p Hp). apply orb_true_iff in Hb. destruct Hb as [Hb|Hb].
      + left. apply existsb_exists in Hb. destruct Hb as (x & Hx & E). apply Nat.eqb_eq in E. now subst.
      + right. apply existsb_exists in Hb. destruct Hb as ([x n] & Hx & E). apply Nat.eqb_eq in E. cbn in E. subst. now exists n. }
  unfold invoke, guarded.
  destruct (find (fun c => null (fst c)) (fn_checks f)) as [[q k]|] eqn:E; [left; eexists; reflexivity|right].
  assert (Hopt : forall p, In p (fn_pointers f) -> null p = true -> In p (fn_optional f)).
  { intros p Hp Hn. destruct (Hall p Hp) as [H|[n H]]; [exact H|].
    pose proof (find_none _ _ E _ H) as H'. cbn [fst] in H'. congruence. }
  assert (E2 : existsb (fun p => null p && negb (existsb (Nat.eqb p) (fn_optional f))) (fn_pointers f) = false).
  { apply not_true_is_false. intro H. apply existsb_exists in H. destruct H as (p & Hp & H).
    apply andb_true_iff in H. destruct H as [Hn Ho]. apply negb_true_iff in Ho.
    rewrite <- not_true_iff_false in Ho. apply Ho, existsb_exists. exists p. split; [apply Hopt; assumption|apply Nat.eqb_refl]. }
  rewrite E2. split; [reflexivity|]. split; [reflexivity|exact Hopt].
Qed.
Print Assumptions C135_defined_partial.

(** Each function in [careless] does reach undefined behaviour with a null pointer. *)
Theorem C135_careless_refuted : forall name, In name careless ->
  exists f p, In f functions /\ fn_name f = name /\ In p (fn_pointers f) /\
    forall body m, fst (invoke f (Nat.eqb p) body m) = Undefined.
Proof.
  assert (Hb : forallb (fun name => existsb (fun f => String.eqb (fn_name f) name &&
      existsb (fun p => match find (fun c => Nat.eqb p (fst c)) (fn_checks f) with Some _ => false | None =>
        existsb (fun q => Nat.eqb p q && negb (existsb (Nat.eqb q) (fn_optional f))) (fn_pointers f) end) (fn_pointers f)) functions) careless = true)
    by (vm_compute; reflexivity).
  intros name Hn. rewrite forallb_forall in Hb. specialize (Hb name Hn).
  apply existsb_exists in Hb. destruct Hb as (f & Hf & H). apply andb_true_iff in H. destruct H as [E H].
  apply String.eqb_eq in E. apply existsb_exists in H. destruct H as (p & Hp & H).
  exists f, p. split; [exact Hf|]. split; [exact E|]. split; [exact Hp|].
  intros body m. unfold invoke, call, guarded.
  destruct (find (fun c => Nat.eqb p (fst c)) (fn_checks f)); [discriminate|]. rewrite H. destruct (fn_wrapper f); reflexivity.
Qed.
Print Assumptions C135_careless_refuted.

(** The number in the message is the position of the pointer, but for two
    functions. *)
Theorem C135_position_partial : forall f p n, In f functions -> In (p, n) (fn_checks f) -> n <> 0%nat ->
  fn_name f <> "ts_Module_Fusion" -> fn_name f <> "ts_intime_memcpy" -> n = p.
Proof.
  intros f p n Hf Hc H0 H1 H2.
  assert (Hb : forallb (fun f => String.eqb (fn_name f) "ts_Module_Fusion" || String.eqb (fn_name f) "ts_intime_memcpy" ||
      forallb (fun c => Nat.eqb (snd c) 0 || Nat.eqb (snd c) (fst c)) (fn_checks f)) functions = true) by (vm_compute; reflexivity).
  rewrite forallb_forall in Hb. specialize (Hb f Hf).
  rewrite (proj2 (String.eqb_neq _ _) H1), (proj2 (String.eqb_neq _ _) H2) in Hb. cbn [orb] in Hb.
  rewrite forallb_forall in Hb. specialize (Hb (p, n) Hc). cbn [fst snd] in Hb.
  rewrite (proj2 (Nat.eqb_neq _ _) H0) in Hb. cbn [orb] in Hb. now apply Nat.eqb_eq.
Qed.
Print Assumptions C135_position_partial.
Theorem C135_position_refuted : forall body m,
  invoke (fn "ts_Module_Fusion") (Nat.eqb 3) body m = (Value 0, "NullPointerException: @param: 2").
Proof. reflexivity. Qed.
Print Assumptions C135_position_refuted.

Example C135_example : In (fn "ts_Workbench_output_by_name") functions /\
  forall body, invoke (fn "ts_Workbench_output_by_name") (fun p => Nat.leb 2 p) body "old" = (Value 0, "NullPointerException: @param: 2").
Proof. split; [vm_compute; tauto|reflexivity]. Qed.
