(** Proofs about the image filter model. *)
From Coq Require Import ZArith List Bool String Lia.
From Verif Require Import FilterModel FilterSpec.
Import ListNotations.
Open Scope Z_scope.

Section Proofs.
Context {F V : Type}.
Variable recip : F -> F.
Variable sizes : V -> list Z.
Variable reshape : V -> list Z -> option V.
Variable constant : ctensor F -> V.
Variable layer : string -> list (string * ctensor F) -> list V -> option V.

Let value := value constant layer.
Let append := append recip.
Let apply := apply recip constant layer.
Let steps := steps recip constant layer.

Definition build (l : list (call F)) : graph := fold_left append l [PParam].

Lemma build_snoc : forall l c, build (l ++ [c]) = append (build l) c.
Proof. intros. unfold build. rewrite fold_left_app. reflexivity. Qed.

(** Every link points backwards. *)
Definition ordered (g : @graph F) : Prop :=
  forall i name attrs ins, nth_error g i = Some (POp name attrs ins) ->
    forall j, In j ins -> (j < i)%nat.

Lemma value_S : forall k g x i,
  value (S k) g x i =
  match nth_error g i with
  | None => None
  | Some PParam => Some x
  | Some (PConst t) => Some (constant t)
  | Some (POp name attrs ins) =>
      match (fix all (l : list nat) : option (list V) :=
               match l with
               | [] => Some []
               | j :: r =>
                   match value k g x j, all r with
                   | Some a, Some b => Some (a :: b)
                   | _, _ => None
                   end
               end) ins with
      | Some args => layer name attrs args
      | None => None
      end
  end.
Proof. reflexivity. Qed.

(** Values do not depend on the fuel or on later nodes. *)
Lemma value_stable : forall g, ordered g -> forall i k k' x g',
  (i < List.length g)%nat -> (i < k)%nat -> (i < k')%nat ->
  value k (g ++ g') x i = value k' g x i.
Proof.
  intros g O i. induction i as [i IH] using (well_founded_induction Wf_nat.lt_wf).
  intros k k' x g' L K K'.
  destruct k as [|k]; [lia|]. destruct k' as [|k']; [lia|].
  rewrite !value_S. rewrite nth_error_app1 by lia.
  destruct (nth_error g i) as [[| t | name attrs ins]|] eqn:E; try reflexivity.
  pose proof (O i name attrs ins E) as B.
  assert (A : forall l, (forall j, In j l -> (j < i)%nat) ->
    (fix all (l : list nat) : option (list V) :=
       match l with
       | [] => Some []
       | j :: r => match value k (g ++ g') x j, all r with
                   | Some a, Some b => Some (a :: b) | _, _ => None end
       end) l =
    (fix all (l : list nat) : option (list V) :=
       match l with
       | [] => Some []
       | j :: r => match value k' g x j, all r with
                   | Some a, Some b => Some (a :: b) | _, _ => None end
       end) l).
  { induction l as [|j r IHl]; intros Hl; [reflexivity|].
    rewrite IHl by (intros; apply Hl; right; assumption).
    assert (j < i)%nat by (apply Hl; left; reflexivity).
    rewrite (IH j) with (k' := k') by lia. reflexivity. }
  rewrite A by exact B. reflexivity.
Qed.

Lemma ordered_unary : forall g name attrs,
  ordered g -> (0 < List.length g)%nat -> ordered (unary g name attrs).
Proof.
  intros g name attrs O L i n a ins E j J. unfold unary in E.
  destruct (Nat.lt_ge_cases i (List.length g)) as [C|C].
  - rewrite nth_error_app1 in E by lia. eapply O; eassumption.
  - rewrite nth_error_app2 in E by lia.
    destruct (i - List.length g)%nat as [|m] eqn:D.
    + cbn in E. injection E as <- <- <-. destruct J as [<-|[]]. unfold back. lia.
    + destruct m; discriminate E.
Qed.

Lemma ordered_const : forall g t, ordered g -> ordered (g ++ [PConst t]).
Proof.
  intros g t O i n a ins E j J.
  destruct (Nat.lt_ge_cases i (List.length g)) as [C|C].
  - rewrite nth_error_app1 in E by lia. eapply O; eassumption.
  - rewrite nth_error_app2 in E by lia.
    destruct (i - List.length g)%nat as [|m]; [discriminate|destruct m; discriminate].
Qed.

Lemma ordered_binary : forall g name t attrs,
  ordered g -> (0 < List.length g)%nat -> ordered (binary g name t attrs).
Proof.
  intros g name t attrs O L i n a ins E j J. unfold binary in E.
  pose proof (ordered_const g t O) as O1. set (g1 := g ++ [PConst t]) in *.
  assert (L1 : List.length g1 = S (List.length g)).
  { unfold g1. rewrite app_length. cbn. lia. }
  destruct (Nat.lt_ge_cases i (List.length g1)) as [C|C].
  - rewrite nth_error_app1 in E by lia. eapply O1; eassumption.
  - rewrite nth_error_app2 in E by lia.
    destruct (i - List.length g1)%nat as [|m] eqn:D.
    + cbn in E. injection E as <- <- <-. unfold back in J.
      destruct J as [<-|[<-|[]]]; lia.
    + destruct m; discriminate E.
Qed.

(** Either shape of an appended step. *)
Lemma append_cases : forall g c,
  (exists n a, append g c = unary g n a /\ forall x, apply c x = layer n a [x]) \/
  (exists n t a, append g c = binary g n t a /\
     forall x, apply c x = layer n a [x; constant t]).
Proof.
  intros g c. destruct c; unfold append, apply; cbn [FilterModel.append FilterSpec.apply];
  first [ left; eexists; eexists; split; [reflexivity|intros; reflexivity]
        | right; eexists; eexists; eexists; split; [reflexivity|]; intros x;
          unfold vec_f; rewrite ?map_length; reflexivity ].
Qed.

Lemma value_unary : forall g n a x k, ordered g -> (0 < List.length g)%nat ->
  (List.length (unary g n a) <= k)%nat ->
  value k (unary g n a) x (back (unary g n a)) =
  match value (List.length g) g x (back g) with
  | Some v => layer n a [v] | None => None end.
Proof.
  intros g n a x k O L K. assert (Hl : List.length (unary g n a) = S (List.length g)).
  { unfold unary. rewrite app_length. cbn. lia. }
  rewrite Hl in K. destruct k as [|k]; [lia|].
  unfold back at 1. rewrite Hl. cbn [Nat.pred]. rewrite value_S.
  unfold unary at 1. rewrite nth_error_app2 by lia. rewrite Nat.sub_diag. cbn [nth_error].
  unfold unary. rewrite (value_stable g O (back g) k (List.length g)) by (unfold back; lia).
  destruct (value (List.length g) g x (back g)); reflexivity.
Qed.

Lemma value_binary : forall g n t a x k, ordered g -> (0 < List.length g)%nat ->
  (List.length (binary g n t a) <= k)%nat ->
  value k (binary g n t a) x (back (binary g n t a)) =
  match value (List.length g) g x (back g) with
  | Some v => layer n a [v; constant t] | None => None end.
Proof.
  intros g n t a x k O L K.
  assert (Hl : List.length (binary g n t a) = S (S (List.length g))).
  { unfold binary. rewrite !app_length. cbn. lia. }
  rewrite Hl in K. destruct k as [|k]; [lia|].
  unfold back at 1. rewrite Hl. cbn [Nat.pred]. rewrite value_S.
  unfold binary at 1. rewrite nth_error_app2 by (rewrite app_length; cbn; lia).
  rewrite app_length. cbn [List.length].
  replace (S (List.length g) - (List.length g + 1))%nat with 0%nat by lia.
  cbn [nth_error].
  unfold binary. rewrite <- app_assoc.
  rewrite (value_stable g O (back g) k (List.length g)) by (unfold back; lia).
  assert (C : value k (g ++ [PConst t] ++
     [POp n a [back g; back (g ++ [PConst t])]]) x (back (g ++ [PConst t])) =
     Some (constant t)).
  { destruct k as [|k]; [lia|]. rewrite value_S. unfold back.
    rewrite app_length. cbn [List.length].
    replace (Nat.pred (List.length g + 1)) with (List.length g) by lia.
    rewrite nth_error_app2 by lia. rewrite Nat.sub_diag. reflexivity. }
  rewrite C. destruct (value (List.length g) g x (back g)); reflexivity.
Qed.

Lemma steps_snoc : forall l c x,
  steps (l ++ [c]) x = match steps l x with Some y => apply c y | None => None end.
Proof.
  induction l as [|d l IH]; intros c x.
  - cbn. change (match apply c x with Some y => Some y | None => None end = apply c x).
    destruct (apply c x); reflexivity.
  - cbn [app]. unfold steps; cbn [FilterSpec.steps]. fold steps.
    change (FilterSpec.apply recip constant layer d x) with (apply d x).
    destruct (apply d x) as [y|]; [apply IH|reflexivity].
Qed.

Lemma build_facts : forall l,
  ordered (build l) /\ (S (List.length l) <= List.length (build l))%nat /\
  (forall i, consumed (build l) i = (i <? back (build l))%nat) /\
  (forall x, value (List.length (build l)) (build l) x (back (build l)) = steps l x).
Proof.
  intros l. induction l as [|c l IH] using rev_ind.
  - split; [|split; [|split]].
    + intros i n a ins E. destruct i as [|[|i]]; discriminate E.
    + cbn. lia.
    + intros i. cbn. destruct i; reflexivity.
    + reflexivity.
  - destruct IH as (O & L & C & W). rewrite build_snoc.
    assert (L0 : (0 < List.length (build l))%nat) by lia.
    destruct (append_cases (build l) c) as [(n & a & E & M)|(n & t & a & E & M)];
      rewrite E.
    + split; [apply ordered_unary; assumption|]. split; [|split].
      * unfold unary. rewrite !app_length. cbn. lia.
      * intros i. unfold unary, back. unfold consumed. rewrite existsb_app.
        fold (consumed (build l) i). rewrite C. rewrite app_length.
        cbn [existsb List.length]. rewrite !orb_false_r. unfold back.
        destruct (Nat.ltb_spec i (Nat.pred (List.length (build l))));
        destruct (Nat.eqb_spec i (Nat.pred (List.length (build l))));
        destruct (Nat.ltb_spec i (Nat.pred (List.length (build l) + 1))); cbn; lia.
      * intros x. rewrite value_unary by (try assumption; lia). rewrite W.
        rewrite steps_snoc. destruct (steps l x); [symmetry; apply M|reflexivity].
    + split; [apply ordered_binary; assumption|]. split; [|split].
      * unfold binary. rewrite !app_length. cbn. lia.
      * intros i. unfold binary, back. unfold consumed. rewrite !existsb_app.
        fold (consumed (build l) i). rewrite C. rewrite !app_length.
        cbn [existsb List.length]. rewrite !orb_false_r. unfold back.
        destruct (Nat.ltb_spec i (Nat.pred (List.length (build l))));
        destruct (Nat.eqb_spec i (Nat.pred (List.length (build l))));
        destruct (Nat.eqb_spec i (Nat.pred (List.length (build l) + 1)));
        destruct (Nat.ltb_spec i (Nat.pred (List.length (build l) + 1 + 1))); cbn; lia.
      * intros x. rewrite value_binary by (try assumption; lia). rewrite W.
        rewrite steps_snoc. destruct (steps l x); [symmetry; apply M|reflexivity].
Qed.

(** The only output is the last node. *)
Lemma build_outputs : forall l, module_outputs (build l) = [back (build l)].
Proof.
  intros l. destruct (build_facts l) as (_ & L & C & _). unfold module_outputs.
  assert (E : List.length (build l) = S (back (build l))) by (unfold back; lia).
  rewrite E, seq_S, filter_app. cbn [filter Nat.add].
  rewrite C, Nat.ltb_irrefl. cbn [negb].
  assert (N : filter (fun i => negb (consumed (build l) i)) (seq 0 (back (build l))) = []).
  { generalize (fun i (H : In i (seq 0 (back (build l)))) => proj2 (proj1 (in_seq _ _ _) H)).
    generalize (seq 0 (back (build l))). induction l0 as [|i r IH]; intros H; [reflexivity|].
    cbn [filter]. rewrite C, (proj2 (Nat.ltb_lt _ _)).
    - cbn. apply IH. intros j J. apply H. right. exact J.
    - specialize (H i (or_introl eq_refl)). lia. }
  rewrite N. reflexivity.
Qed.

Let after := after recip sizes reshape constant layer.
Let react := react recip sizes reshape constant layer.
Let run := run sizes reshape constant layer.

Definition program_of (l : list (call F)) : option program :=
  match l with [] => None | _ => Some (Program (build l) (module_outputs (build l))) end.

(** The invariant of a filter with the calls [l] added since the last clear. *)
Definition good (s : @state F) (l : list (call F)) : Prop :=
  the_graph s = build l /\
  (l = [] -> the_program s = None) /\
  (compiled s = true -> the_program s = program_of l).

Lemma good_compile : forall s l ok, good s l ->
  good (fst (compile s ok)) l /\
  (snd (compile s ok) = true -> the_program (fst (compile s ok)) = program_of l) /\
  (ok = true -> snd (compile s ok) = true).
Proof.
  intros s l ok (G & E & P). unfold compile.
  destruct (compiled s) eqn:C.
  - cbn. split; [split; [assumption|split; [assumption|intros; apply P; reflexivity]]|].
    split; [intros; apply P; reflexivity|reflexivity].
  - rewrite G. destruct (build_facts l) as (_ & L & _ & _).
    destruct l as [|c l].
    + cbn. split; [|split; [intros; apply E; reflexivity|reflexivity]].
      split; [reflexivity|split; [intros; apply E; reflexivity|intros; apply E; reflexivity]].
    + rewrite (proj2 (Nat.ltb_lt 1 _)) by (cbn [List.length] in L; lia).
      destruct ok; cbn.
      * split; [|split; reflexivity].
        split; [reflexivity|split; [discriminate|reflexivity]].
      * split; [split; [assumption|split; [assumption|rewrite C; discriminate]]|].
        split; discriminate.
Qed.

Lemma run_state : forall s im ok, fst (run s im ok) = fst (compile s ok).
Proof.
  intros. unfold run, FilterModel.run. destruct (compile s ok) as [s1 b].
  destruct b; [|reflexivity]. destruct (the_program s1); reflexivity.
Qed.

Lemma good_react : forall s l e, good s l -> good (react s e) (added_from l [e]).
Proof.
  intros s l e H. destruct e as [c| |ok|im ok]; cbn [added_from].
  - destruct H as (G & E & P). unfold react; cbn. split; [|split].
    + rewrite build_snoc, <- G. reflexivity.
    + intros X. apply app_eq_nil in X. destruct X; discriminate.
    + discriminate.
  - unfold react; cbn. split; [reflexivity|split; [reflexivity|discriminate]].
  - apply good_compile. exact H.
  - change (good (fst (run s im ok)) l). rewrite run_state. apply good_compile. exact H.
Qed.

Lemma added_from_cons : forall l e (h : list (@event F V)),
  added_from l (e :: h) = added_from (added_from l [e]) h.
Proof. intros. destruct e; reflexivity. Qed.

Lemma good_fold : forall h s l, good s l -> good (fold_left react h s) (added_from l h).
Proof.
  induction h as [|e h IH]; intros s l H; [exact H|].
  cbn [fold_left]. rewrite added_from_cons. apply IH. apply good_react. exact H.
Qed.

Lemma good_after : forall h, good (after h) (added h).
Proof.
  intros h. apply good_fold. split; [reflexivity|split; [reflexivity|discriminate]].
Qed.

Lemma fold_mul : forall l a, fold_left Z.mul l a = a * fold_right Z.mul 1 l.
Proof.
  induction l as [|x l IH]; intros a; cbn [fold_left fold_right]; [lia|].
  rewrite IH. lia.
Qed.

Lemma before_axes : forall sh,
  before sh = if (List.length sh =? 0)%nat then None else Some (four_axes sh).
Proof.
  intros sh. destruct sh as [|a [|b [|c [|d [|e r]]]]]; try reflexivity.
  - cbn. rewrite Z.mul_1_r. reflexivity.
  - unfold before. rewrite fold_mul.
    unfold four_axes. cbn [List.length firstn skipn app Nat.eqb].
    rewrite Z.mul_1_l. reflexivity.
Qed.

(** Running a filter whose program is up to date. *)
Lemma run_program : forall s l im ok,
  compiled s = true -> the_program s = program_of l ->
  snd (run s im ok) = pipeline recip sizes reshape constant layer l im.
Proof.
  intros s l im ok C P. unfold run, FilterModel.run, compile. rewrite C, P.
  destruct l as [|c l]; [reflexivity|].
  unfold program_of, pipeline. cbn [snd]. rewrite before_axes.
  destruct (List.length (sizes im) =? 0)%nat; [reflexivity|].
  destruct (reshape im (four_axes (sizes im))) as [x|]; [|reflexivity].
  cbn [results code]. rewrite build_outputs.
  destruct (build_facts (c :: l)) as (_ & _ & _ & W). apply W.
Qed.

Lemma run_good : forall s l im ok, good s l ->
  snd (run s im ok) =
  if snd (compile s ok) then pipeline recip sizes reshape constant layer l im else None.
Proof.
  intros s l im ok H.
  destruct (good_compile s l ok H) as (_ & P & _).
  unfold run, FilterModel.run. destruct (compile s ok) as [s1 b] eqn:E. cbn [fst snd] in P.
  cbn [snd]. destruct b; [|reflexivity]. specialize (P eq_refl).
  pose proof (run_program (State (the_graph s1) (the_program s1) true) l im ok eq_refl P) as R.
  unfold run, FilterModel.run, compile in R. cbn [compiled the_program] in R.
  rewrite P in R |- *. destruct (program_of l); exact R.
Qed.

End Proofs.
