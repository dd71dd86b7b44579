From Coq Require Import List Bool Arith Lia.
From Verif Require Import CtxModel CtxSpec.
Import ListNotations.

Fixpoint trun (t : thread) (l : list act) : option (list seen * thread) :=
  match l with
  | [] => Some ([], t)
  | a :: r => match act1 t a with
              | None => None
              | Some (s, t1) => match trun t1 r with
                                | None => None
                                | Some (ss, t2) => Some (s :: ss, t2)
                                end
              end
  end.

Lemma trun_app l1 l2 t s1 t1 : trun t l1 = Some (s1, t1) ->
  trun t (l1 ++ l2) = match trun t1 l2 with Some (s2, t2) => Some (s1 ++ s2, t2) | None => None end.
Proof.
  revert t s1 t1. induction l1 as [|a l1 IH]; intros t s1 t1 H; cbn [trun app] in *.
  - injection H as <- <-. destruct (trun t l2) as [[? ?]|]; reflexivity.
  - destruct (act1 t a) as [[s t']|]; [|discriminate]. destruct (trun t' l1) as [[ss t2]|] eqn:E; [|discriminate].
    injection H as <- <-. rewrite (IH _ _ _ E). destruct (trun t2 l2) as [[? ?]|]; reflexivity.
Qed.

Section Ind.
Variable P : stmt -> Prop.
Hypothesis HS : forall c b, Forall P b -> P (Scope c b).
Hypothesis HA : forall c, P (Assign c).
Hypothesis HP : P ReadPtr.
Hypothesis HR : P ReadRef.
Fixpoint stmt_ind' (s : stmt) : P s :=
  match s with
  | Scope c b => HS c b ((fix all b := match b return Forall P b with
                                       | [] => Forall_nil P
                                       | s :: r => Forall_cons s (stmt_ind' s) (all r)
                                       end) b)
  | Assign c => HA c
  | ReadPtr => HP
  | ReadRef => HR
  end.
End Ind.

Definition final (env : ctx) (p : list stmt) : ctx := fold_left after p env.

Lemma sees_scope env c b : sees env (Scope c b) = reads c b.
Proof.
  cbn [sees]. generalize c as e. induction b as [|s b IH]; intros e; [reflexivity|]. cbn [reads]. now rewrite IH.
Qed.

Definition runs_as (s : stmt) : Prop := forall env bs, exists ss,
  trun (mkThread env bs) (acts s) = Some (ss, mkThread (after env s) bs) /\ filter is_read ss = sees env s.

Lemma program_runs p : Forall runs_as p -> forall env bs, exists ss,
  trun (mkThread env bs) (program p) = Some (ss, mkThread (final env p) bs) /\ filter is_read ss = reads env p.
Proof.
  induction 1 as [|s p Hs Hp IH]; intros env bs.
  - exists []. split; reflexivity.
  - destruct (Hs env bs) as (s1 & E1 & R1). destruct (IH (after env s) bs) as (s2 & E2 & R2).
    exists (s1 ++ s2). unfold program. cbn [map concat]. rewrite (trun_app _ _ _ _ _ E1).
    unfold program in E2. rewrite E2. split; [reflexivity|]. rewrite filter_app, R1, R2. reflexivity.
Qed.
Lemma stmt_runs s : runs_as s.
Proof.
  induction s as [c b H|c| |] using stmt_ind'; intros env bs.
  - destruct (program_runs b H c (env :: bs)) as (ss & E & R).
    exists (Nothing :: ss ++ [Nothing]). cbn [acts trun act1 slot binds]. rewrite (trun_app _ _ _ _ _ E).
    cbn [trun act1 binds]. split; [reflexivity|]. cbn [filter is_read]. rewrite filter_app, R. cbn [filter is_read].
    now rewrite app_nil_r, sees_scope.
  - exists [Nothing]. split; reflexivity.
  - exists [Pointer env]. split; reflexivity.
  - exists [match env with Some n => Object n | None => NoContext end]. split; [reflexivity|]. destruct env; reflexivity.
Qed.
Lemma program_ok p env bs : exists ss,
  trun (mkThread env bs) (program p) = Some (ss, mkThread (final env p) bs) /\ filter is_read ss = reads env p.
Proof. apply program_runs. apply Forall_forall. intros s _. apply stmt_runs. Qed.

Lemma of_thread_cons {A} i j (a : A) l : of_thread i ((j, a) :: l) = if j =? i then a :: of_thread i l else of_thread i l.
Proof. unfold of_thread. cbn [filter fst]. destruct (j =? i); reflexivity. Qed.

Lemma exec_threads : forall l ts, (forall i, trun (ts i) (of_thread i l) <> None) ->
  exists rs ts', exec ts l = Some (rs, ts') /\ forall i, trun (ts i) (of_thread i l) = Some (of_thread i rs, ts' i).
Proof.
  induction l as [|[j a] l IH]; intros ts H; [exists [], ts; split; [reflexivity|intros; reflexivity]|].
  cbn [exec]. pose proof (H j) as Hj. rewrite of_thread_cons, Nat.eqb_refl in Hj. cbn [trun] in Hj.
  destruct (act1 (ts j) a) as [[s t]|] eqn:Ea; [|contradiction].
  destruct (IH (upd ts j t)) as (rs & ts' & E & R).
  - intros i. unfold upd. destruct (Nat.eqb_spec i j) as [->|Hij].
    + intros C. rewrite C in Hj. now apply Hj.
    + specialize (H i). rewrite of_thread_cons in H. rewrite (proj2 (Nat.eqb_neq j i)) in H by congruence. exact H.
  - rewrite E. exists ((j, s) :: rs), ts'. split; [reflexivity|]. intros i. specialize (R i). rewrite !of_thread_cons.
    unfold upd in R. destruct (Nat.eq_dec j i) as [e|Hij].
    + subst i. rewrite Nat.eqb_refl in *. cbn [trun]. rewrite Ea, R. reflexivity.
    + rewrite (proj2 (Nat.eqb_neq j i)) by exact Hij. rewrite (proj2 (Nat.eqb_neq i j)) in R by congruence. exact R.
Qed.
