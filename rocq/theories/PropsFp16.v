(** C86: what the half precision pass puts between an operator and its inputs. *)
From Coq Require Import List ZArith Bool Lia Arith.
From Verif Require Import StackModel GraphSpec GraphModel CompilerSpec TransModel TransRulesModel.
Import ListNotations.

Section Half.
Context {V Opr : Type}.
Variable half : Opr -> bool.
Variable cast_to : Opr -> option Z.
Variable is_to_float : Opr -> bool.
Variable mk_cast : Z -> Opr.
Variable dtype : V -> Z.

(** a node whose value is taken to be in half precision: a cast to FLOAT16 (9), an
    operator run in half precision, a constant of that type *)
Definition in_half (k : nkind V Opr) : bool :=
  match k with
  | KOp o => half o && match cast_to o with Some d => Z.eqb d 9 | None => true end
  | KConst v => Z.eqb (dtype v) 9
  | _ => false
  end.
(** a constant that is not a floating number (9, 10, 11) *)
Definition not_float (k : nkind V Opr) : bool :=
  match k with KConst v => negb (existsb (Z.eqb (dtype v)) [9; 10; 11]%Z) | _ => false end.

Lemma stream_is k ok : stream half cast_to dtype k ok = (in_half k, ok && negb (not_float k)).
Proof.
  destruct k as [|v| |o|p|]; cbn [stream in_half not_float negb]; rewrite ?andb_true_r; try reflexivity.
  - cbn [existsb]. unfold FLOAT16, FLOAT32, FLOAT64. rewrite orb_false_r, negb_involutive, orb_assoc. reflexivity.
  - destruct (cast_to o); [|now rewrite andb_true_r]. now rewrite andb_comm.
Qed.

Definition mixed (g : graph V Opr) (l : list node) : bool := existsb (fun m => not_float (kind g m)) l.
Definition is_cast (g : graph V Opr) (x : node) (d : Z) (i : node) : Prop := kind g x = KOp (mk_cast d) /\ ins g x = [i].
Definition wanted (g g' : graph V Opr) (self ok : bool) (l : list node) (j i x : nat) : Prop :=
  let h := in_half (kind g i) in
  if negb h && self && ok && negb (mixed g (firstn (A:=node) (S j) l)) then is_cast g' x 9 i
  else if h && negb self then is_cast g' x 10 i
  else x = i.
Definition grown (s s' : gstate V Opr) : Prop :=
  gn s <= gn s' /\ forall m, m < gn s -> kind (gg s') m = kind (gg s) m /\ ins (gg s') m = ins (gg s) m.
Lemma grown_trans a b c : grown a b -> grown b c -> grown a c.
Proof. intros [A1 A2] [B1 B2]. split; [lia|]. intros m Hm. destruct (A2 m Hm) as [<- <-]. apply B2. lia. Qed.
Lemma grown_new s k is : grown s (gnew s k is).
Proof. split; cbn [gnew gn gg kind ins]; [lia|]. intros m Hm. destruct (Nat.eqb_spec m (gn s)); [lia|auto]. Qed.

Lemma inputs_spec self : forall l s ok xs s1 (Hl : forall i, In i l -> i < gn s),
  fp16_inputs half cast_to mk_cast dtype self l s ok = (xs, s1) ->
  grown s s1 /\ List.length xs = List.length l /\
  forall (j : nat) (i : node), nth_error l j = Some i -> exists x, nth_error xs j = Some x /\ x < gn s1 /\ wanted (gg s) (gg s1) self ok l j i x.
Proof.
  induction l as [|i l IH]; intros s ok xs s1 Hl E; cbn [fp16_inputs] in E.
  - injection E as <- <-. split; [split; auto|]. split; [reflexivity|]. intros [|j] i; discriminate.
  - rewrite stream_is in E. set (h := in_half (kind (gg s) i)) in *. set (ok1 := ok && negb (not_float (kind (gg s) i))) in *.
    match type of E with (let '(_, _) := ?p in _) = _ => destruct p as [x s0] eqn:EP end.
    destruct (fp16_inputs half cast_to mk_cast dtype self l s0 ok1) as [xs' s2] eqn:EI. injection E as <- <-.
    assert (Hi : i < gn s) by (apply Hl; now left).
    assert (G : grown s s0 /\ x < gn s0 /\ (if negb h && self && ok1 then is_cast (gg s0) x 9 i else if h && negb self then is_cast (gg s0) x 10 i else x = i)).
    { destruct (negb h && self && ok1); [|destruct (h && negb self)]; injection EP as <- <-.
      - split; [apply grown_new|]. cbn [gnew gn]. split; [lia|]. unfold is_cast. cbn [gnew gg kind ins]. rewrite Nat.eqb_refl. auto.
      - split; [apply grown_new|]. cbn [gnew gn]. split; [lia|]. unfold is_cast. cbn [gnew gg kind ins]. rewrite Nat.eqb_refl. auto.
      - split; [split; auto|]. auto. }
    destruct G as (G1 & G2 & G3).
    destruct (IH s0 ok1 xs' s2) as (I1 & I2 & I3); [intros m Hm; destruct G1 as [G1 _]; specialize (Hl m (or_intror Hm)); lia|exact EI|].
    split; [eapply grown_trans; eauto|]. split; [cbn; congruence|].
    assert (Old : forall m, In m l -> kind (gg s0) m = kind (gg s) m) by (intros m Hm; apply G1, Hl; now right).
    intros [|j] k Hk; cbn [nth_error] in Hk.
    + injection Hk as <-. exists x. split; [reflexivity|]. split; [destruct I1; lia|]. unfold wanted, mixed. cbn [firstn existsb]. fold h. rewrite orb_false_r, <- andb_assoc. fold ok1.
      destruct I1 as [_ I1]. destruct (I1 x G2) as [K1 K2]. destruct (negb h && self && ok1); [|destruct (h && negb self)]; unfold is_cast in *; rewrite ?K1, ?K2; exact G3.
    + destruct (I3 j k Hk) as (y & Y1 & Y2 & Y3). exists y. split; [exact Y1|]. split; [exact Y2|].
      assert (Ek : kind (gg s0) k = kind (gg s) k) by (apply Old; eapply nth_error_In; eauto).
      unfold wanted in *. cbn zeta in *. rewrite Ek in Y3.
      assert (Ee : mixed (gg s0) (firstn (A:=node) (S j) l) = mixed (gg s) (firstn (A:=node) (S j) l)).
      { clear -Old. revert Old. generalize (S j) as n. unfold mixed. intros n. revert l. induction n as [|n IHn]; intros [|a l] Old; cbn [firstn mixed existsb]; auto.
        rewrite Old by now left. rewrite (IHn l) by (intros m Hm; apply Old; now right). reflexivity. }
      rewrite Ee in Y3. change (mixed (gg s) (firstn (S (S j)) (i :: l))) with (not_float (kind (gg s) i) || mixed (gg s) (firstn (A:=node) (S j) l)). rewrite negb_orb.
      replace (negb (in_half (kind (gg s) k)) && self && ok && (negb (not_float (kind (gg s) i)) && negb (mixed (gg s) (firstn (A:=node) (S j) l))))
        with (negb (in_half (kind (gg s) k)) && self && ok1 && negb (mixed (gg s) (firstn (A:=node) (S j) l))); [exact Y3|].
      unfold ok1. now rewrite !andb_assoc.
Qed.

(** Whatever the graph, an operator (not a cast, not an output run in half precision)
    is copied, and each of its inputs is the old one, or a new cast on it: to half
    precision if the operator runs in half precision, the input is not in it and no
    constant up to it is something else than a floating number; to 32 bits if the
    input is in half precision and the operator does not run in it.  Nothing that was
    there changes. *)
Theorem C86_inputs s n op flag ap c s' :
  kind (gg s) n = KOp op -> cast_to op = None -> is_to_float op = false -> flag && half op = false ->
  n < gn s -> (forall i, In i (ins (gg s) n) -> i < gn s) ->
  fp16_rule half cast_to is_to_float mk_cast dtype s n flag = (ap, c, s') ->
  ap = true /\ (forall m, m < gn s -> kind (gg s') m = kind (gg s) m /\ ins (gg s') m = ins (gg s) m) /\
  exists t, c = Some t /\ gn s <= t /\ kind (gg s') t = KOp op /\ List.length (ins (gg s') t) = List.length (ins (gg s) n) /\
    forall j i, nth_error (ins (gg s) n) j = Some i -> exists x, nth_error (ins (gg s') t) j = Some x /\
      let h := in_half (kind (gg s) i) in
      if negb h && half op && negb (mixed (gg s) (firstn (A:=node) (S j) (ins (gg s) n))) then is_cast (gg s') x 9 i
      else if h && negb (half op) then is_cast (gg s') x 10 i
      else x = i.
Proof.
  intros K C F H Hn Hi E. unfold fp16_rule in E. rewrite K, C, F, H in E. unfold fp16_op in E.
  destruct (fp16_inputs half cast_to mk_cast dtype (half op) (ins (gg s) n) s true) as [xs s1] eqn:EI. injection E as <- <- <-.
  destruct (inputs_spec (half op) _ s true xs s1 Hi EI) as (G & L & W). destruct G as [G1 G2].
  split; [reflexivity|]. split.
  { intros m Hm. destruct (G2 m Hm) as [<- <-]. apply grown_new. lia. }
  exists (gn s1). cbn [gnew gg kind ins]. rewrite Nat.eqb_refl. split; [reflexivity|]. split; [exact G1|]. split; [rewrite (proj1 (G2 n Hn)); exact K|]. split; [exact L|].
  intros j i Hj. destruct (W j i Hj) as (x & X1 & X2 & X3). exists x. split; [exact X1|]. unfold wanted in X3. cbn zeta in *. rewrite andb_true_r in X3.
  assert (B : Nat.eqb x (gn s1) = false) by (apply Nat.eqb_neq; lia).
  destruct (_ && negb (mixed _ _)); [|destruct (_ && negb (half op))]; unfold is_cast in *; cbn [kind ins]; rewrite ?B; exact X3.
Qed.
End Half.
Print Assumptions C86_inputs.

(** an operator in half precision on a parameter, an integer constant and the
    parameter again: only what comes before the constant is cast *)
Example C86_inputs_example :
  let g : graph (Z * Z) (option Z) := {| kind := fun n => match n with 0 => KParam | 1 => KConst (5, 7)%Z | 2 => KOp None | _ => KVariable end;
            ins := fun n => match n with 2 => [0; 1; 0] | _ => [] end |} in
  let '(_, c, s') := fp16_rule (fun _ => true) (fun o => o) (fun _ => false) (fun d => Some d) fst (mkG g 3) 2 false in
  c = Some 4 /\ ins (gg s') 4 = [3; 1; 0] /\ kind (gg s') 3 = KOp (Some 9%Z) /\ ins (gg s') 3 = [0].
Proof. vm_compute. auto. Qed.
