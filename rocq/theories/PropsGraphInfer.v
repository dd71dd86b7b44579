(** Inference over a graph. *)
From Coq Require Import List Bool Arith Lia.
From Verif Require Import GraphInferModel GraphInferSpec.
Import ListNotations.

Section Proofs.
Context {Op P V : Type}.
Variable shape_infer : gnode Op V -> option (list P -> list (option V) -> option P * option V).
Variable operate : gnode Op V -> list V -> option V.
Variable g : list (gnode Op V).
Hypothesis A : acyclic g.
Variables (shape : nat -> option P) (val : nat -> option V).
Hypothesis M : meaning shape_infer operate g shape val.

Let state := istate P V.
Let infer := infer shape_infer operate g.

Record good (st : state) : Prop := {
  gd_cache : forall i p, lookup (cache st) i = Some p ->
    p = shape i /\ get_value g st i = val i /\
    (forall nd, nth_error g i = Some nd -> g_param nd = false -> lookup (marks st) i = Some (shape i)) /\
    (forall nd j, shape i <> None -> nth_error g i = Some nd -> In j (g_inputs nd) -> exists q, lookup (cache st) j = Some q);
  gd_value : forall i, get_value g st i = None \/ get_value g st i = val i;
  gd_calls : NoDup (calls st) /\ forall i, In i (calls st) -> exists p, lookup (cache st) i = Some p }.

Definition grow (b : nat) (st st' : state) : Prop :=
  (forall i p, lookup (cache st) i = Some p -> lookup (cache st') i = Some p) /\
  (forall i p, lookup (cache st') i = Some p -> lookup (cache st) i = Some p \/ i < b).

Lemma lookup_cons {X} (l : list (nat * X)) i x j : lookup ((i, x) :: l) j = if i =? j then Some x else lookup l j.
Proof. reflexivity. Qed.

Lemma get_set_other (st : state) i v j : j <> i -> get_value g (set_value i v st) j = get_value g st j.
Proof.
  intro N. unfold get_value, set_value. cbn [value]. destruct (nth_error g j) as [nd|]; [|reflexivity]. destruct (g_const nd); [reflexivity|].
  rewrite lookup_cons. destruct (Nat.eqb_spec i j); [congruence|reflexivity].
Qed.
Lemma get_set_same (st : state) i v nd : nth_error g i = Some nd -> g_const nd = None -> get_value g (set_value i v st) i = Some v.
Proof. intros E C. unfold get_value, set_value. cbn [value]. rewrite E, C, lookup_cons, Nat.eqb_refl. reflexivity. Qed.
Lemma get_const (st : state) i nd c : nth_error g i = Some nd -> g_const nd = Some c -> get_value g st i = Some c.
Proof. intros E C. unfold get_value. now rewrite E, C. Qed.

(** leaving node [i] *)
Lemma finish i nd st1 st p : nth_error g i = Some nd -> good st1 -> lookup (cache st1) i = None ->
  cache st = cache st1 -> marks st = marks st1 -> (calls st = calls st1 \/ calls st = i :: calls st1) ->
  (forall j, j <> i -> get_value g st j = get_value g st1 j) -> get_value g st i = val i ->
  p = shape i -> (p <> None -> forall j, In j (g_inputs nd) -> exists q, lookup (cache st1) j = Some q) ->
  let st' := snd (update_cache i nd p st) in good st' /\ grow (S i) st1 st' /\ lookup (cache st') i = Some (shape i).
Proof.
  intros E G Hi Ec Em Ek Ev Evi Ep Hin. cbn [update_cache snd]. set (st' := IState _ _ _ _).
  assert (V' : forall j, get_value g st' j = get_value g st j) by (intro j; reflexivity).
  destruct G as [G1 G2 [G3 G4]].
  assert (L : forall j q, lookup (cache st1) j = Some q -> lookup (cache st') j = Some q).
  { intros j q H. unfold st'. cbn [cache]. rewrite lookup_cons, Ec. destruct (Nat.eqb_spec i j); [congruence|exact H]. }
  assert (Li : lookup (cache st') i = Some p) by (unfold st'; cbn [cache]; now rewrite lookup_cons, Nat.eqb_refl).
  split; [|split; [|now rewrite Li, Ep]].
  - split.
    + intros j q H. destruct (Nat.eq_dec j i) as [->|N].
      * rewrite Li in H. injection H as <-. split; [exact Ep|]. split; [now rewrite V'|]. split.
        -- intros nd' E' Hp. rewrite E in E'. injection E' as <-. unfold st'. cbn [marks]. rewrite Hp, lookup_cons, Nat.eqb_refl. now rewrite Ep.
        -- intros nd' j Hs E' Hj. rewrite E in E'. injection E' as <-. destruct (Hin ltac:(congruence) j Hj) as (q & Hq). exists q. now apply L.
      * assert (H1 : lookup (cache st1) j = Some q).
        { unfold st' in H. cbn [cache] in H. rewrite lookup_cons, Ec in H. destruct (Nat.eqb_spec i j); [congruence|exact H]. }
        destruct (G1 j q H1) as (B1 & B2 & B3 & B4). split; [exact B1|]. split; [now rewrite V', Ev|]. split.
        -- intros nd' E' Hp. unfold st'. cbn [marks]. rewrite Em. destruct (g_param nd); [now apply (B3 nd')|].
           rewrite lookup_cons. destruct (Nat.eqb_spec i j); [congruence|]. now apply (B3 nd').
        -- intros nd' k Hs E' Hk. destruct (B4 nd' k Hs E' Hk) as (r & Hr). exists r. now apply L.
    + intro j. rewrite V'. destruct (Nat.eq_dec j i) as [->|N]; [now right|]. rewrite Ev by exact N. apply G2.
    + unfold st'. cbn [calls]. assert (Ni : ~ In i (calls st1)) by (intro X; destruct (G4 i X) as (q & Hq); congruence).
      destruct Ek as [->| ->].
      * split; [exact G3|]. intros j Hj. destruct (G4 j Hj) as (q & Hq). exists q. now apply L.
      * split; [now constructor|]. intros j [<-|Hj]; [eexists; exact Li|]. destruct (G4 j Hj) as (q & Hq). exists q. now apply L.
  - split; [exact L|]. intros j q H. unfold st' in H. cbn [cache] in H. rewrite lookup_cons, Ec in H.
    destruct (Nat.eqb_spec i j); [right; lia|now left].
Qed.

Lemma inputs_ok fuel b : (forall j st, j < b -> good st -> exists st', infer fuel j st = Some (shape j, st') /\ good st' /\ grow (S j) st st' /\ lookup (cache st') j = Some (shape j)) ->
  forall l, (forall j, In j l -> j < b) -> forall st, good st -> exists st', infer_inputs (infer fuel) l st = Some (all_some (map shape l), st') /\ good st' /\ grow b st st' /\
    (all_some (map shape l) <> None -> forall j, In j l -> exists q, lookup (cache st') j = Some q).
Proof.
  intros IH. induction l as [|j l IHl]; intros Hl st G.
  - exists st. split; [reflexivity|]. split; [exact G|]. split; [split; auto|]. intros _ j [].
  - destruct (IH j st (Hl j (or_introl eq_refl)) G) as (st1 & E1 & G1 & [K1 K1'] & C1). cbn [infer_inputs map all_some]. rewrite E1.
    pose proof (Hl j (or_introl eq_refl)) as Hj.
    destruct (shape j) as [p|] eqn:Sj.
    + destruct (IHl (fun k Hk => Hl k (or_intror Hk)) st1 G1) as (st2 & E2 & G2 & [K2 K2'] & C2). rewrite E2.
      destruct (all_some (map shape l)) as [ps|] eqn:Es.
      * exists st2. split; [reflexivity|]. split; [exact G2|]. split.
        -- split; [auto|]. intros k q H. destruct (K2' k q H) as [H'|H']; [|now right]. destruct (K1' k q H') as [H''|H'']; [now left|right; lia].
        -- intros _ k [<-|Hk]; [eexists; apply K2; exact C1|]. apply C2; [discriminate|exact Hk].
      * exists st2. split; [reflexivity|]. split; [exact G2|]. split.
        -- split; [auto|]. intros k q H. destruct (K2' k q H) as [H'|H']; [|now right]. destruct (K1' k q H') as [H''|H'']; [now left|right; lia].
        -- intros X. contradiction.
    + exists st1. split; [reflexivity|]. split; [exact G1|]. split.
      * split; [exact K1|]. intros k q H. destruct (K1' k q H) as [H'|H']; [now left|right; lia].
      * intros X. contradiction.
Qed.

Lemma infer_ok fuel : forall i st, i < fuel -> i < length g -> good st ->
  exists st', infer fuel i st = Some (shape i, st') /\ good st' /\ grow (S i) st st' /\ lookup (cache st') i = Some (shape i).
Proof.
  induction fuel as [|fuel IH]; intros i st Hf Hi G; [lia|]. unfold infer. cbn [GraphInferModel.infer]. fold infer.
  destruct (lookup (cache st) i) as [p|] eqn:Ec.
  { destruct (gd_cache _ G i p Ec) as (-> & _). exists st. split; [reflexivity|]. split; [exact G|]. split; [split; auto|exact Ec]. }
  destruct (nth_error g i) as [nd|] eqn:En; [|apply nth_error_None in En; lia].
  destruct (inputs_ok fuel i) with (l := g_inputs nd) (st := st) as (st1 & E1 & G1 & [K1 K1'] & C1).
  { intros j st0 Hj G0. apply IH; [lia|lia|exact G0]. }
  { intros j Hj. exact (A i nd j En Hj). }
  { exact G. }
  change (GraphInferModel.infer shape_infer operate g fuel) with (infer fuel). rewrite E1.
  assert (N1 : lookup (cache st1) i = None).
  { destruct (lookup (cache st1) i) as [q|] eqn:X; [|reflexivity]. destruct (K1' i q X) as [H|H]; [congruence|lia]. }
  destruct (M i nd En) as [Ms Mv]. cbv zeta in Ms, Mv.
  (* what remains is to go through [finish] *)
  assert (Fin : forall st2 p, cache st2 = cache st1 -> marks st2 = marks st1 -> (calls st2 = calls st1 \/ calls st2 = i :: calls st1) ->
    (forall j, j <> i -> get_value g st2 j = get_value g st1 j) -> get_value g st2 i = val i -> p = shape i ->
    (p <> None -> all_some (map shape (g_inputs nd)) <> None) ->
    exists st', Some (update_cache i nd p st2) = Some (shape i, st') /\ good st' /\ grow (S i) st st' /\ lookup (cache st') i = Some (shape i)).
  { intros st2 p F1 F2 F3 F4 F5 F6 F7. exists (snd (update_cache i nd p st2)).
    destruct (finish i nd st1 st2 p En G1 N1 F1 F2 F3 F4 F5 F6 (fun X => C1 (F7 X))) as (B1 & [B2 B2'] & B3).
    split; [now rewrite <- F6|]. split; [exact B1|]. split; [|exact B3]. split; [auto|].
    intros k q H. destruct (B2' k q H) as [H'|H']; [|now right]. destruct (K1' k q H') as [H''|H'']; [now left|right; lia]. }
  (* a value that was not set *)
  assert (Keep : forall st2 : state, value st2 = value st1 -> (forall v, val i = Some v -> g_const nd = Some v) -> get_value g st2 i = val i).
  { intros st2 Ev Hv. destruct (g_const nd) as [c|] eqn:Cn; [rewrite (get_const st2 i nd c En Cn), Mv; reflexivity|].
    destruct (val i) as [v|] eqn:Vi; [discriminate (Hv v eq_refl)|].
    assert (X : get_value g st2 i = get_value g st1 i) by (unfold get_value; now rewrite En, Cn, Ev). rewrite X.
    destruct (gd_value _ G1 i) as [Y|Y]; rewrite Y; [reflexivity|exact Vi]. }
  assert (Same : forall st2 : state, value st2 = value st1 -> forall j, get_value g st2 j = get_value g st1 j).
  { intros st2 Ev j. unfold get_value. now rewrite Ev. }
  destruct (all_some (map shape (g_inputs nd))) as [ps|] eqn:Ea; cbn [fst snd] in Ms, Mv.
  2: { apply Fin; auto; try discriminate. apply Keep; [reflexivity|]. intros v Hv. rewrite Mv in Hv. destruct (g_const nd); [exact Hv|discriminate]. }
  destruct (shape_infer nd) as [f|] eqn:Ef; cbn [fst snd] in Ms, Mv.
  2: { apply Fin; auto; try discriminate. apply Keep; [reflexivity|]. intros v Hv. rewrite Mv in Hv. destruct (g_const nd); [exact Hv|discriminate]. }
  assert (Ein : map (get_value g st1) (g_inputs nd) = map val (g_inputs nd)).
  { apply map_ext_in. intros j Hj. destruct (C1 ltac:(discriminate) j Hj) as (q & Hq). destruct (gd_cache _ G1 j q Hq) as (_ & X & _). exact X. }
  rewrite Ein. destruct (f ps (map val (g_inputs nd))) as [p nv]. cbn [fst snd] in Ms, Mv.
  set (st2 := IState (cache st1) (value st1) (marks st1) (i :: calls st1)).
  destruct nv as [v|].
  - (* the inference set a value *)
    assert (Gv : forall j, j <> i -> get_value g (set_value i v st2) j = get_value g st1 j).
    { intros j N. rewrite get_set_other by exact N. now apply Same. }
    assert (Gi : get_value g (set_value i v st2) i = val i).
    { destruct (g_const nd) as [c|] eqn:Cn; [rewrite (get_const _ i nd c En Cn), Mv; reflexivity|]. rewrite (get_set_same _ i v nd En Cn), Mv. reflexivity. }
    destruct p as [p|].
    + destruct (g_const nd) as [c|] eqn:Cn; [|apply Fin; auto; try discriminate].
      assert (Cv : forall w, get_value g (set_value i w (set_value i v st2)) i = val i) by (intro w; rewrite (get_const _ i nd c En Cn), Mv; reflexivity).
      unfold infer_value. destruct (g_endpoint nd); [apply Fin; auto; try discriminate|].
      destruct (all_some (map (get_value g (set_value i v st2)) (g_inputs nd))) as [vs|]; [|apply Fin; auto; try discriminate].
      destruct (operate nd vs) as [w|]; [|apply Fin; auto; try discriminate].
      apply Fin; auto; try discriminate. intros j N. rewrite get_set_other by exact N. now apply Gv.
    + apply Fin; auto; try discriminate.
  - destruct p as [p|].
    2: { apply Fin; auto; try discriminate. apply Keep; [reflexivity|]. intros v Hv. rewrite Mv in Hv. destruct (g_const nd); [exact Hv|discriminate]. }
    cbn [fst snd] in Mv.
    assert (Ein2 : map (get_value g st2) (g_inputs nd) = map val (g_inputs nd)).
    { rewrite <- Ein. apply map_ext. intro j. now apply Same. }
    unfold infer_value. rewrite Ein2.
    destruct (g_endpoint nd) eqn:Ee.
    { apply Fin; auto; try discriminate. apply Keep; [reflexivity|]. intros v Hv. rewrite Mv in Hv. destruct (g_const nd); [exact Hv|]. destruct (all_some (map val (g_inputs nd))); discriminate. }
    destruct (all_some (map val (g_inputs nd))) as [vs|].
    2: { apply Fin; auto; try discriminate. apply Keep; [reflexivity|]. intros v Hv. rewrite Mv in Hv. destruct (g_const nd); [exact Hv|discriminate]. }
    destruct (operate nd vs) as [w|] eqn:Eo.
    2: { apply Fin; auto; try discriminate. apply Keep; [reflexivity|]. intros v Hv. rewrite Mv in Hv. destruct (g_const nd); [exact Hv|discriminate]. }
    apply Fin; auto; try discriminate.
    + intros j N. rewrite get_set_other by exact N. now apply Same.
    + destruct (g_const nd) as [c|] eqn:Cn; [rewrite (get_const _ i nd c En Cn), Mv; reflexivity|]. rewrite (get_set_same _ i w nd En Cn), Mv. reflexivity.
Qed.

(** C153.  Inference of any nodes of an acyclic graph, with values that are
    missing or right: finds the meaning, calls every shape inference at most
    once, and leaves shapes and values on the nodes. *)
Theorem C153_infer_partial roots st :
  (forall i, In i roots -> i < length g) -> cache st = [] -> calls st = [] ->
  (forall i, get_value g st i = None \/ get_value g st i = val i) ->
  exists st', infer_nodes shape_infer operate g (length g) roots st = Some (map shape roots, st') /\
    NoDup (calls st') /\
    let visited i := exists p, lookup (cache st') i = Some p in
    (forall i, In i roots -> visited i) /\
    (forall i nd j, visited i -> shape i <> None -> nth_error g i = Some nd -> In j (g_inputs nd) -> visited j) /\
    (forall i, visited i -> get_value g st' i = val i) /\
    (forall i nd, visited i -> nth_error g i = Some nd -> g_param nd = false -> lookup (marks st') i = Some (shape i)).
Proof.
  intros Hr Hc Hk Hv.
  assert (G : good st).
  { split.
    - intros i p H. rewrite Hc in H. discriminate.
    - exact Hv.
    - rewrite Hk. split; [constructor|intros i []]. }
  assert (R : forall l st, (forall i, In i l -> i < length g) -> good st -> exists st', infer_nodes shape_infer operate g (length g) l st = Some (map shape l, st') /\
     good st' /\ (forall i p, lookup (cache st) i = Some p -> lookup (cache st') i = Some p) /\ forall i, In i l -> exists p, lookup (cache st') i = Some p).
  { clear Hr Hc Hk Hv G st roots. induction l as [|i l IH]; intros st Hl G.
    - exists st. split; [reflexivity|]. split; [exact G|]. split; [auto|intros i []].
    - pose proof (Hl i (or_introl eq_refl)) as Hi. destruct (infer_ok (length g) i st Hi Hi G) as (st1 & E1 & G1 & [K1 _] & C1).
      destruct (IH st1 (fun j Hj => Hl j (or_intror Hj)) G1) as (st2 & E2 & G2 & K2 & C2).
      exists st2. cbn [infer_nodes map]. unfold infer in E1. rewrite E1, E2. split; [reflexivity|]. split; [exact G2|]. split; [auto|].
      intros j [<-|Hj]; [eexists; apply K2; exact C1|now apply C2]. }
  destruct (R roots st Hr G) as (st' & E & G' & _ & C). exists st'. split; [exact E|]. split; [exact (proj1 (gd_calls _ G'))|]. cbv zeta.
  split; [exact C|]. split; [|split].
  - intros i nd j [p Hp] Hs Hn Hj. destruct (gd_cache _ G' i p Hp) as (_ & _ & _ & X). exact (X nd j Hs Hn Hj).
  - intros i [p Hp]. destruct (gd_cache _ G' i p Hp) as (_ & X & _). exact X.
  - intros i nd [p Hp] Hn Hq. destruct (gd_cache _ G' i p Hp) as (_ & _ & X & _). exact (X nd Hn Hq).
Qed.
End Proofs.
Print Assumptions C153_infer_partial.

(** *** Every acyclic graph has exactly one meaning *)
Section Exists.
Context {Op P V : Type}.
Variable shape_infer : gnode Op V -> option (list P -> list (option V) -> option P * option V).
Variable operate : gnode Op V -> list V -> option V.
Variable g : list (gnode Op V).
Hypothesis A : acyclic g.

Definition node_meaning (nd : gnode Op V) (shapes : list (option P)) (vals : list (option V)) : option P * option V :=
  let found := match all_some shapes with None => (None, None) | Some ps => match shape_infer nd with None => (None, None) | Some f => f ps vals end end in
  (fst found, match g_const nd with Some c => Some c | None => match snd found with Some v => Some v | None =>
    match fst found, all_some vals with Some _, Some vs => if g_endpoint nd then None else operate nd vs | _, _ => None end end end).

Fixpoint denote (fuel i : nat) : option P * option V :=
  match fuel with
  | O => (None, None)
  | S fuel' => match nth_error g i with None => (None, None)
      | Some nd => node_meaning nd (map (fun j => fst (denote fuel' j)) (g_inputs nd)) (map (fun j => snd (denote fuel' j)) (g_inputs nd)) end
  end.

Lemma denote_enough : forall f i, i < f -> denote f i = denote (S i) i.
Proof.
  enough (H : forall n f f' i, i < n -> i < f -> i < f' -> denote f i = denote f' i) by (intros f i Hi; apply (H (S i)); lia).
  induction n as [|n IH]; intros f f' i Hn Hf Hf'; [lia|]. destruct f as [|f]; [lia|]. destruct f' as [|f']; [lia|]. cbn [denote].
  destruct (nth_error g i) as [nd|] eqn:E; [|reflexivity].
  f_equal; apply map_ext_in; intros j Hj; pose proof (A i nd j E Hj); now rewrite (IH f f' j) by lia.
Qed.

Theorem C153_meaning_exists : exists shape val, meaning shape_infer operate g shape val.
Proof.
  exists (fun i => fst (denote (S i) i)), (fun i => snd (denote (S i) i)). intros i nd E. cbv zeta. cbn [denote]. rewrite E.
  assert (E1 : map (fun j => fst (denote i j)) (g_inputs nd) = map (fun j => fst (denote (S j) j)) (g_inputs nd)).
  { apply map_ext_in. intros j Hj. now rewrite denote_enough by exact (A i nd j E Hj). }
  assert (E2 : map (fun j => snd (denote i j)) (g_inputs nd) = map (fun j => snd (denote (S j) j)) (g_inputs nd)).
  { apply map_ext_in. intros j Hj. now rewrite denote_enough by exact (A i nd j E Hj). }
  rewrite E1, E2. split; reflexivity.
Qed.

Theorem C153_meaning_unique s v s' v' : meaning shape_infer operate g s v -> meaning shape_infer operate g s' v' ->
  forall i, i < length g -> s i = s' i /\ v i = v' i.
Proof.
  intros H H'. enough (X : forall n i, i < n -> i < length g -> s i = s' i /\ v i = v' i) by (intros i Hi; apply (X (S i)); lia).
  induction n as [|n IH]; intros i Hn Hi; [lia|]. destruct (nth_error g i) as [nd|] eqn:E; [|apply nth_error_None in E; lia].
  destruct (H i nd E) as [E1 E2]. destruct (H' i nd E) as [E1' E2']. cbv zeta in *.
  assert (S1 : map s (g_inputs nd) = map s' (g_inputs nd)) by (apply map_ext_in; intros j Hj; pose proof (A i nd j E Hj); apply IH; lia).
  assert (S2 : map v (g_inputs nd) = map v' (g_inputs nd)) by (apply map_ext_in; intros j Hj; pose proof (A i nd j E Hj); apply IH; lia).
  rewrite S1, S2 in *. split; congruence.
Qed.
End Exists.
Print Assumptions C153_meaning_exists.
Print Assumptions C153_meaning_unique.

(** *** Stale values *)
(** operators: 0 parameter, 1 constant, 2 adds one; a shape is a number *)
Definition ex_infer (nd : gnode nat nat) : option (list nat -> list (option nat) -> option nat * option nat) :=
  match g_op nd with
  | 0 | 1 => Some (fun _ _ => (Some 1, None))
  | 2 => Some (fun ps _ => (Some (hd 0 ps), None))
  | _ => None
  end.
Definition ex_operate (nd : gnode nat nat) (vs : list nat) : option nat := match vs with [v] => Some (S v) | _ => None end.
Definition param : gnode nat nat := GNode 0 [] None true true.
Definition const (v : nat) : gnode nat nat := GNode 1 [] (Some v) true false.
Definition inc (i : nat) : gnode nat nat := GNode 2 [i] None false false.

(** shared constants: 5 is known to become 7 *)
Example C153_example :
  match infer_nodes ex_infer ex_operate [param; const 5; inc 1; inc 2; inc 0] 5 [3; 4; 3] (IState [] [] [] []) with
  | Some (ps, st) => ps = [Some 1; Some 1; Some 1] /\ lookup (value st) 3 = Some 7 /\ lookup (value st) 4 = None /\ calls st = [4; 0; 3; 2; 1]
  | None => False
  end.
Proof. vm_compute. auto. Qed.

(** A node whose input was a constant and is now a parameter keeps the value
    it was given: inference reports a value the graph does not determine. *)
Theorem C153_stale_refuted : exists st st',
  infer_nodes ex_infer ex_operate [param; const 5; inc 1] 3 [2] (IState [] [] [] []) = Some ([Some 1], st) /\
  infer_nodes ex_infer ex_operate [param; const 5; inc 0] 3 [2] (IState [] (value st) (marks st) []) = Some ([Some 1], st') /\
  get_value [param; const 5; inc 0] st' 2 = Some 6 /\
  forall shape val, meaning ex_infer ex_operate [param; const 5; inc 0] shape val -> val 2 = None.
Proof.
  eexists _, _. split; [vm_compute; reflexivity|]. split; [vm_compute; reflexivity|]. split; [vm_compute; reflexivity|].
  intros shape val M. destruct (M 0 _ eq_refl) as [_ V0]. cbn in V0. destruct (M 2 _ eq_refl) as [_ V2]. cbn in V2. rewrite V0 in V2. cbn in V2.
  destruct (shape 0); cbn in V2; exact V2.
Qed.
Print Assumptions C153_stale_refuted.
