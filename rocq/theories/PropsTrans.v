(** Properties C31 and C86: the rewriting passes before compilation. *)
From Coq Require Import List ZArith Bool Lia Arith.
From Verif Require Import StackModel GraphSpec GraphModel CompilerSpec TransModel TransSpec TransRulesModel
  TransProofs TransProofs2 TransProofs3 TransKindProofs.
Import ListNotations.

(** ** C31 *)
(** Translating with rules that preserve meaning: whatever the arguments, the
    new outputs have exactly the values the old ones had; the new inputs are
    distinct parameters in the old order, and the new outputs use no other;
    the graph handed in is left as it was. *)
Theorem C31_translate_preserves_meaning :
  forall (V Opr : Type) (packV : list V -> V) (fieldV : V -> Z -> option V)
         (oprun : Opr -> list V -> opres V) (rules : list (rule V Opr)),
  Forall (sound packV fieldV oprun) rules ->
  forall (g : graph V Opr) (fresh : node) (outputs inputs : list node),
  (forall n i, In i (ins g n) -> n < fresh /\ i < fresh) -> acyclic g -> plain_params g ->
  (forall o, In o outputs -> o < fresh) ->
  NoDup inputs -> (forall i, In i inputs -> i < fresh /\ kind g i = KParam) ->
  forall (fuel : nat) (outs inps : list node) (g' : graph V Opr),
  translate rules fuel g fresh outputs inputs = TOk (outs, inps, g') ->
  (forall args vs, dens packV fieldV oprun g (bind inputs args) outputs vs <->
                   dens packV fieldV oprun g' (bind inps args) outs vs) /\
  length inps = length inputs /\ NoDup inps /\ (forall i, In i inps -> kind g' i = KParam) /\
  acyclic g' /\
  (forall n, n < fresh -> kind g' n = kind g n /\ ins g' n = ins g n) /\
  ((forall p, kind g p = KParam -> used g outputs p -> In p inputs) ->
   forall p, kind g' p = KParam -> used g' outs p -> In p inps).
Proof.
  intros V Opr packV fieldV oprun rules HS g fresh outputs inputs C A P Bo ND Bi fuel outs inps g' E.
  eapply translate_correct; eauto.
Qed.
Print Assumptions C31_translate_preserves_meaning.

(** Rules that never apply: the result is an isomorphic copy of the graph,
    node by node, so what was shared is shared and nothing is duplicated. *)
Theorem C31_translate_without_rules_is_a_copy :
  forall (V Opr : Type) (packV : list V -> V) (rules : list (rule V Opr)),
  rules <> [] -> Forall inapplicable rules ->
  forall (g : graph V Opr) (fresh : node) (outputs inputs : list node),
  (forall n i, In i (ins g n) -> n < fresh /\ i < fresh) -> acyclic g -> plain_params g ->
  (forall o, In o outputs -> o < fresh) -> (forall i, In i inputs -> i < fresh) ->
  exists N, forall fuel, N <= fuel -> exists (f : node -> node) (g' : graph V Opr),
    translate rules fuel g fresh outputs inputs = TOk (map f outputs, map f inputs, g') /\
    (forall n, used g (outputs ++ inputs) n ->
       fresh <= f n /\ kind g' (f n) = kind g n /\ ins g' (f n) = map f (ins g n)) /\
    (forall n m, used g (outputs ++ inputs) n -> used g (outputs ++ inputs) m -> f n = f m -> n = m) /\
    (forall n, n < fresh -> kind g' n = kind g n /\ ins g' n = ins g n).
Proof.
  intros V Opr packV rules NE HI g fresh outputs inputs C A P Bo Bi.
  exact (translate_identity packV (fun v _ => Some v) (fun _ l => OThrow l) rules g fresh outputs inputs NE HI C A P Bo Bi).
Qed.
Print Assumptions C31_translate_without_rules_is_a_copy.

(** The zipper with meaning preserving rules. *)
Theorem C31_zip_preserves_meaning :
  forall (V Opr : Type) (packV : list V -> V) (fieldV : V -> Z -> option V)
         (oprun : Opr -> list V -> opres V) (rules : list (rule V Opr)),
  Forall (zip_sound packV fieldV oprun) rules ->
  forall (g : graph V Opr) (fresh : node) (nodes : list node),
  (forall n i, In i (ins g n) -> n < fresh /\ i < fresh) -> acyclic g -> plain_params g ->
  (forall o, In o nodes -> o < fresh) ->
  forall (fuel : nat) (outs : list node) (g' : graph V Opr),
  zip rules fuel g fresh nodes = TOk (outs, g') ->
  (forall env vs, dens packV fieldV oprun g env nodes vs <-> dens packV fieldV oprun g' env outs vs) /\
  acyclic g' /\ (forall n, n < fresh -> kind g' n = kind g n /\ ins g' n = ins g n).
Proof. intros. eapply zip_correct; eauto. Qed.
Print Assumptions C31_zip_preserves_meaning.

(** The zipper with rules that never apply returns the very same nodes. *)
Theorem C31_zip_without_rules_is_identity :
  forall (V Opr : Type) (rules : list (rule V Opr)) (g : graph V Opr) (fresh : node) (nodes : list node),
  Forall inapplicable rules -> acyclic g ->
  exists N, forall fuel, N <= fuel -> zip rules fuel g fresh nodes = TOk (nodes, g).
Proof. exact @zip_identity. Qed.
Print Assumptions C31_zip_without_rules_is_identity.

Ltac small_graph := match goal with
  | |- forall n i, In i _ -> _ => intros n i; do 6 (destruct n as [|n]; simpl; [intuition lia|]); simpl; tauto
  | |- acyclic _ => exists (fun n => n); intros n m; do 6 (destruct n as [|n]; simpl; [intuition lia|]); simpl; tauto
  | |- plain_params _ => intros n; do 6 (destruct n as [|n]; simpl; [auto; try discriminate|]); auto
  end.

Ltac solve_den := first
  [ apply den_param; [reflexivity|reflexivity]
  | apply den_const; reflexivity
  | eapply den_op; [exact I|solve_dens|reflexivity] ]
with solve_dens := first [ apply dens_nil | eapply dens_cons; [solve_den|solve_dens] ].

Module ExampleT.
  (** operator 0 adds, 1 multiplies, 5 is the identity *)
  Definition packV (l : list Z) : Z := fold_right Z.add 0%Z l.
  Definition fieldV (v : Z) (_ : Z) : option Z := Some v.
  Definition oprun (o : nat) (args : list Z) : opres Z :=
    match o, args with
    | 0, [a; b] => ORet [a + b]%Z 1
    | 1, [a; b] => ORet [a * b]%Z 1
    | 5, [a] => ORet [a]%Z 1
    | _, _ => OThrow args
    end.
  (** a rule: exchange the operands of an addition *)
  Definition swap : rule Z nat := fun s n flag =>
    match kind (gg s) n, ins (gg s) n with
    | KOp 0, [a; b] => (true, Some (gn s), gnew s (KOp 0) [b; a])
    | _, _ => (false, None, s)
    end.
  Definition idle : rule Z nat := fun s n flag => (false, None, s).

  Lemma swap_sound : sound packV fieldV oprun swap.
  Proof.
    intros s n flag ap t s' C A Hn E. unfold swap in E.
    assert (B : (ap, t, s') = (false, None, s) \/ exists a b, kind (gg s) n = KOp 0 /\ ins (gg s) n = [a; b] /\
      (ap, t, s') = (true, Some (gn s), gnew s (KOp 0) [b; a])).
    { destruct (kind (gg s) n) as [| | |o| |]; auto. destruct o as [|o]; auto.
      destruct (ins (gg s) n) as [|a [|b [|x l]]]; auto. right. exists a, b. auto. }
    clear E. destruct B as [B|(a & b & K & I & B)]; injection B as -> -> ->.
    { apply (inapplicable_sound packV fieldV oprun idle (fun s n flag => eq_refl) s n flag false None s); auto. }
    assert (La : a < gn s) by (apply (C n); rewrite I; simpl; auto).
    assert (Lb : b < gn s) by (apply (C n); rewrite I; simpl; auto).
    assert (LI : forall i, In i [b; a] -> i < gn s) by (intros i [<-|[<-|[]]]; auto).
    split; [apply gnew_extends|]. split; [apply gnew_closed; auto|]. split; [apply gnew_acyclic; auto|].
    split; [|split].
    - intros m i Hm. cbn [gnew gg ins]. destruct (Nat.eqb_spec m (gn s)).
      + intros Hi. right. econstructor; [|apply reach_refl]. rewrite I. destruct Hi as [<-|[<-|[]]]; simpl; auto.
      + intros Hi. apply C in Hi. lia.
    - intros m Hm. cbn [gnew gg kind gn] in *. destruct (Nat.eqb_spec m (gn s)); [discriminate|lia].
    - intros x E. injection E as <-. split; [right; cbn [gnew gn]; lia|]. split; [congruence|].
      intros _ env v. rewrite (den_unfold _ _ _ (gg (gnew s (KOp 0) [b; a])) env n), den_unfold.
      cbn [gnew gg kind ins]. rewrite Nat.eqb_refl. destruct (Nat.eqb_spec n (gn s)); [lia|]. rewrite K, I.
      split; intros (vs & D & N); inversion D as [|? ? v1 ? D1 D2]; subst;
        inversion D2 as [|? ? v2 ? D3 D4]; subst; inversion D4; subst;
        (exists [v2; v1]; split; [repeat (constructor; auto)|]);
        cbn in N |- *; injection N as <-; f_equal; ring.
  Qed.

  (** 0, 1 parameters; 2 = 0 + 1; 3 = 2 * 2; 4 = 3 + 2 *)
  Definition g : graph Z nat := {|
    kind := fun n => match n with 0 | 1 => KParam | 2 => KOp 0 | 3 => KOp 1 | 4 => KOp 0 | _ => KVariable end;
    ins := fun n => match n with 2 => [0; 1] | 3 => [2; 2] | 4 => [3; 2] | _ => [] end |}.
  Example hypotheses : Forall (sound packV fieldV oprun) [idle; swap] /\
    (forall n i, In i (ins g n) -> n < 5 /\ i < 5) /\ acyclic g /\ plain_params g.
  Proof.
    split; [constructor; [apply inapplicable_sound; intros s n flag; reflexivity|constructor; [apply swap_sound|constructor]]|].
    split; [small_graph|]. split; [small_graph|]. small_graph.
  Qed.
  Example result : match translate [idle; swap] 20 g 5 [4; 2] [0; 1] with
    | TOk (outs, inps, g') => outs = [5; 6] /\ inps = [8; 7] /\ ins g' 5 = [6; 9] /\ ins g' 6 = [7; 8] /\
                              ins g' 9 = [6; 6] /\ kind g' 9 = KOp 1
    | _ => False end.
  Proof. vm_compute. auto 10. Qed.
  Example copied : match translate [idle] 20 g 5 [4; 2] [0; 1] with
    | TOk (outs, inps, g') => outs = [9; 7] /\ inps = [5; 6] /\ ins g' 9 = [8; 7] /\ ins g' 8 = [7; 7] /\ ins g' 7 = [5; 6]
    | _ => False end.
  Proof. vm_compute. auto 10. Qed.
  Example zipped : match zip [idle; swap] 20 g 5 [4; 2] with
    | TOk (outs, g') => outs = [8; 6] /\ ins g' 8 = [6; 7] /\ ins g' 7 = [6; 6] /\ ins g' 6 = [1; 0]
    | _ => False end.
  Proof. vm_compute. auto 10. Qed.
End ExampleT.

(** The translator needs more of a rule than that it preserves meaning: a
    rule that answers with a node that already exists (here: it removes an
    identity operator) makes the new outputs refer to an old parameter that
    is not among the new inputs. *)
Theorem C31_existing_node_rule_refuted :
  exists (r : rule Z nat) (g g' : graph Z nat) (outputs outs inputs inps : list node),
    zip_sound ExampleT.packV ExampleT.fieldV ExampleT.oprun r /\
    (forall n i, In i (ins g n) -> n < 3 /\ i < 3) /\ acyclic g /\ plain_params g /\
    translate [r] 20 g 3 outputs inputs = TOk (outs, inps, g') /\
    (forall a, dens ExampleT.packV ExampleT.fieldV ExampleT.oprun g (bind inputs [a]) outputs [a + a]%Z) /\
    (forall a vs, ~ dens ExampleT.packV ExampleT.fieldV ExampleT.oprun g' (bind inps [a]) outs vs) /\
    (exists p, kind g' p = KParam /\ used g' outs p /\ ~ In p inps).
Proof.
  exists (fun s n flag => match kind (gg s) n, ins (gg s) n with
                          | KOp 5, [a] => (true, Some a, s)
                          | _, _ => (false, None, s) end),
    {| kind := fun n => match n with 0 => KParam | 1 => KOp 5 | 2 => KOp 0 | _ => KVariable end;
       ins := fun n => match n with 1 => [0] | 2 => [0; 1] | _ => [] end |}.
  eexists. exists [2], [4], [0], [3].
  split; [|split; [small_graph|split; [small_graph|split; [small_graph|split; [|split; [|split]]]]]].
  - intros s n flag ap t s' C A Hn E.
    assert (B : (ap, t, s') = (false, None, s) \/
      exists a, kind (gg s) n = KOp 5 /\ ins (gg s) n = [a] /\ (ap, t, s') = (true, Some a, s)).
    { destruct (kind (gg s) n) as [| | |o| |]; auto. do 5 (destruct o as [|o]; auto). destruct o as [|o]; auto.
      destruct (ins (gg s) n) as [|a [|b l]]; auto. right. exists a. auto. }
    destruct B as [B|(a & K & I & B)]; injection B as -> -> ->.
    + split; [apply ext_refl|]. split; [auto|]. split; [auto|]. split; [|intros; discriminate].
      intros m Hm _. destruct (ins (gg s) m) as [|i l] eqn:X; auto. exfalso.
      destruct (C m i); [rewrite X; now left|lia].
    + split; [apply ext_refl|]. split; [auto|]. split; [auto|]. split.
      { intros m Hm _. destruct (ins (gg s) m) as [|i l] eqn:X; auto. exfalso.
        destruct (C m i); [rewrite X; now left|lia]. }
      intros x Ex. injection Ex as <-. split; [apply (C n); rewrite I; now left|].
      intros env v. rewrite (den_unfold _ _ _ _ env n), K, I. split.
      * intros D. exists [v]. split; [repeat (constructor; auto)|reflexivity].
      * intros (vs & D & N). inversion D as [|? ? v1 ? D1 D2]; subst. inversion D2; subst.
        cbn in N. injection N as <-. exact D1.
  - vm_compute. reflexivity.
  - intros a. solve_dens.
  - intros a vs D. inversion D as [|? ? v ? D1 _]; subst.
    apply den_unfold in D1. cbn in D1. destruct D1 as (ws & D2 & _).
    inversion D2 as [|? ? w1 ? _ D3]; subst. inversion D3 as [|? ? w2 ? D4 _]; subst.
    apply den_unfold in D4. cbn in D4. discriminate.
  - exists 0. split; [reflexivity|]. split; [|cbn; intuition lia].
    exists 4. split; [now left|]. econstructor; [|apply reach_refl]. cbn. auto.
Qed.
Print Assumptions C31_existing_node_rule_refuted.

(** ** The packing rule *)
Module ExampleP.
  (** Tensors are lists.  Operator 0 is inner_prod of a vector of two with a
      2 by 2 matrix, 1 the same with the matrix packed, 2 adds. *)
  Definition packV (l : list (list Z)) : list Z := concat l.
  Definition fieldV (v : list Z) (_ : Z) : option (list Z) := Some v.
  Definition oprun (o : nat) (args : list (list Z)) : opres (list Z) :=
    match o, args with
    | 0, [[x; y]; [a; b; c; d]] => ORet [[x * a + y * c; x * b + y * d]]%Z 1
    | 1, [[x; y]; [a; b; c; d]] => ORet [[x * a + y * b; x * c + y * d]]%Z 1
    | 2, [[a; b; c; d]; [a'; b'; c'; d']] => ORet [[a + a'; b + b'; c + c'; d + d']]%Z 1
    | _, _ => OThrow args
    end.
  (** pack8_B of a 2 by 2 matrix (src/kernels/cpu/math_cpu.cpp 338-373) *)
  Definition pack (_ : nat) (w : list Z) : list Z :=
    match w with [a; b; c; d] => [a; c; b; d] | _ => w end.
  Definition kernel (o : nat) : option nat := match o with 0 => Some 1 | _ => None end.
  Definition mark (o : nat) : nat := match o with 0 => 1 | _ => o end.
  (** packing is right for the operator by itself *)
  Example pack_right x y a b c d :
    oprun (mark 0) [[x; y]; pack 0 [a; b; c; d]] = oprun 0 [[x; y]; [a; b; c; d]].
  Proof. reflexivity. Qed.
End ExampleP.

(** Packing is done in place on the constant of the original graph, so the
    module that was translated no longer means what it meant: translating it
    a second time yields a different function. *)
Theorem C31_pack_alters_the_module_refuted :
  exists (g g1 g2 : graph (list Z) nat) (outs1 inps1 outs2 inps2 : list node),
    let pr := pack_rule ExampleP.kernel ExampleP.pack ExampleP.mark in
    let value := dens ExampleP.packV ExampleP.fieldV ExampleP.oprun in
    (forall n i, In i (ins g n) -> n < 3 /\ i < 3) /\ acyclic g /\ plain_params g /\
    translate [pr] 20 g 3 [2] [0] = TOk (outs1, inps1, g1) /\
    translate [pr] 20 g1 6 [2] [0] = TOk (outs2, inps2, g2) /\
    value g (bind [0] [[1; 1]%Z]) [2] [[4; 6]%Z] /\
    value g1 (bind inps1 [[1; 1]%Z]) outs1 [[4; 6]%Z] /\
    value g1 (bind [0] [[1; 1]%Z]) [2] [[3; 7]%Z] /\
    value g2 (bind inps2 [[1; 1]%Z]) outs2 [[3; 7]%Z].
Proof.
  exists {| kind := fun n => match n with 0 => KParam | 1 => KConst [1; 2; 3; 4]%Z | 2 => KOp 0 | _ => KVariable end;
            ins := fun n => match n with 2 => [0; 1] | _ => [] end |}.
  do 6 eexists. cbv zeta. split; [small_graph|]. split; [small_graph|]. split; [small_graph|].
  split; [vm_compute; reflexivity|]. split; [vm_compute; reflexivity|].
  split; [|split; [|split]].
  all: solve_dens.
Qed.
Print Assumptions C31_pack_alters_the_module_refuted.

(** And a constant with a second user is packed for the one and not for the
    other, or for both. *)
Theorem C31_pack_shared_constant_refuted :
  exists (g g1 : graph (list Z) nat) (outs inps : list node),
    let pr := pack_rule ExampleP.kernel ExampleP.pack ExampleP.mark in
    let value := dens ExampleP.packV ExampleP.fieldV ExampleP.oprun in
    (forall n i, In i (ins g n) -> n < 4 /\ i < 4) /\ acyclic g /\ plain_params g /\
    translate [pr] 20 g 4 [3; 2] [0] = TOk (outs, inps, g1) /\
    value g (bind [0] [[1; 1]%Z]) [3; 2] [[2; 4; 6; 8]%Z; [4; 6]%Z] /\
    value g1 (bind inps [[1; 1]%Z]) outs [[2; 4; 6; 8]%Z; [3; 7]%Z].
Proof.
  exists {| kind := fun n => match n with 0 => KParam | 1 => KConst [1; 2; 3; 4]%Z | 2 => KOp 0 | 3 => KOp 2 | _ => KVariable end;
            ins := fun n => match n with 2 => [0; 1] | 3 => [1; 1] | _ => [] end |}.
  do 3 eexists. cbv zeta. split; [small_graph|]. split; [small_graph|]. split; [small_graph|].
  split; [vm_compute; reflexivity|]. split.
  all: solve_dens.
Qed.
Print Assumptions C31_pack_shared_constant_refuted.

(** ** C86: half precision *)
(** The first output, if it is an operator run in half precision, is turned
    back into 32-bit floats.  Missing: the same for the other outputs, which
    is false, see the next theorem. *)
Theorem C86_first_output_is_cast_partial :
  forall (V Opr : Type) (half : Opr -> bool) (cast_to : Opr -> option Z) (is_to_float : Opr -> bool)
         (mk_cast : Z -> Opr) (dtype : V -> Z)
         (g : graph V Opr) (fresh : node) (o : node) (op : Opr) (rest inputs : list node)
         (fuel : nat) (outs inps : list node) (g' : graph V Opr),
  kind g o = KOp op -> half op = true -> cast_to op = None -> is_to_float op = false -> o < fresh ->
  translate [fp16_rule half cast_to is_to_float mk_cast dtype] fuel g fresh (o :: rest) inputs
    = TOk (outs, inps, g') ->
  exists c outs', outs = c :: outs' /\ kind g' c = KOp (mk_cast 10%Z).
Proof.
  intros V Opr half cast_to is_to_float mk_cast dtype g fresh o op rest inputs fuel outs inps g' K H C F L E.
  unfold translate in E. cbn [translate_list] in E.
  remember [fp16_rule half cast_to is_to_float mk_cast dtype] as rs eqn:Ers.
  assert (HK : Forall keeps_kinds rs) by (subst; constructor; [apply fp16_keeps|constructor]).
  assert (E' : exists c st1 os st2 is' st3, translate_node rs fuel true o (mkT (mkG g fresh) []) = TOk (c, st1) /\
    translate_list (translate_node rs fuel true) rest st1 = TOk (os, st2) /\
    translate_list (translate_node rs fuel true) inputs st2 = TOk (is', st3) /\
    outs = c :: os /\ g' = gg (tg st3)).
  { destruct rs; [discriminate|].
    destruct (translate_node _ fuel true o (mkT (mkG g fresh) [])) as [[c st1]|] eqn:E1; [|discriminate].
    destruct (translate_list _ rest st1) as [[os st2]|] eqn:E2; [|discriminate].
    destruct (translate_list _ inputs st2) as [[is' st3]|] eqn:E3; [|discriminate].
    injection E as <- <- <-. exists c, st1, os, st2, is', st3. auto. }
  clear E. destruct E' as (c & st1 & os & st2 & is' & st3 & E1 & E2 & E3 & -> & ->).
  apply kk_list in E2; [|intros; eapply kk_node; eauto].
  apply kk_list in E3; [|intros; eapply kk_node; eauto].
  pose proof (kk_trans _ _ _ E2 E3) as [M1 M2].
  exists c, os. split; [reflexivity|].
  destruct fuel as [|fuel]; [discriminate|]. cbn [translate_node lookup ready tg] in E1.
  rewrite Ers in E1 at 1. cbn [try_rules] in E1. unfold fp16_rule at 1 in E1. cbn [gg] in E1.
  rewrite K, C, F, H in E1. cbn [andb gn gnew] in E1.
  destruct (translate_list _ _ _) as [[cs st0]|] eqn:EI; [|discriminate].
  destruct (Nat.eqb_spec fresh o); [lia|]. injection E1 as <- <-. cbn [tg glink gg kind gn] in *.
  apply kk_list in EI; [|intros; eapply kk_node; eauto]. destruct EI as [N1 N2]. cbn [gnew glink tg gn gg kind] in N1, N2, M1, M2 |- *
  . rewrite M2 by lia. rewrite N2 by lia. now rewrite Nat.eqb_refl.
Qed.
Print Assumptions C86_first_output_is_cast_partial.

(** An output that another output already uses is not: it comes out in half
    precision. *)
Theorem C86_output_type_refuted :
  exists (half : option Z -> bool) (cast_to : option Z -> option Z) (mk_cast : Z -> option Z)
         (dtype : Z * Z -> Z) (oprun : option Z -> list (Z * Z) -> opres (Z * Z))
         (g g' : graph (Z * Z) (option Z)) (outs inps : list node),
    let value := dens (fun l : list (Z * Z) => (0, 0)%Z) (fun v _ => Some v) oprun in
    (* a value is a type and a number; casting sets the type; the operator
       None negates and keeps the type *)
    dtype = fst /\
    (forall d x, cast_to (mk_cast d) = Some d /\ oprun (mk_cast d) [x] = ORet [(d, snd x)] 1) /\
    (forall x, cast_to None = None /\ oprun None [x] = ORet [(fst x, - snd x)%Z] 1) /\
    (forall n i, In i (ins g n) -> n < 3 /\ i < 3) /\ acyclic g /\ plain_params g /\
    translate [fp16_rule half cast_to (fun _ => false) mk_cast dtype] 20 g 3 [2; 1] [0] = TOk (outs, inps, g') /\
    value g (bind [0] [(10, 7)%Z]) [2; 1] [(10, 7)%Z; (10, -7)%Z] /\
    value g' (bind inps [(10, 7)%Z]) outs [(10, 7)%Z; (9, -7)%Z].
Proof.
  exists (fun _ => true), (fun o => o), (fun d => Some d), fst,
    (fun o args => match args with
       | [x] => match o with None => ORet [(fst x, - snd x)%Z] 1 | Some d => ORet [(d, snd x)] 1 end
       | l => OThrow l end).
  exists {| kind := fun n => match n with 0 => KParam | 1 | 2 => KOp None | _ => KVariable end;
            ins := fun n => match n with 1 => [0] | 2 => [1] | _ => [] end |}.
  do 3 eexists. cbv zeta. split; [reflexivity|].
  split; [intros d x; auto|]. split; [intros x; auto|].
  split; [small_graph|]. split; [small_graph|]. split; [small_graph|].
  split; [vm_compute; reflexivity|].
  split; solve_dens.
Qed.
Print Assumptions C86_output_type_refuted.
