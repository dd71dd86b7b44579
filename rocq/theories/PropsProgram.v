(** C150: programs, their clones and their parameters. *)
From Coq Require Import String List ZArith Bool Lia.
From Verif Require Import ShapeModel OperatorModel OperatorSpec PropsOperator ProgramModel ProgramSpec.
Import ListNotations.

Section Proofs.
Context {V : Type} (is_empty : V -> bool) (text : V -> string) (decl : nat -> list (string * attr * option V)).
Notation state := (@ProgramModel.state V).
Notation history := (ProgramModel.history is_empty text decl).
Notation step := (ProgramModel.step is_empty text decl).
Notation build := (ProgramModel.build is_empty decl).
Notation clone_program := (ProgramModel.clone_program is_empty decl).
Notation made c := (constructed (decl c)).

(** *** operators *)
Lemma set_all_keeps : forall l (o o' : operator V) p, set_all o l = SOk o' -> find p (params o') = None -> find p (params o) = None.
Proof.
  induction l as [|[q v] l IH]; intros o o' p E H; [injection E as <-; exact H|]. cbn [set_all] in E. unfold set_ in E at 1.
  destruct (negb (retention q) && negb (is_in_fields o q) && strict o); [discriminate|]. apply (IH _ _ p) in E; [|exact H]. cbn [params] in E.
  rewrite find_assign in E. destruct (String.eqb q p); [discriminate|exact E].
Qed.
Lemma faithful ds l (o : operator V) : set_all (constructed ds) l = SOk o ->
  match create is_empty (constructed ds) (params o) with
  | SOk c => forall p, get c p = get o p
  | SErr => init is_empty o = SErr
  | SUndef => False
  end /\ (init is_empty o = SOk o -> exists c, create is_empty (constructed ds) (params o) = SOk c).
Proof.
  intros E. destruct (tidy_set_all l _ o (tidy_constructed ds) E (strict_constructed is_empty ds)) as ((No & Ko) & O & R & St).
  destruct (set_all_spec (params o) (constructed ds)) as (c & Ec & Oc & Rc & Sc & Fc).
  { intros p v Hp. assert (Hk : In p (map fst (params o))) by (apply in_map_iff; exists (p, v); auto).
    destruct (Ko p Hk) as [H|H]; [now left|]. right; left. unfold is_in_fields in *. now rewrite <- O, <- R. }
  assert (F : forall p, find p (params c) = find p (params o)).
  { intros p. rewrite Fc, (find_rev is_empty p _ No). destruct (find p (params o)) as [v|] eqn:Ef; [reflexivity|]. exact (set_all_keeps l _ _ p E Ef). }
  assert (K : check_params is_empty c = check_params is_empty o).
  { unfold check_params. rewrite Sc, Rc, St, R, (strict_constructed is_empty ds). cbn [negb orb].
    generalize (required (constructed ds)). induction l0 as [|p r IH]; [reflexivity|]. cbn [forallb]. rewrite F. f_equal. exact IH. }
  unfold create. rewrite Ec. unfold init. rewrite K. destruct (check_params is_empty o).
  - split; [intros p; unfold get; now rewrite F|]. intros _. eauto.
  - split; [reflexivity|discriminate].
Qed.

Lemma set_all_app : forall l (o o1 : operator V) p v o2, set_all o l = SOk o1 -> set_ o1 p v = SOk o2 -> set_all o (l ++ [(p, v)]) = SOk o2.
Proof.
  induction l as [|[q w] l IH]; intros o o1 p v o2 E H; cbn [set_all app] in *; [injection E as <-; now rewrite H|].
  destruct (set_ o q w); try discriminate. now apply (IH _ o1).
Qed.

(** *** building *)
Definition ids (is : list instr) : list nat := flat_map (fun i => match i with Operator o => [o] | Other _ => [] end) is.
Definition born (co : nat * operator V) : Prop := exists l, set_all (made (fst co)) l = SOk (snd co).

Lemma build_spec : forall src base is os, build base src = SOk (is, os) -> ids is = seq base (length os) /\ Forall born os.
Proof.
  induction src as [|[w|[c ps]] src IH]; intros base is os E; cbn [ProgramModel.build] in E.
  - injection E as <- <-. split; [reflexivity|constructor].
  - destruct (build base src) as [[is1 os1]| |] eqn:B; try discriminate. injection E as <- <-. exact (IH _ _ _ B).
  - destruct (create is_empty (made c) ps) as [o| |] eqn:C; try discriminate. destruct (build (S base) src) as [[is1 os1]| |] eqn:B; try discriminate.
    injection E as <- <-. destruct (IH _ _ _ B) as [I F]. split; [change (ids (Operator base :: is1)) with (base :: ids is1); rewrite I; reflexivity|]. constructor; [|exact F]. unfold create in C.
    destruct (set_all (made c) ps) as [o1| |] eqn:Es; try discriminate. unfold init in C. destruct (check_params is_empty o1); [|discriminate]. injection C as ->.
    exists ps. exact Es.
Qed.

Lemma copy_spec (s t : state) : Forall born (ops s) -> (forall i x, nth_error (ops s) i = Some x -> nth_error (ops t) i = Some x) ->
  forall is src base is' os, sources s is = Some src -> build base src = SOk (is', os) ->
  (forall k x, nth_error os k = Some x -> nth_error (ops t) (base + k) = Some x) -> Forall2 (same_instr t) is is'.
Proof.
  intros Hb Ht. induction is as [|[i|w] is IH]; intros src base is' os S B Hk; cbn [sources] in S.
  - injection S as <-. injection B as <- <-. constructor.
  - destruct (nth_error (ops s) i) as [[c o]|] eqn:N; [|discriminate]. destruct (sources s is) as [src1|] eqn:S1; [|discriminate]. injection S as <-. cbn [ProgramModel.build] in B.
    destruct (create is_empty (made c) (params o)) as [o'| |] eqn:C; try discriminate. destruct (build (S base) src1) as [[is1 os1]| |] eqn:B1; try discriminate.
    injection B as <- <-. constructor.
    + exists c, o, o'. split; [now apply Ht|]. split; [rewrite <- (Nat.add_0_r base); now apply Hk|].
      rewrite Forall_forall in Hb. destruct (Hb (c, o) (nth_error_In _ _ N)) as [l E]. cbn [fst snd] in E. destruct (faithful _ l o E) as [F _]. now rewrite C in F.
    + apply (IH _ (S base) _ os1 eq_refl B1). intros k x Hx. rewrite Nat.add_succ_comm. now apply Hk.
  - destruct (sources s is) as [src1|] eqn:S1; [|discriminate]. injection S as <-. cbn [ProgramModel.build] in B.
    destruct (build base src1) as [[is1 os1]| |] eqn:B1; try discriminate. injection B as <- <-. constructor; [reflexivity|]. now apply (IH _ base _ os1 eq_refl B1).
Qed.

(** *** the invariant *)
Definition sound (s : state) (g : program) : Prop :=
  Forall (fun i => i < length (ops s)) (operators_of g) /\ lock g < locks s /\
  Forall (fun f => forall q, f = Some q -> q < length (progs s)) (filters g) /\ length (filters g) = input_count g.
Definition inv (s : state) : Prop :=
  Forall born (ops s) /\ Forall (sound s) (progs s) /\ NoDup (flat_map operators_of (progs s)).

Lemma start_inv : inv start.
Proof. split; [constructor|]. split; [constructor|constructor]. Qed.

Lemma sound_grow (s t : state) g : length (ops s) <= length (ops t) -> length (progs s) <= length (progs t) -> locks s <= locks t -> sound s g -> sound t g.
Proof.
  intros Ho Hp Hl (A & B & C & D). split; [eapply Forall_impl; [|exact A]; cbn; lia|]. split; [lia|]. split; [|exact D].
  eapply Forall_impl; [|exact C]. cbn. intros f Hf q E. specialize (Hf q E). lia.
Qed.

Lemma NoDup_snoc {A} (l r : list A) : NoDup l -> NoDup r -> (forall x, In x l -> In x r -> False) -> NoDup (l ++ r).
Proof.
  intros N M H. induction N as [|x l Hx N IH]; [exact M|]. cbn. constructor.
  - rewrite in_app_iff. intros [I|I]; [contradiction|]. apply (H x); [now left|exact I].
  - apply IH. intros y Iy Ir. apply (H y); [now right|exact Ir].
Qed.

(** adding a program with new operators *)
Lemma inv_add (s : state) os g k : inv s -> Forall born os -> operators_of g = seq (length (ops s)) (length os) ->
  lock g < k -> locks s <= k -> Forall (fun f => forall q, f = Some q -> q < length (progs s)) (filters g) -> length (filters g) = input_count g ->
  inv (State (ops s ++ os) (progs s ++ [g]) k).
Proof.
  intros (A & B & C) Hb Hi Hl Hk Hf Hn. split; [now apply Forall_app|]. split; cbn [ops progs locks].
  - apply Forall_app. split.
    + eapply Forall_impl; [|exact B]. intros h. apply sound_grow; cbn [ops progs locks]; rewrite ?app_length; lia.
    + constructor; [|constructor]. split; [|split; [exact Hl|split; [|exact Hn]]]; cbn [ops progs locks].
      * rewrite Hi. apply Forall_forall. intros i Hin. apply in_seq in Hin. rewrite app_length. lia.
      * eapply Forall_impl; [|exact Hf]. cbn. intros f H q E. specialize (H q E). rewrite app_length. lia.
  - rewrite flat_map_app. cbn [flat_map]. rewrite app_nil_r. apply NoDup_snoc; [exact C|rewrite Hi; apply seq_NoDup|].
    intros x Hx Hy. rewrite Hi in Hy. apply in_seq in Hy. apply in_flat_map in Hx. destruct Hx as (h & Hh & Hx).
    rewrite Forall_forall in B. destruct (B h Hh) as (Bo & _). rewrite Forall_forall in Bo. specialize (Bo x Hx). cbn in Bo. lia.
Qed.

(** *** cloning *)
Lemma extends_refl (s : state) : extends s s.
Proof. exists [], []. now rewrite !app_nil_r. Qed.
Lemma extends_trans (s t u : state) : extends s t -> extends t u -> extends s u.
Proof. intros (a & b & A & B) (c & d & E & F). exists (a ++ c), (b ++ d). rewrite E, F, A, B, <- !app_assoc. auto. Qed.
Lemma extends_ops (s t : state) i x : extends s t -> nth_error (ops s) i = Some x -> nth_error (ops t) i = Some x.
Proof. intros (a & b & -> & _) H. rewrite nth_error_app1; [exact H|]. apply nth_error_Some. congruence. Qed.
Lemma extends_progs (s t : state) i x : extends s t -> nth_error (progs s) i = Some x -> nth_error (progs t) i = Some x.
Proof. intros (a & b & _ & ->) H. rewrite nth_error_app1; [exact H|]. apply nth_error_Some. congruence. Qed.
Lemma extends_length (s t : state) : extends s t -> length (ops s) <= length (ops t) /\ length (progs s) <= length (progs t).
Proof. intros (a & b & -> & ->). rewrite !app_length. lia. Qed.

Lemma F2_impl {A B} (P Q : A -> B -> Prop) l m : (forall x y, P x y -> Q x y) -> Forall2 P l m -> Forall2 Q l m.
Proof. intros H F. induction F; constructor; auto. Qed.
Lemma same_grow (s t : state) a b : extends s t -> same_instr s a b -> same_instr t a b.
Proof.
  intros E. destruct a, b; cbn; auto. intros (c & x & y & A & B & C). exists c, x, y. split; [now apply (extends_ops s)|]. split; [now apply (extends_ops s)|exact C].
Qed.
Lemma alike_grow n : forall (s t : state) p q, extends s t -> alike n s p q -> alike n t p q.
Proof.
  induction n as [|n IH]; intros s t p q E; [auto|]. cbn [alike]. intros (g & h & A & B & C & D & D' & D'' & D3 & D4 & F).
  exists g, h. split; [now apply (extends_progs s)|]. split; [now apply (extends_progs s)|]. split; [eapply F2_impl; [|exact C]; intros; now apply (same_grow s)|].
  split; [exact D|]. split; [exact D'|]. split; [exact D''|]. split; [exact D3|]. split; [exact D4|]. eapply F2_impl; [|exact F]. intros [x|] [y|]; cbn; auto. now apply IH.
Qed.

Definition copied (s t : state) (p q : nat) : Prop :=
  extends s t /\ inv t /\ locks t = locks s /\ length (progs s) <= q < length (progs t) /\ forall n, alike n t p q.

Lemma each_spec f : (forall s p t q, inv s -> f s p = Done t q -> copied s t p q) ->
  forall l s t l', inv s -> each f s l = Copied t l' ->
    extends s t /\ inv t /\ locks t = locks s /\ Forall2 (both (fun p q => length (progs s) <= q < length (progs t) /\ forall n, alike n t p q)) l l'.
Proof.
  intros Hf. induction l as [|[p|] l IH]; intros s t l' I E; cbn [each] in E.
  - injection E as <- <-. split; [apply extends_refl|]. split; [exact I|]. split; [reflexivity|constructor].
  - destruct (f s p) as [s1 q| | | |] eqn:F; try discriminate. destruct (each f s1 l) as [s2 l2|] eqn:G; [|discriminate]. injection E as <- <-.
    destruct (Hf _ _ _ _ I F) as (E1 & I1 & L1 & Q1 & A1). destruct (IH _ _ _ I1 G) as (E2 & I2 & L2 & F2). pose proof (extends_length _ _ E1). pose proof (extends_length _ _ E2).
    split; [now apply (extends_trans s s1)|]. split; [exact I2|]. split; [congruence|]. constructor.
    + cbn. split; [lia|]. intro n. now apply (alike_grow n s1).
    + eapply F2_impl; [|exact F2]. intros [x|] [y|]; cbn; auto. intros [H' H'']. split; [lia|exact H''].
  - destruct (each f s l) as [s2 l2|] eqn:G; [|discriminate]. injection E as <- <-. destruct (IH _ _ _ I G) as (E2 & I2 & L2 & F2).
    split; [exact E2|]. split; [exact I2|]. split; [exact L2|]. constructor; [exact Logic.I|exact F2].
Qed.

Lemma each_not_done f : forall l s t q, each (V := V) f s l <> Stopped (Done t q).
Proof.
  induction l as [|[p|] l IH]; intros s t q E; cbn [each] in E; [discriminate| |].
  - destruct (f s p) as [s1 x| | | |]; try discriminate. destruct (each f s1 l) eqn:G; [discriminate|]. injection E as ->. exact (IH _ _ _ G).
  - destruct (each f s l) eqn:G; [discriminate|]. injection E as ->. exact (IH _ _ _ G).
Qed.
Lemma clone_spec : forall fuel held (s : state) p t q, inv s -> clone_program fuel held s p = Done t q -> copied s t p q.
Proof.
  induction fuel as [|fuel IH]; intros held s p t q I E; [discriminate|]. cbn [ProgramModel.clone_program] in E.
  destruct (nth_error (progs s) p) as [g|] eqn:N; [|discriminate]. destruct (existsb (Nat.eqb (lock g)) held); [discriminate|].
  destruct (each (clone_program fuel (lock g :: held)) s (filters g)) as [s1 fs|r] eqn:G; [|destruct r; try discriminate; now apply each_not_done in G].
  destruct (each_spec _ (IH (lock g :: held)) _ _ _ _ I G) as (E1 & I1 & L1 & F1).
  destruct (sources s1 (instrs g)) as [src|] eqn:S; [|discriminate]. destruct (build (length (ops s1)) src) as [[is os]| |] eqn:B; try discriminate.
  injection E as <- <-. destruct (build_spec _ _ _ _ B) as [Hi Hb]. pose proof (extends_length _ _ E1) as [Lo Lp].
  set (h := Program is (in_slots g) (out_slots g) [] [] (in_types g) (out_types g) fs (segment g) (lock g)).
  set (t := State (ops s1 ++ os) (progs s1 ++ [h]) (locks s1)).
  assert (E2 : extends s1 t) by (exists os, [h]; auto).
  assert (Sg : sound s g). { destruct I as (_ & B' & _). rewrite Forall_forall in B'. apply B'. now apply nth_error_In in N. }
  destruct Sg as (Sg1 & Sg2 & Sg3 & Sg4).
  split; [now apply (extends_trans s s1)|]. split; [|split; [exact L1|split; [cbn [t progs]; rewrite app_length; cbn; lia|]]].
  - apply (inv_add s1 os h (locks s1) I1 Hb Hi); cbn [h lock filters input_count in_types]; [lia|lia| |].
    + clear -F1. induction F1 as [|x y l l' Hxy F IHF]; constructor; [|exact IHF]. intros q ->. destruct x; cbn in Hxy; [lia|contradiction].
    + change (length fs = input_count g). rewrite <- Sg4. clear -F1. induction F1; cbn; congruence.
  - intros [|n]; cbn [alike]; [auto|]. exists g, h. split; [apply (extends_progs s1 t _ _ E2), (extends_progs s s1 _ _ E1 N)|].
    split; [cbn [t progs]; now rewrite nth_error_app2, Nat.sub_diag by lia|]. split.
    + apply (copy_spec s1 t (proj1 I1) (fun i x => extends_ops s1 t i x E2) _ _ _ _ _ S B). intros k x Hx. cbn [t ops]. rewrite nth_error_app2 by lia. now rewrite Nat.add_comm, Nat.add_sub.
    + cbn [h in_slots out_slots in_types out_types segment filters]. do 5 (split; [reflexivity|]). eapply F2_impl; [|exact F1]. intros [x|] [y|]; cbn; auto.
      intros [_ A]. now apply (alike_grow n s1 t).
Qed.

(** fuel suffices *)
Lemma each_nofuel f s l : (forall s' p, locks s' = locks s -> inv s' -> f s' p <> NoFuel) -> (forall s p t q, inv s -> f s p = Done t q -> copied s t p q) ->
  inv s -> each f s l <> Stopped NoFuel.
Proof.
  intros Hf Hc. revert s Hf. induction l as [|[p|] l IH]; intros s Hf I E; cbn [each] in E; [discriminate| |].
  - destruct (f s p) as [s1 q| | | |] eqn:F; try discriminate; [|now apply (Hf s p)].
    destruct (Hc _ _ _ _ I F) as (E1 & I1 & L1 & _). destruct (each f s1 l) as [s2 l2|r] eqn:G; [discriminate|]. injection E as ->.
    apply (IH s1); [|exact I1|exact G]. intros s' p' Hs. apply Hf. congruence.
  - destruct (each f s l) as [s2 l2|r] eqn:G; [discriminate|]. injection E as ->. now apply (IH s).
Qed.
Lemma fuel_enough : forall fuel held (s : state) p, inv s -> NoDup held -> (forall k, In k held -> k < locks s) -> locks s < length held + fuel -> clone_program fuel held s p <> NoFuel.
Proof.
  induction fuel as [|fuel IH]; intros held s p I N H L E.
  - assert (length held <= locks s); [|lia]. rewrite <- (seq_length (locks s) 0). apply NoDup_incl_length; [exact N|]. intros k Hk. apply in_seq. specialize (H k Hk). lia.
  - cbn [ProgramModel.clone_program] in E. destruct (nth_error (progs s) p) as [g|] eqn:Np; [|discriminate]. destruct (existsb (Nat.eqb (lock g)) held) eqn:X; [discriminate|].
    destruct (each (clone_program fuel (lock g :: held)) s (filters g)) as [s1 fs|r] eqn:G.
    + destruct (sources s1 (instrs g)); [|discriminate]. destruct (build (length (ops s1)) l) as [[is os]| |]; discriminate.
    + destruct r; try discriminate. revert G. apply each_nofuel; [|apply clone_spec|exact I]. intros s' p' Hl I'. apply IH; [exact I'| | |cbn; lia].
      * constructor; [|exact N]. intro Hk. assert (existsb (Nat.eqb (lock g)) held = true); [|congruence]. apply existsb_exists. exists (lock g). split; [exact Hk|apply Nat.eqb_refl].
      * rewrite Hl. intros k [<-|Hk]; [|now apply H]. destruct I as (_ & B & _). rewrite Forall_forall in B. apply nth_error_In in Np. destruct (B g Np) as (_ & Q & _). exact Q.
Qed.

(** *** parameters *)
Lemma set_at_same {A} (l : list A) i a : i < length l -> nth_error (set_at i a l) i = Some a.
Proof. revert i. induction l; intros [|i] H; cbn in *; try lia; [reflexivity|apply IHl; lia]. Qed.
Lemma set_at_other {A} (l : list A) i j a : i <> j -> nth_error (set_at i a l) j = nth_error l j.
Proof. revert i j. induction l; intros [|i] [|j] H; cbn; try reflexivity; try congruence. apply IHl. congruence. Qed.
Lemma set_at_length {A} (l : list A) i a : length (set_at i a l) = length l.
Proof. revert i. induction l; intros [|i]; cbn; congruence. Qed.
Lemma set_at_Forall {A} (P : A -> Prop) l i a : Forall P l -> P a -> Forall P (set_at i a l).
Proof. intros H Ha. revert i. induction H; intros [|i]; cbn; constructor; auto. Qed.

Lemma set_get (o o' : operator V) p v : set_ o p v = SOk o' -> forall q, get o' q = if String.eqb p q then SOk v else get o q.
Proof.
  unfold set_. destruct (negb (retention p) && negb (is_in_fields o p) && strict o); [discriminate|]. intros E q. injection E as <-. unfold get. cbn [params].
  rewrite find_assign. destruct (String.eqb p q); reflexivity.
Qed.

Lemma set_param_spec node param v : forall is os os' fine, NoDup (ids is) -> Forall born os -> set_param is_empty text os is node param v = (os', fine) ->
  Forall born os' /\ length os' = length os /\ (forall i, ~ In i (ids is) -> nth_error os' i = nth_error os i) /\
  (fine = true -> forall i c o, In i (ids is) -> nth_error os i = Some (c, o) ->
     if String.eqb (name_of text o) node
     then exists o', nth_error os' i = Some (c, o') /\ set_ o param v = SOk o' /\ init is_empty o' = SOk o'
     else nth_error os' i = Some (c, o)).
Proof.
  induction is as [|[i|w] is IH]; intros os os' fine N Hb E; cbn [set_param ids flat_map app] in *.
  - injection E as <- <-. split; [exact Hb|]. split; [reflexivity|]. split; [reflexivity|]. intros _ i c o [].
  - change (flat_map _ is) with (ids is) in *. apply NoDup_cons_iff in N. destruct N as [N1 N2].
    destruct (nth_error os i) as [[c o]|] eqn:Ei.
    2: { injection E as <- <-. split; [exact Hb|]. split; [reflexivity|]. split; [reflexivity|]. discriminate. }
    assert (Li : i < length os) by (apply nth_error_Some; congruence).
    destruct (String.eqb (name_of text o) node) eqn:En.
    + destruct (set_ o param v) as [o1| |] eqn:Es.
      2,3: (injection E as <- <-; split; [exact Hb|]; split; [reflexivity|]; split; [reflexivity|]; discriminate).
      assert (Hb1 : Forall born (set_at i (c, o1) os)).
      { apply set_at_Forall; [exact Hb|]. rewrite Forall_forall in Hb. destruct (Hb (c, o) (nth_error_In _ _ Ei)) as [l El]. exists (l ++ [(param, v)]). now apply (set_all_app l _ o). }
      destruct (init is_empty o1) as [o2| |] eqn:Ein.
      * destruct (IH _ _ _ N2 Hb1 E) as (A & B & C & D). split; [exact A|]. split; [now rewrite B, set_at_length|]. split.
        -- intros j Hj. rewrite C by (intro; apply Hj; now right). apply set_at_other. intros ->. apply Hj. now left.
        -- intros Hf j c' o' [<-|Hj] Hn.
           ++ assert (c' = c /\ o' = o) as [-> ->] by (split; congruence). rewrite En. exists o1. split; [rewrite C by exact N1; now apply set_at_same|]. split; [exact Es|].
              unfold init in *. destruct (check_params is_empty o1); congruence.
           ++ assert (i <> j) by (intros ->; contradiction). apply (D Hf j c' o' Hj). now rewrite set_at_other.
      * injection E as <- <-. split; [exact Hb1|]. split; [apply set_at_length|]. split; [|discriminate]. intros j Hj. apply set_at_other. intros ->. apply Hj. now left.
      * injection E as <- <-. split; [exact Hb1|]. split; [apply set_at_length|]. split; [|discriminate]. intros j Hj. apply set_at_other. intros ->. apply Hj. now left.
    + destruct (IH _ _ _ N2 Hb E) as (A & B & C & D). split; [exact A|]. split; [exact B|]. split; [intros j Hj; apply C; intro; apply Hj; now right|].
      intros Hf j c' o' [<-|Hj] Hn; [|now apply (D Hf)]. assert (c' = c /\ o' = o) as [-> ->] by (split; congruence). rewrite En, C by exact N1. exact Ei.
  - now apply IH.
Qed.

Lemma NoDup_parts {A} (l r : list A) : NoDup (l ++ r) -> NoDup l /\ NoDup r.
Proof.
  induction l as [|x l IH]; cbn; intro N; [split; [constructor|exact N]|]. apply NoDup_cons_iff in N. destruct N as [N1 N2]. destruct (IH N2) as [A1 A2].
  split; [|exact A2]. constructor; [|exact A1]. intro H. apply N1, in_app_iff. now left.
Qed.
Lemma nodup_one (s : state) p g : inv s -> nth_error (progs s) p = Some g -> NoDup (operators_of g).
Proof.
  intros (_ & _ & N) H. apply nth_error_split in H. destruct H as (a & b & E & _). rewrite E, flat_map_app in N. cbn [flat_map] in N.
  apply NoDup_parts in N. destruct N as [_ N]. now apply NoDup_parts in N.
Qed.
Lemma nodup_two (s : state) p q g h i : inv s -> nth_error (progs s) p = Some g -> nth_error (progs s) q = Some h -> p <> q -> In i (operators_of g) -> In i (operators_of h) -> False.
Proof.
  intros (_ & _ & N) Hp Hq Hne Hg Hh. revert p q Hp Hq Hne. induction (progs s) as [|x l IH]; intros [|p] [|q] Hp Hq Hne; cbn in *; try discriminate; try congruence.
  - injection Hp as ->. apply nth_error_In in Hq. revert N. generalize (operators_of g), Hg. clear -Hh Hq. induction l0 as [|y l0 IHl]; intros Hg N; [destruct Hg|]. cbn in N. apply NoDup_cons_iff in N. destruct N as [N1 N2].
    destruct Hg as [->|Hg]; [|now apply IHl]. apply N1, in_app_iff. right. apply in_flat_map. eauto.
  - injection Hq as ->. apply nth_error_In in Hp. revert N. generalize (operators_of h), Hh. clear -Hg Hp. induction l0 as [|y l0 IHl]; intros Hh N; [destruct Hh|]. cbn in N. apply NoDup_cons_iff in N. destruct N as [N1 N2].
    destruct Hh as [->|Hh]; [|now apply IHl]. apply N1, in_app_iff. right. apply in_flat_map. eauto.
  - apply NoDup_parts in N. destruct N as [_ N]. apply (IH N p q Hp Hq). congruence.
Qed.

Lemma own_extends (s t : state) p : inv s -> extends s t -> p < length (progs s) -> own t p = own s p.
Proof.
  intros I E Hp. unfold own. destruct (nth_error (progs s) p) as [g|] eqn:N; [|apply nth_error_None in N; lia]. rewrite (extends_progs s t _ _ E N). cbn [option_map]. do 2 f_equal.
  apply map_ext_in. intros i Hi. destruct I as (_ & B & _). rewrite Forall_forall in B. destruct (B g (nth_error_In _ _ N)) as (Bo & _). rewrite Forall_forall in Bo. specialize (Bo i Hi). cbn in Bo.
  destruct (nth_error (ops s) i) as [x|] eqn:Ei; [|apply nth_error_None in Ei; lia]. now apply (extends_ops s t).
Qed.

Definition after (r : @result V) : option state := match r with Done s _ | Refused s => Some s | _ => None end.

Lemma step_spec (s : state) e t : inv s -> after (step s e) = Some t ->
  inv t /\ forall p, p < length (progs s) -> ~ changes e p -> own t p = own s p.
Proof.
  intros I E. destruct e as [src ins outs|p|p node param v|p slot f]; cbn [ProgramModel.step changes] in *.
  - unfold compile in E. destruct (build (length (ops s)) src) as [[is os]| |] eqn:B; try discriminate; cbn [after] in E; injection E as <-.
    + destruct (build_spec _ _ _ _ B) as [Hi Hb]. split.
      * apply inv_add; cbn [lock filters input_count in_types]; auto; try lia.
        -- apply Forall_forall. intros f Hf q ->. apply repeat_spec in Hf. discriminate.
        -- unfold input_count. cbn [in_types]. now rewrite repeat_length, map_length.
      * intros p Hp _. apply own_extends; [exact I| |exact Hp]. eexists _, _. split; reflexivity.
    + split; [exact I|reflexivity].
  - unfold clone_of in E. destruct (clone_program (S (locks s)) [] s p) as [t' q|s'| | |] eqn:C; try discriminate; cbn [after] in E; injection E as <-.
    + destruct (clone_spec _ _ _ _ _ _ I C) as (Ex & I' & _). split; [exact I'|]. intros p' Hp _. now apply own_extends.
    + assert (s' = s) as ->. { clear -C. cbn [ProgramModel.clone_program] in C. destruct (nth_error (progs s) p) as [g|]; [|discriminate]. destruct (existsb (Nat.eqb (lock g)) []); [discriminate|].
        destruct (each _ s (filters g)) as [s1 fs|r]; [|destruct r; congruence]. destruct (sources s1 (instrs g)) as [src|]; [|discriminate]. destruct (build (length (ops s1)) src) as [[is os]| |]; congruence. }
      split; [exact I|reflexivity].
  - destruct (nth_error (progs s) p) as [g|] eqn:N; [|discriminate]. destruct (set_param is_empty text (ops s) (instrs g) node param v) as [os fine] eqn:Sp.
    assert (t = State os (progs s) (locks s)) as -> by (destruct fine; cbn [after] in E; congruence).
    destruct (set_param_spec node param v (instrs g) (ops s) os fine (nodup_one s p g I N) (proj1 I) Sp) as (A & B & C & _). split.
    + destruct I as (_ & B' & C'). split; [exact A|]. split; [|exact C']. cbn [progs]. eapply Forall_impl; [|exact B']. intros h. apply sound_grow; cbn [ops progs locks]; lia.
    + intros q Hq Hne. unfold own. cbn [progs ops]. destruct (nth_error (progs s) q) as [h|] eqn:Nq; [|reflexivity]. cbn [option_map]. do 2 f_equal. apply map_ext_in. intros i Hi. apply C.
      intro Hg. apply (nodup_two s p q g h i I N Nq); auto.
  - destruct (nth_error (progs s) p) as [g|] eqn:N; [|discriminate]. destruct (Nat.leb (input_count g) slot) eqn:Ls; [cbn [after] in E; injection E as <-; split; [exact I|reflexivity]|].
    set (b := Done (State (ops s) (set_at p (with_filter g slot f) (progs s)) (locks s)) p) in E.
    assert (Lp : p < length (progs s)) by (apply nth_error_Some; congruence).
    assert (H : t = s \/ (t = State (ops s) (set_at p (with_filter g slot f) (progs s)) (locks s) /\ forall q, f = Some q -> q < length (progs s))).
    { destruct f as [q|]; [|right; split; [cbn in E; congruence|discriminate]]. destruct (nth_error (progs s) q) as [h|] eqn:Nq; [|discriminate].
      destruct (Nat.eqb (input_count h) 1 && Nat.eqb (output_count h) 1); cbn [after b] in E; [|left; congruence]. right. split; [congruence|]. intros q' [= <-]. apply nth_error_Some. congruence. }
    destruct H as [->|[-> Hq]]; [split; [exact I|reflexivity]|]. split.
    + destruct I as (A & B & C). assert (Sg : sound s g) by (rewrite Forall_forall in B; apply B; now apply nth_error_In in N). split; [exact A|]. split; cbn [progs].
      * apply Forall_forall. intros h Hh. apply In_nth_error in Hh. destruct Hh as [k Hk]. assert (Sh : sound s h).
        { destruct (Nat.eq_dec p k) as [<-|Hne].
          - rewrite set_at_same in Hk by exact Lp. injection Hk as <-. destruct Sg as (S1 & S2 & S3 & S4). split; [exact S1|]. split; [exact S2|]. cbn [with_filter filters]. split; [now apply set_at_Forall|].
            rewrite set_at_length. exact S4.
          - rewrite set_at_other in Hk by exact Hne. rewrite Forall_forall in B. apply B. now apply nth_error_In in Hk. }
        apply (sound_grow s); cbn [ops progs locks]; rewrite ?set_at_length; auto.
      * replace (flat_map operators_of (set_at p (with_filter g slot f) (progs s))) with (flat_map operators_of (progs s)); [exact C|]. clear -N. revert p N. induction (progs s) as [|x l IH]; intros [|p] N; cbn in *; try discriminate.
        -- injection N as ->. reflexivity.
        -- f_equal. now apply IH.
    + intros q Hql Hne. unfold own. cbn [progs ops]. now rewrite set_at_other.
Qed.

Lemma history_inv : forall l s t, inv s -> history s l = Some t -> inv t.
Proof.
  induction l as [|e l IH]; intros s t I E; cbn [ProgramModel.history] in E; [injection E as <-; exact I|].
  destruct (step s e) as [s1 q|s1| | |] eqn:S; try discriminate; (apply (IH s1); [|exact E]); apply (step_spec s e s1 I); now rewrite S.
Qed.
Definition reached (s : state) : Prop := exists l, history start l = Some s.
Lemma reached_inv s : reached s -> inv s.
Proof. intros [l H]. exact (history_inv l start s start_inv H). Qed.

(** A clone is a new program that does what the original does: the same
    instructions, the same parameters in the operators, the same slots, types and
    constants, and clones of the filters; nothing that exists is changed, and none
    of its operators existed before.  Missing: the names of inputs and outputs
    (C150_names_refuted). *)
Theorem C150_clone_partial s p t q : reached s -> clone_of is_empty decl s p = Done t q ->
  length (progs s) <= q /\ extends s t /\ (forall n, alike n t p q) /\
  (forall g i, nth_error (progs t) q = Some g -> In i (operators_of g) -> length (ops s) <= i).
Proof.
  intros R E. pose proof (reached_inv s R) as I. destruct (clone_spec _ _ _ _ _ _ I E) as (Ex & I' & _ & Q & A). split; [lia|]. split; [exact Ex|]. split; [exact A|].
  intros g i Hg Hi. unfold clone_of in E. cbn [ProgramModel.clone_program] in E. destruct (nth_error (progs s) p) as [g0|]; [|discriminate]. destruct (existsb (Nat.eqb (lock g0)) []); [discriminate|].
  destruct (each (clone_program (locks s) [lock g0]) s (filters g0)) as [s1 fs|r] eqn:G; [|destruct r; try discriminate; now apply each_not_done in G].
  destruct (each_spec _ (clone_spec (locks s) [lock g0]) _ _ _ _ I G) as (E1 & _). destruct (sources s1 (instrs g0)) as [src|]; [|discriminate].
  destruct (build (length (ops s1)) src) as [[is os]| |] eqn:B; try discriminate. injection E as <- <-. cbn [progs] in Hg. rewrite nth_error_app2, Nat.sub_diag in Hg by lia.
  injection Hg as <-. destruct (build_spec _ _ _ _ B) as [Hb _]. change (In i (ids is)) in Hi. rewrite Hb in Hi. apply in_seq in Hi. pose proof (extends_length _ _ E1). lia.
Qed.

(** *** when cloning succeeds *)
Lemma create_defined (o : operator V) ps : create is_empty o ps <> SUndef.
Proof.
  unfold create. enough (H : set_all o ps <> SUndef).
  { destruct (set_all o ps) as [o'| |]; [|discriminate|congruence]. unfold init. destruct (check_params is_empty o'); discriminate. }
  revert o. induction ps as [|[p v] ps IH]; intro o; cbn [set_all]; [discriminate|]. unfold set_ at 1.
  destruct (negb (retention p) && negb (is_in_fields o p) && strict o); [discriminate|apply IH].
Qed.
Definition ready (co : nat * operator V) : Prop := init is_empty (snd co) = SOk (snd co).
Lemma complete_ready (s : state) : complete is_empty s <-> Forall ready (ops s).
Proof.
  rewrite Forall_forall. split.
  - intros H [c o] Hi. apply In_nth_error in Hi. destruct Hi as [i Hi]. exact (H i c o Hi).
  - intros H i c o Hi. exact (H (c, o) (nth_error_In _ _ Hi)).
Qed.
Lemma build_ready : forall src base is os, build base src = SOk (is, os) -> Forall ready os.
Proof.
  induction src as [|[w|[c ps]] src IH]; intros base is os E; cbn [ProgramModel.build] in E.
  - injection E as <- <-. constructor.
  - destruct (build base src) as [[is1 os1]| |] eqn:B; try discriminate. injection E as <- <-. exact (IH _ _ _ B).
  - destruct (create is_empty (made c) ps) as [o| |] eqn:C; try discriminate. destruct (build (S base) src) as [[is1 os1]| |] eqn:B; try discriminate.
    injection E as <- <-. constructor; [|exact (IH _ _ _ B)]. unfold create in C. destruct (set_all (made c) ps) as [o1| |]; try discriminate.
    unfold ready. cbn [snd]. unfold init in *. destruct (check_params is_empty o1) eqn:K; [|discriminate]. injection C as ->. now rewrite K.
Qed.
Lemma sources_build (s : state) : Forall born (ops s) -> forall is base, Forall (fun i => i < length (ops s)) (ids is) ->
  exists src, sources s is = Some src /\ match build base src with SOk _ => True | SErr => ~ complete is_empty s | SUndef => False end.
Proof.
  intros Hb. induction is as [|[i|w] is IH]; intros base Hi; cbn [sources].
  - exists []. split; [reflexivity|exact Logic.I].
  - change (ids (Operator i :: is)) with (i :: ids is) in Hi. pose proof (Forall_inv Hi) as Li. apply Forall_inv_tail in Hi. cbn beta in Li.
    destruct (nth_error (ops s) i) as [[c o]|] eqn:N; [|apply nth_error_None in N; lia]. destruct (IH (S base) Hi) as (src & -> & B). cbn [option_map].
    eexists. split; [reflexivity|]. cbn [ProgramModel.build]. rewrite Forall_forall in Hb. destruct (Hb (c, o) (nth_error_In _ _ N)) as [l El]. cbn [fst snd] in El.
    destruct (faithful _ l o El) as [F G]. destruct (create is_empty (made c) (params o)) as [o'| |] eqn:C; [| |now apply create_defined in C].
    + destruct (build (S base) src) as [[is1 os1]| |]; exact B.
    + intro K. rewrite (K i c o N) in F. discriminate.
  - destruct (IH base Hi) as (src & -> & B). cbn [option_map]. eexists. split; [reflexivity|]. cbn [ProgramModel.build]. destruct (build base src) as [[is1 os1]| |]; exact B.
Qed.

Definition decent (s : state) (r : @result V) : Prop :=
  match r with Done t _ => complete is_empty s -> complete is_empty t | Refused t => t = s /\ ~ complete is_empty s | Undef => False | _ => True end.
Lemma each_total f : (forall s p t q, inv s -> f s p = Done t q -> copied s t p q) -> (forall s p, inv s -> p < length (progs s) -> decent s (f s p)) ->
  forall l s, inv s -> Forall (fun x => forall q, x = Some q -> q < length (progs s)) l ->
  match each f s l with Copied t _ => complete is_empty s -> complete is_empty t | Stopped (Refused _) => ~ complete is_empty s | Stopped Undef => False | _ => True end.
Proof.
  intros Hc Hd. induction l as [|[p|] l IH]; intros s I F; cbn [each]; [auto| |].
  - pose proof (Forall_inv F p eq_refl) as Lp. apply Forall_inv_tail in F. pose proof (Hd s p I Lp) as D. destruct (f s p) as [s1 q|s1| | |] eqn:E; cbn [decent] in D; [| |auto|auto|auto].
    + destruct (Hc _ _ _ _ I E) as (E1 & I1 & _). pose proof (extends_length _ _ E1) as [_ Le].
      assert (F1 : Forall (fun x => forall q, x = Some q -> q < length (progs s1)) l) by (eapply Forall_impl; [|exact F]; cbn; intros x Hx q' Eq; specialize (Hx q' Eq); lia).
      pose proof (IH s1 I1 F1) as G. destruct (each f s1 l) as [s2 l2|[| | | |]]; auto. 
    + tauto.
  - apply Forall_inv_tail in F. pose proof (IH s I F) as G. destruct (each f s l) as [s2 l2|[| | | |]]; auto.
Qed.
Lemma clone_total : forall fuel held (s : state) p, inv s -> p < length (progs s) -> decent s (clone_program fuel held s p).
Proof.
  induction fuel as [|fuel IH]; intros held s p I Lp; cbn [ProgramModel.clone_program]; [exact Logic.I|].
  destruct (nth_error (progs s) p) as [g|] eqn:N; [|apply nth_error_None in N; lia]. destruct (existsb (Nat.eqb (lock g)) held); [exact Logic.I|].
  assert (Sg : sound s g). { destruct I as (_ & B' & _). rewrite Forall_forall in B'. apply B'. now apply nth_error_In in N. }
  destruct Sg as (Sg1 & _ & Sg3 & _). pose proof (each_total _ (clone_spec fuel (lock g :: held)) (IH (lock g :: held)) _ s I Sg3) as T.
  destruct (each (clone_program fuel (lock g :: held)) s (filters g)) as [s1 fs|r] eqn:G.
  2: { destruct r; cbn [decent]; auto. now apply each_not_done in G. }
  destruct (each_spec _ (clone_spec fuel (lock g :: held)) _ _ _ _ I G) as (E1 & I1 & _). pose proof (extends_length _ _ E1) as [Lo _].
  destruct (sources_build s1 (proj1 I1) (instrs g) (length (ops s1))) as (src & -> & B). { eapply Forall_impl; [|exact Sg1]. cbn. lia. }
  destruct (build (length (ops s1)) src) as [[is os]| |] eqn:Eb; cbn [decent]; [| |exact B].
  - intro K. apply complete_ready. cbn [ops]. apply Forall_app. split; [apply complete_ready; auto|now apply build_ready in Eb].
  - split; [reflexivity|]. intro K. apply B, T, K.
Qed.

(** Cloning a program always comes to an end: in a clone, in an exception that
    changes nothing (and only if some operator lacks a required parameter), or
    waiting for a lock that it holds itself. *)
Theorem C150_clone_ends s p : reached s -> p < length (progs s) ->
  match clone_of is_empty decl s p with Done _ _ | Hangs => True | Refused t => t = s /\ ~ complete is_empty s | _ => False end.
Proof.
  intros R Hp. pose proof (reached_inv s R) as I. pose proof (clone_total (S (locks s)) [] s p I Hp) as D. unfold clone_of.
  pose proof (fuel_enough (S (locks s)) [] s p I (NoDup_nil _) (fun k H => match H with end)) as F. cbn [length] in F.
  destruct (clone_program (S (locks s)) [] s p); auto. apply F; [lia|reflexivity].
Qed.

(** With image filters (programs of their own, without filters) and complete
    operators it is a clone. *)
Definition plain_filters (s : state) (g : program) : Prop :=
  forall q, In (Some q) (filters g) -> exists h, nth_error (progs s) q = Some h /\ lock h <> lock g /\ forall f, In f (filters h) -> f = None.
Lemma each_none f (s : state) l : (forall x, In x l -> x = None) -> each f s l = Copied s l.
Proof.
  induction l as [|x l IH]; intro H; [reflexivity|]. rewrite (H x (or_introl eq_refl)). cbn [each]. rewrite IH; [reflexivity|]. intros y Hy. apply H. now right.
Qed.
Lemma each_flat fuel k : forall l s, inv s -> (forall q, In (Some q) l -> exists h, nth_error (progs s) q = Some h /\ lock h <> k /\ forall f, In f (filters h) -> f = None) ->
  each (clone_program (S fuel) [k]) s l <> Stopped Hangs.
Proof.
  induction l as [|[q|] l IH]; intros s I H E; cbn [each] in E; [discriminate| |].
  - destruct (clone_program (S fuel) [k] s q) as [s1 x| | | |] eqn:C; try discriminate.
    + destruct (clone_spec _ _ _ _ _ _ I C) as (E1 & I1 & _). destruct (each (clone_program (S fuel) [k]) s1 l) eqn:G; [discriminate|]. injection E as ->.
      apply (IH s1 I1); [|exact G]. intros q' Hq'. destruct (H q' (or_intror Hq')) as (h & Hh & Hl & Hf). exists h. split; [now apply (extends_progs s s1)|]. auto.
    + destruct (H q (or_introl eq_refl)) as (h & Hh & Hl & Hf). cbn [ProgramModel.clone_program] in C. rewrite Hh in C. cbn [existsb] in C. rewrite (proj2 (Nat.eqb_neq _ _) Hl) in C. cbn [orb] in C.
      rewrite each_none in C by exact Hf. destruct (sources s (instrs h)); [|discriminate]. destruct (build (length (ops s)) l0) as [[is os]| |]; discriminate.
  - destruct (each (clone_program (S fuel) [k]) s l) eqn:G; [discriminate|]. injection E as ->. apply (IH s I); [|exact G]. intros q' Hq'. apply H. now right.
Qed.
Theorem C150_clone_answers s p g : reached s -> nth_error (progs s) p = Some g -> plain_filters s g -> complete is_empty s -> exists t q, clone_of is_empty decl s p = Done t q.
Proof.
  intros R N P K. pose proof (reached_inv s R) as I. assert (Lp : p < length (progs s)) by (apply nth_error_Some; congruence).
  pose proof (C150_clone_ends s p R Lp) as E. destruct (clone_of is_empty decl s p) as [t q|t| | |] eqn:C; [eauto|tauto| |contradiction|contradiction].
  exfalso. unfold clone_of in C. cbn [ProgramModel.clone_program] in C. rewrite N in C. cbn [existsb] in C.
  assert (Lk : lock g < locks s). { destruct I as (_ & B' & _). rewrite Forall_forall in B'. destruct (B' g (nth_error_In _ _ N)) as (_ & Q & _). exact Q. }
  destruct (locks s) as [|k] eqn:Ek; [lia|]. pose proof (each_flat k (lock g) (filters g) s I P) as F.
  destruct (each (clone_program (S k) [lock g]) s (filters g)) as [s1 fs|r].
  - destruct (sources s1 (instrs g)); [|discriminate]. destruct (build (length (ops s1)) l) as [[is os]| |]; discriminate.
  - destruct r; try discriminate. now apply F.
Qed.

(** Every program keeps what belongs to it, until it is itself given a parameter
    or a filter. *)
Theorem C150_independent l : forall s t p, reached s -> history s l = Some t -> p < length (progs s) -> (forall e, In e l -> ~ changes e p) -> own t p = own s p.
Proof.
  induction l as [|e l IH]; intros s t p R E Hp Hc; cbn [ProgramModel.history] in E; [congruence|].
  assert (G : exists s1, after (step s e) = Some s1 /\ history s1 l = Some t) by (destruct (step s e) as [s1 q|s1| | |]; try discriminate; exists s1; (split; [reflexivity|exact E])).
  destruct G as (s1 & A & H). destruct (step_spec s e s1 (reached_inv s R) A) as (I1 & O). rewrite <- (O p Hp) by (apply Hc; now left).
  apply IH; auto.
  - destruct R as [h Hh]. exists (h ++ [e]). clear -Hh A. revert Hh. generalize (start (V := V)). induction h as [|x h IHh]; intros s0 Hh; cbn [app ProgramModel.history] in *.
    + injection Hh as ->. destruct (step s e); cbn in A; congruence.
    + destruct (step s0 x); try discriminate; auto.
  - pose proof (O p Hp (Hc e (or_introl eq_refl))) as Q. unfold own in Q. destruct (nth_error (progs s) p) eqn:N; [|apply nth_error_None in N; lia]. apply nth_error_Some. destruct (nth_error (progs s1) p); [congruence|discriminate].
  - intros e' He'. apply Hc. now right.
Qed.
(** Setting a parameter by the name of a node sets it in every operator of the
    program with this name, and changes nothing else. *)
Theorem C150_set s p g node param v t q : reached s -> nth_error (progs s) p = Some g -> step s (Set_ p node param v) = Done t q ->
  progs t = progs s /\ (forall i, ~ In i (operators_of g) -> nth_error (ops t) i = nth_error (ops s) i) /\
  (forall i c o, In i (operators_of g) -> nth_error (ops s) i = Some (c, o) -> exists o', nth_error (ops t) i = Some (c, o') /\
     (name_of text o = node -> get o' param = SOk v /\ forall x, x <> param -> get o' x = get o x) /\ (name_of text o <> node -> o' = o)).
Proof.
  intros R N E. pose proof (reached_inv s R) as I. cbn [ProgramModel.step] in E. rewrite N in E. destruct (set_param is_empty text (ops s) (instrs g) node param v) as [os fine] eqn:Sp.
  destruct fine; [|discriminate]. injection E as <- <-. destruct (set_param_spec node param v (instrs g) (ops s) os true (nodup_one s p g I N) (proj1 I) Sp) as (_ & _ & C & D).
  split; [reflexivity|]. split; [exact C|]. intros i c o Hi Ho. specialize (D eq_refl i c o Hi Ho). cbn [ops]. destruct (String.eqb_spec (name_of text o) node) as [->|Hn].
  - destruct D as (o' & A & B & _). exists o'. split; [exact A|]. split; [|congruence]. intros _. split.
    + rewrite (set_get _ _ _ _ B). now rewrite String.eqb_refl.
    + intros x Hx. rewrite (set_get _ _ _ _ B). destruct (String.eqb_spec param x); congruence.
  - exists o. split; [exact D|]. split; [congruence|reflexivity].
Qed.

(** A name means the first input (output) with this name. *)
Lemma slots_from_spec : forall names m i n, (forall k j, slot_of m k = Some j -> j < i) ->
  slot_of (slots_from m i names) n = match slot_of m n with Some j => Some j | None => 
    (fix place l j := match l with [] => None | k :: r => if String.eqb k n then Some j else place r (S j) end) names i end.
Proof.
  assert (Happ : forall m k i n, slot_of (m ++ [(k, i)])%list n = match slot_of m n with Some j => Some j | None => if String.eqb k n then Some i else None end).
  { induction m as [|[a b] m IH]; intros; cbn; [reflexivity|]. destruct (String.eqb a n); auto. }
  assert (Hhas : forall m n, has_name m n = match slot_of m n with Some _ => true | None => false end).
  { induction m as [|[a b] m IH]; intros; cbn; [reflexivity|]. unfold has_name in *. cbn. destruct (String.eqb a n); [reflexivity|apply IH]. }
  induction names as [|k names IH]; intros m i n Hm; cbn [slots_from].
  - now destruct (slot_of m n).
  - rewrite IH.
    + rewrite Hhas. destruct (slot_of m k) as [j|] eqn:Ek.
      * destruct (slot_of m n) eqn:En; [reflexivity|]. destruct (String.eqb_spec k n); [congruence|reflexivity].
      * rewrite Happ. destruct (slot_of m n); [reflexivity|]. destruct (String.eqb k n); reflexivity.
    + intros x j. rewrite Hhas. destruct (slot_of m k) as [j'|]; intro Hx; [specialize (Hm _ _ Hx); lia|]. rewrite Happ in Hx. destruct (slot_of m x) eqn:Ex.
      * injection Hx as ->. specialize (Hm _ _ Ex). lia.
      * destruct (String.eqb k x); [injection Hx as <-; lia|discriminate].
Qed.
Lemma slots_first names n i : slot_of (slots_from [] 0 names) n = Some i <-> first_place names n i.
Proof.
  rewrite slots_from_spec by (intros; discriminate). cbn [slot_of].
  assert (G : forall l b j, (fix place l j := match l with [] => None | k :: r => if String.eqb k n then Some j else place r (S j) end) l b = Some j <-> b <= j /\ first_place l n (j - b)).
  { induction l as [|k l IH]; intros b j.
    - split; [discriminate|]. intros [_ [H _]]. now destruct (j - b).
    - destruct (String.eqb_spec k n) as [->|Hk].
      + split.
        * intros [= ->]. split; [lia|]. rewrite Nat.sub_diag. split; [reflexivity|]. lia.
        * intros [Hb [H1 H2]]. destruct (j - b) as [|d] eqn:E; [f_equal; lia|]. exfalso. apply (H2 0); [lia|reflexivity].
      + rewrite IH. split.
        * intros [Hb [H1 H2]]. split; [lia|]. replace (j - b) with (S (j - S b)) by lia. split; [exact H1|]. intros [|m] Hm; [cbn; congruence|]. apply H2. lia.
        * intros [Hb [H1 H2]]. destruct (j - b) as [|d] eqn:E; [cbn in H1; congruence|]. split; [lia|]. replace (j - S b) with d by lia. split; [exact H1|]. intros m Hm. apply (H2 (S m)). lia. }
  rewrite G, Nat.sub_0_r. split; [tauto|]. intro H. split; [lia|exact H].
Qed.
Lemma first_exists names n : In n names -> exists i, first_place names n i.
Proof.
  induction names as [|k l IH]; intros H; [destruct H|]. destruct (string_dec k n) as [->|Hk].
  - exists 0. split; [reflexivity|]. lia.
  - destruct H as [H|H]; [congruence|]. destruct (IH H) as (i & A & B). exists (S i). split; [exact A|]. intros [|j] Hj; [cbn; congruence|]. apply B. lia.
Qed.
Theorem C150_slots s src ins outs t q : compile is_empty decl s src ins outs = Done t q ->
  exists g, nth_error (progs t) q = Some g /\ input_count g = length ins /\ output_count g = length outs /\
    (forall n i, input_slot g n = Some i <-> first_place (map fst ins) n i) /\ (forall n i, output_slot g n = Some i <-> first_place (map fst outs) n i) /\
    (forall n, input_slot g n = None <-> ~ In n (map fst ins)) /\ (forall n, output_slot g n = None <-> ~ In n (map fst outs)).
Proof.
  unfold compile. destruct (build (length (ops s)) src) as [[is os]| |]; try discriminate. intros [= <- <-]. cbn [progs]. eexists. split; [rewrite nth_error_app2, Nat.sub_diag by lia; reflexivity|].
  unfold input_count, output_count, input_slot, output_slot. cbn [in_types out_types in_slots out_slots]. rewrite !map_length.
  split; [reflexivity|]. split; [reflexivity|]. split; [intros; apply slots_first|]. split; [intros; apply slots_first|].
  assert (Z : forall names n, slot_of (slots_from [] 0 names) n = None <-> ~ In n names).
  { intros names n. split.
    - intros E H. apply first_exists in H. destruct H as [i H]. apply slots_first in H. congruence.
    - intros H. destruct (slot_of (slots_from [] 0 names) n) as [i|] eqn:E; [|reflexivity]. apply slots_first in E. destruct E as [E _]. apply nth_error_In in E. contradiction. }
  split; intro; apply Z.
Qed.

(** run_hook on a compiled program keeps the inputs under their names. *)
Lemma find_save (m : list (string * V)) n (v : V) k : find k (save m n v) = if String.eqb n k then Some v else find k m.
Proof.
  induction m as [|[a b] m IH]; cbn; [destruct (String.eqb n k); reflexivity|]. destruct (String.eqb_spec a n) as [->|Ha]; cbn.
  - destruct (String.eqb n k); reflexivity.
  - destruct (String.eqb_spec a k) as [->|Hk]; [|exact IH]. destruct (String.eqb_spec n k); congruence.
Qed.
Lemma hook_spec : forall (values : list V) names m, length values = length names -> NoDup names -> exists m', hook_inputs m (length names) values names = SOk m' /\
  (forall n v, In (n, v) (combine names values) -> find n m' = Some v) /\ (forall n, ~ In n names -> find n m' = find n m).
Proof.
  induction values as [|v vs IH]; intros [|k ks] m L N; try discriminate.
  - exists m. split; [reflexivity|]. split; [intros n v []|auto].
  - apply NoDup_cons_iff in N. destruct N as [N1 N2]. cbn [hook_inputs length]. destruct (IH ks (save m k v) ltac:(cbn in L; lia) N2) as (m' & E & A & B). exists m'. split; [exact E|]. split.
    + intros n w [H|H]; [|now apply A]. injection H as <- <-. rewrite B by exact N1. rewrite find_save. now rewrite String.eqb_refl.
    + intros n Hn. rewrite B by (intro; apply Hn; now right). rewrite find_save. destruct (String.eqb_spec k n) as [->|_]; [exfalso; apply Hn; now left|reflexivity].
Qed.
Theorem C150_hook_partial s src ins outs t q (values : list V) : compile is_empty decl s src ins outs = Done t q -> length values = length ins -> NoDup (map fst ins) ->
  exists g (m : list (string * V)), nth_error (progs t) q = Some g /\ run_hook_inputs g values = SOk m /\ forall n v, In (n, v) (combine (map fst ins) values) -> find n m = Some v.
Proof.
  unfold compile. destruct (build (length (ops s)) src) as [[is os]| |]; try discriminate. intros [= <- <-] L N. cbn [progs].
  destruct (hook_spec values (map fst ins) [] ltac:(now rewrite map_length) N) as (m & E & A & _).
  eexists _, m. split; [rewrite nth_error_app2, Nat.sub_diag by lia; reflexivity|]. split; [|exact A]. unfold run_hook_inputs, input_count. cbn [in_types in_names]. rewrite map_length. now rewrite map_length in E.
Qed.

(** Not of a clone: it has no names, so they are read outside of the (empty)
    vector, whatever the program is. *)
Theorem C150_names_refuted s p t q g (values : list V) : reached s -> clone_of is_empty decl s p = Done t q -> nth_error (progs t) q = Some g -> 0 < input_count g ->
  in_names g = [] /\ run_hook_inputs g values = SUndef.
Proof.
  intros R E Hg Hc. unfold clone_of in E. cbn [ProgramModel.clone_program] in E. destruct (nth_error (progs s) p) as [g0|]; [|discriminate]. destruct (existsb (Nat.eqb (lock g0)) []); [discriminate|].
  destruct (each (clone_program (locks s) [lock g0]) s (filters g0)) as [s1 fs|r] eqn:G; [|destruct r; try discriminate; now apply each_not_done in G].
  destruct (sources s1 (instrs g0)) as [src|]; [|discriminate]. destruct (build (length (ops s1)) src) as [[is os]| |]; try discriminate. injection E as <- <-. cbn [progs] in Hg.
  rewrite nth_error_app2, Nat.sub_diag in Hg by lia. injection Hg as <-. split; [reflexivity|]. unfold run_hook_inputs, input_count in *. cbn [in_types in_names] in *.
  destruct (length (in_types g0)); [lia|]. cbn [hook_inputs]. now destruct values.
Qed.
End Proofs.
Print Assumptions C150_clone_partial.
Print Assumptions C150_clone_ends.
Print Assumptions C150_clone_answers.
Print Assumptions C150_independent.
Print Assumptions C150_set.
Print Assumptions C150_slots.
Print Assumptions C150_hook_partial.
Print Assumptions C150_names_refuted.

(** *** Concrete cases: values are lists of numbers, the text of one has a letter for each *)
Local Open Scope string_scope.
Definition spell (v : list nat) : string := fold_right (fun n s => String (Ascii.ascii_of_nat n) s) "" v.
Definition kinds (c : nat) : list (string * attr * option (list nat)) := [("ksize", REQUIRED, None); ("format", OPTIONAL, Some [1])].
Definition a_program : event (V := list nat) := Compile [inl 7; inr (0, [("ksize", [3]); ("#name", [97])]); inr (0, [("ksize", [2]); ("#name", [98])])] [("x", 10%Z)] [("y", 10%Z)].
Notation run l := (history no_elements spell kinds start l).

(** a program, a filter, the filter bound, a clone, a parameter set in the clone *)
Example C150_example : exists s o o', run [a_program; a_program; Bind 0 0 (Some 1); Clone 0; Set_ 3 "a" "ksize" [5]] = Some s /\ length (progs s) = 4 /\ length (ops s) = 8 /\
  nth_error (ops s) 0 = Some (0, o) /\ get o "ksize" = SOk [3] /\ nth_error (ops s) 6 = Some (0, o') /\ get o' "ksize" = SOk [5] /\ get o' "format" = SOk [1].
Proof. eexists _, _, _. split; [vm_compute; reflexivity|]. repeat split; vm_compute; reflexivity. Qed.
Example C150_complete : exists s g, run [a_program; a_program; Bind 0 0 (Some 1)] = Some s /\ nth_error (progs s) 0 = Some g /\ plain_filters s g /\ complete no_elements s.
Proof.
  eexists _, _. split; [vm_compute; reflexivity|]. split; [reflexivity|]. split.
  - intros q [H|[]]. injection H as <-. eexists. split; [reflexivity|]. split; [discriminate|]. intros f [<-|[]]. reflexivity.
  - intros [|[|[|[|i]]]] c o H; cbn in H; try (injection H as <- <-; reflexivity). now destruct i.
Qed.

(** A program that has a clone of itself as its filter cannot be cloned: both
    have one lock. *)
Theorem C150_lock_refuted : exists s, run [a_program; Clone 0; Bind 1 0 (Some 0)] = Some s /\ clone_of no_elements kinds s 1 = Hangs.
Proof. eexists. split; vm_compute; reflexivity. Qed.
(** A refused parameter stays in the operator. *)
Theorem C150_refused_refuted : exists s t o, run [a_program] = Some s /\ step no_elements spell kinds s (Set_ 0 "a" "ksize" []) = Refused t /\
  nth_error (ops t) 0 = Some (0, o) /\ get o "ksize" = SOk [] /\ clone_of no_elements kinds t 0 = Refused t.
Proof. eexists _, _, _. split; [vm_compute; reflexivity|]. repeat split; vm_compute; reflexivity. Qed.
Print Assumptions C150_lock_refuted.
Print Assumptions C150_refused_refuted.
