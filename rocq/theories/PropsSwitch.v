(** C173: the library for the machine. *)
From Coq Require Import ZArith Bool List Lia.
From Verif Require Import ShapeModel KernelBase SwitchModel.
Import ListNotations.
Local Open Scope Z_scope.

(** what a machine can run, by the manual: the processor has it, and the system saves
    the registers it uses: bit 27 of ecx says that there is an xcr0, bits 1 and 2 of
    xcr0 that the xmm and ymm registers are saved *)
Definition runs (r : registers) (f : feature) : Prop :=
  let ymm := Z.testbit (ecx1 r) 27 = true /\ Z.testbit (xcr0 r) 1 = true /\ Z.testbit (xcr0 r) 2 = true /\ Z.testbit (ecx1 r) 28 = true in
  match f with
  | SSE => Z.testbit (edx1 r) 25 = true
  | SSE2 => Z.testbit (edx1 r) 26 = true
  | AVX => ymm
  | AVX2 => ymm /\ Z.testbit (ebx7 r) 5 = true
  | FMA => ymm /\ Z.testbit (ecx1 r) 12 = true
  end.

Lemma mask x : (Z.land x 6 =? 6) = Z.testbit x 1 && Z.testbit x 2.
Proof.
  apply eq_true_iff_eq. rewrite Z.eqb_eq, andb_true_iff. split.
  - intros H. split; [replace (Z.testbit x 1) with (Z.testbit (Z.land x 6) 1)|replace (Z.testbit x 2) with (Z.testbit (Z.land x 6) 2)];
      try (rewrite H; reflexivity); rewrite Z.land_spec; cbn; apply andb_true_r.
  - intros [H1 H2]. apply Z.bits_inj'. intros n Hn. rewrite Z.land_spec.
    destruct (Z.eq_dec n 1) as [->|N1]; [rewrite H1; reflexivity|]. destruct (Z.eq_dec n 2) as [->|N2]; [rewrite H2; reflexivity|].
    assert (E : Z.testbit 6 n = false). { destruct (Z.eq_dec n 0) as [->|N0]; [reflexivity|]. apply Z.bits_above_log2; [lia|]. cbn. lia. }
    rewrite E. apply andb_false_r.
Qed.
(** The features found are those the machine can run. *)
Theorem C173_features r f : check_cpu_feature r f = true <-> runs r f.
Proof. destruct f; cbn [check_cpu_feature runs]; unfold have_avx, bit; rewrite ?mask, ?andb_true_iff; tauto. Qed.

Definition announced (l : library) : list feature := match l with Haswell => [AVX; FMA] | SandyBridge => [AVX] | Pentium => [SSE; SSE2] end.
Lemma all_run r l : forallb (check_cpu_feature r) l = true <-> forall f, In f l -> runs r f.
Proof. rewrite forallb_forall. split; intros H f Hf; apply C173_features, H, Hf. Qed.
(** The library chosen is the first whose name fits the machine, and there is none
    only if none fits. *)
Theorem C173_choice r : match choose r with
  | Some l => (forall f, In f (announced l) -> runs r f) /\
              (l = Haswell \/ ~ (runs r AVX /\ runs r FMA)) /\ (l = Pentium -> ~ runs r AVX)
  | None => ~ runs r AVX /\ ~ (runs r SSE /\ runs r SSE2)
  end.
Proof.
  unfold choose. destruct (forallb (check_cpu_feature r) [AVX; FMA]) eqn:E1; [|destruct (forallb (check_cpu_feature r) [AVX]) eqn:E2; [|destruct (forallb (check_cpu_feature r) [SSE; SSE2]) eqn:E3]].
  all: cbn [announced]; rewrite <- ?not_true_iff_false, ?all_run in *.
  - split; [exact E1|]. split; [now left|discriminate].
  - split; [exact E2|]. split; [right|discriminate]. intros [A B]. apply E1. intros f [<-|[<-|[]]]; assumption.
  - split; [exact E3|]. split.
    + right. intros [A B]. apply E2. intros f [<-|[]]; assumption.
    + intros _ A. apply E2. intros f [<-|[]]; assumption.
  - split; [intros A; apply E2; intros f [<-|[]]; assumption|]. intros [A B]. apply E3. intros f [<-|[<-|[]]]; assumption.
Qed.

Section Switch.
Context {T : Type} (r : registers) (beside by_name : library -> bool) (creators : library -> T) (main : option library).
Let switched := auto_switch r beside by_name creators.

(** Whatever the machine, the main library and what is installed: after any number of
    workbenches, either all were made, and the operators in use are of a library that
    the machine can run by its name; or all were refused, and nothing changed.  When
    the process ends the first table is back. *)
Theorem C173_switch_partial (own : T) n : let '(s, os) := benches r beside by_name creators n main (State None None own) in
  (Forall (fun o => o = SOk true) os /\
     (table s = own /\ loaded s = None /\ (n = O \/ forall f, In f (match main with Some l => announced l | None => [] end) -> runs r f) \/
      exists l, choose r = Some l /\ loaded s = Some l /\ table s = creators l /\ (beside l = true \/ by_name l = true) /\
        exists s', finish s = SOk s' /\ table s' = own)) \/
  (Forall (fun o => o = SErr) os /\ s = State None None own).
Proof.
  assert (M : main_suffices r main = true <-> forall f, In f (match main with Some l => announced l | None => [] end) -> runs r f).
  { unfold main_suffices. rewrite all_run. destruct main as [[| |]|]; cbn [announced In]; split; intros H f Hf; apply H; tauto. }
  destruct (main_suffices r main) eqn:E.
  - assert (B : benches r beside by_name creators n main (State None None own) = (State None None own, repeat (SOk true) n)).
    { induction n as [|n IH]; [reflexivity|]. cbn [benches]. unfold make_bench. rewrite E, IH. reflexivity. }
    rewrite B. left. split; [apply Forall_forall; intros o Ho; exact (repeat_spec _ _ _ Ho)|]. left. cbn. split; [reflexivity|]. split; [reflexivity|]. right. apply M. reflexivity.
  - clear M. destruct n as [|n]; [cbn [benches]; left; split; [constructor|left; cbn; auto]|].
    destruct (choose r) as [l|] eqn:C; [destruct (beside l || by_name l) eqn:I|].
    + assert (B : benches r beside by_name creators (S n) main (State None None own) = (State (Some l) (Some own) (creators l), repeat (SOk true) (S n))).
      { cbn [benches repeat]. unfold make_bench at 1. rewrite E. unfold auto_switch at 1. cbn [loaded table]. rewrite C, I.
        assert (K : benches r beside by_name creators n main (State (Some l) (Some own) (creators l)) = (State (Some l) (Some own) (creators l), repeat (SOk true) n)).
        { induction n as [|n IH]; [reflexivity|]. cbn [benches repeat]. unfold make_bench. rewrite E. unfold auto_switch. cbn [loaded]. rewrite IH. reflexivity. }
        rewrite K. reflexivity. }
      rewrite B. left. split; [apply Forall_forall; intros o Ho; exact (repeat_spec _ _ _ Ho)|]. right. exists l. cbn [loaded table finish previous].
      split; [reflexivity|]. split; [reflexivity|]. split; [reflexivity|]. split; [apply orb_true_iff, I|]. eexists. split; reflexivity.
    + assert (B : forall k, benches r beside by_name creators k main (State None None own) = (State None None own, repeat SErr k)).
      { induction k as [|k IH]; [reflexivity|]. cbn [benches repeat]. unfold make_bench. rewrite E. unfold auto_switch. cbn [loaded]. rewrite C, I, IH. reflexivity. }
      rewrite B. right. split; [apply Forall_forall; intros o Ho; exact (repeat_spec _ _ _ Ho)|reflexivity].
    + assert (B : forall k, benches r beside by_name creators k main (State None None own) = (State None None own, repeat SErr k)).
      { induction k as [|k IH]; [reflexivity|]. cbn [benches repeat]. unfold make_bench. rewrite E. unfold auto_switch. cbn [loaded]. rewrite C, IH. reflexivity. }
      rewrite B. right. split; [apply Forall_forall; intros o Ho; exact (repeat_spec _ _ _ Ho)|reflexivity].
Qed.
End Switch.

(** On a machine that has AVX2 if it has AVX, no library chosen, and no main library
    kept, was compiled for more than the machine has. *)
Theorem C173_instructions_partial r : (runs r AVX -> runs r AVX2) ->
  (forall l f, choose r = Some l -> In f (compiled_for l) -> runs r f) /\
  (forall l f, main_suffices r (Some l) = true -> In f (compiled_for l) -> runs r f).
Proof.
  intros H. split; intros l f E Hf.
  - pose proof (C173_choice r) as P. rewrite E in P. destruct P as [P _]. destruct l; cbn [compiled_for announced In] in *; repeat (destruct Hf as [<-|Hf]; [auto 6|]); contradiction.
  - unfold main_suffices in E. rewrite all_run in E. destruct l; cbn [compiled_for In] in *; repeat (destruct Hf as [<-|Hf]; [auto 6|]); contradiction.
Qed.

(** A machine with AVX and without AVX2 (a Sandy Bridge) is given the library of that
    name, which is compiled for AVX2; one with AVX and FMA and without AVX2 (a
    Piledriver) keeps a main library compiled for AVX2. *)
Definition bits (l : list Z) : Z := fold_right (fun k a => a + 2 ^ k) 0 l.
Theorem C173_instructions_refuted :
  (let r := Registers (bits [27; 28]) (bits [25; 26]) 0 7 in
   choose r = Some SandyBridge /\ runs r AVX /\ In AVX2 (compiled_for SandyBridge) /\ ~ runs r AVX2) /\
  (let r := Registers (bits [12; 27; 28]) (bits [25; 26]) 0 7 in
   main_suffices r (Some Haswell) = true /\ choose r = Some Haswell /\ runs r FMA /\ In AVX2 (compiled_for Haswell) /\ ~ runs r AVX2).
Proof.
  split; cbv zeta.
  - split; [reflexivity|]. split; [apply C173_features; reflexivity|]. split; [right; now left|]. rewrite <- C173_features. vm_compute. discriminate.
  - split; [reflexivity|]. split; [reflexivity|]. split; [apply C173_features; reflexivity|]. split; [right; now left|]. rewrite <- C173_features. vm_compute. discriminate.
Qed.
(** A refused workbench is fatal at the end of the process: the table to put back was
    never set. *)
Theorem C173_refusal_refuted {T} (own : T) creators :
  let r := Registers 0 0 0 0 in
  let '(s, os) := benches r (fun _ => true) (fun _ => true) creators 1 (Some Pentium) (State None None own) in
  os = [SErr] /\ finish s = SUndef.
Proof. vm_compute. auto. Qed.
Print Assumptions C173_features.
Print Assumptions C173_choice.
Print Assumptions C173_switch_partial.
Print Assumptions C173_instructions_partial.
Print Assumptions C173_instructions_refuted.
Print Assumptions C173_refusal_refuted.
(** a Haswell, and a main library of its own *)
Example C173_example : let r := Registers (bits [12; 27; 28]) (bits [25; 26]) (bits [5]) 7 in
  (runs r AVX -> runs r AVX2) /\ runs r AVX2 /\ choose r = Some Haswell /\
  benches r (fun _ => false) (fun l => match l with Haswell => true | _ => false end) (fun _ => 1%nat) 2 (Some Haswell) (State None None 0%nat) = (State None None 0%nat, [SOk true; SOk true]).
Proof. assert (A : runs (Registers (bits [12; 27; 28]) (bits [25; 26]) (bits [5]) 7) AVX2) by (apply C173_features; reflexivity). cbv zeta. split; [intros _; exact A|]. split; [exact A|]. split; reflexivity. Qed.
Example C173_switched : let r := Registers (bits [28]) (bits [25; 26]) 0 0 in
  benches r (fun _ => false) (fun l => match l with Pentium => true | _ => false end) (fun _ => 1%nat) 2 (Some Haswell) (State None None 0%nat) = (State (Some Pentium) (Some 0%nat) 1%nat, [SOk true; SOk true]).
Proof. reflexivity. Qed.
