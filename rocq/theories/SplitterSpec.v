(** What putting the nodes of a graph into groups means, without the splitter.

    [inputs n] are the nodes [n] uses directly.  A node depends on another when
    a chain of uses leads from the first to the second. *)
From Coq Require Import List Relations Bool.
Import ListNotations.

Definition uses (inputs : nat -> list nat) (a b : nat) : Prop := In b (inputs a).
Definition depends (inputs : nat -> list nat) : nat -> nat -> Prop := clos_trans nat (uses inputs).

(** [all] are the nodes of a graph without cycles; [outputs] are its links the
    other way round *)
Record graph_links (inputs outputs : nat -> list nat) (all : list nat) : Prop := {
  gl_nodup : NoDup all;
  gl_all : forall a b, uses inputs a b -> In a all /\ In b all;
  gl_dual : forall a b, In a (outputs b) <-> uses inputs a b;
  gl_acyclic : forall a, ~ depends inputs a a }.

(** a part of a graph no chain of uses leaves and enters again: only such a part
    can be computed by one module at one time *)
Definition convex (inputs : nat -> list nat) (part : nat -> Prop) : Prop :=
  forall a x b, part a -> part b -> depends inputs a x -> depends inputs x b -> part x.

(** the nodes outside that a part needs, and its nodes needed outside *)
Definition needs (inputs : nat -> list nat) (part : nat -> Prop) (x : nat) : Prop :=
  ~ part x /\ exists a, part a /\ uses inputs a x.
Definition offers (inputs : nat -> list nat) (part : nat -> Prop) (x : nat) : Prop :=
  part x /\ exists a, ~ part a /\ uses inputs a x.

(** a group of nodes [part] with the inputs and outputs its module gets *)
Record proper_group (inputs : nat -> list nat) (ok support : nat -> bool) (all : list nat)
    (part : nat -> Prop) (ins outs : list nat) : Prop := {
  (** only nodes the rule accepts, and at least one it asks for *)
  pg_ok : forall n, part n -> ok n = true;
  pg_support : exists n, In n all /\ part n /\ support n = true;
  pg_convex : convex inputs part;
  (** the inputs are needed, and when every member is used in the end outside,
      they are all that is needed *)
  pg_ins : forall x, In x ins -> needs inputs part x;
  pg_ins_all : (forall n, part n -> exists e, ~ part e /\ depends inputs e n) -> forall x, needs inputs part x -> In x ins;
  pg_ins_once : NoDup ins;
  (** the outputs are what is needed outside, unless the group is one node
      that has no inputs *)
  pg_outs : (forall x, In x outs <-> offers inputs part x) \/
            (outs = [] /\ exists s, inputs s = [] /\ forall n, part n <-> n = s) }.

Lemma proper_group_ext inputs ok support all (p q : nat -> Prop) ins outs : (forall n, p n <-> q n) ->
  proper_group inputs ok support all p ins outs -> proper_group inputs ok support all q ins outs.
Proof.
  intros E [A B C D F G H]. constructor.
  - intros n K. apply A, E. exact K.
  - destruct B as (n & K & L & M). exists n. split; [exact K|]. split; [apply E; exact L|exact M].
  - intros a x b K L. intros M N. apply E. eapply C; [apply E; exact K|apply E; exact L|exact M|exact N].
  - intros x K. destruct (D x K) as (L & a & M & N). split; [rewrite <- E; exact L|]. exists a. split; [apply E; exact M|exact N].
  - intros K x (L & a & M & N). apply F.
    + intros n Q. destruct (K n) as (e & R & S); [apply E; exact Q|]. exists e. split; [rewrite E; exact R|exact S].
    + split; [rewrite E; exact L|]. exists a. split; [apply E; exact M|exact N].
  - exact G.
  - destruct H as [H|(H & s & S & T)]; [left|right].
    + intros x. rewrite H. unfold offers. split; intros (K & a & L & M).
      * split; [apply E; exact K|]. exists a. split; [rewrite <- E; exact L|exact M].
      * split; [apply E; exact K|]. exists a. split; [rewrite E; exact L|exact M].
    + split; [exact H|]. exists s. split; [exact S|]. intros n. rewrite <- E. apply T.
Qed.
