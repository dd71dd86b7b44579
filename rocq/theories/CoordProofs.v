(** Kernels that walk over the coordinates of their output in row-major
    order, and read one input element for each. *)
From Coq Require Import List ZArith Bool Lia.
From Verif Require Import ShapeModel ShapeSpec ShapeProofs KernelBase KernelSpec KernelProofs.
Import ListNotations.
Local Open Scope Z_scope.

Definition nonneg_shape (s : list Z) : Prop := Forall (fun d => 0 <= d) s.

Lemma positive_or_empty s : nonneg_shape s -> positive_shape s \/ elements s = 0.
Proof.
  induction 1 as [|d s Hd H [IH|IH]].
  - left. constructor.
  - assert (d = 0 \/ 0 < d) as [->|Hp] by lia; [right; reflexivity|left; now constructor].
  - right. cbn [elements]. rewrite IH. lia.
Qed.

Lemma inside_elements s c : inside s c -> 0 < elements s.
Proof. intros H. apply elements_pos. now apply inside_positive in H. Qed.

(** the [k]-th coordinate *)
Definition coordinate (y : list Z) (k : nat) : list Z := times k (increase y) (start y).

Lemma coordinate_at y k : positive_shape y -> (k < Z.to_nat (elements y))%nat ->
  inside y (coordinate y k) /\ position y (coordinate y k) = Z.of_nat k.
Proof.
  intros Hp Hk. destruct (iterate_ok y k Hp) as [I P]. split; [exact I|]. unfold coordinate. rewrite P.
  apply Z.mod_small. lia.
Qed.

(** a run of stores in row-major order *)
Lemma coord_exec {A} (y : list Z) (g : list Z -> sres A) (tr : list (event A)) :
  nonneg_shape y ->
  (positive_shape y -> tr = map (fun k => (Z.of_nat k, g (coordinate y k))) (seq 0 (Z.to_nat (elements y)))) ->
  (elements y = 0 -> tr = []) ->
  (forall c, inside y c -> exists a, g c = SOk a) ->
  exists out, exec (fresh (elements y)) tr = SOk (map Some out) /\ Z.of_nat (length out) = elements y /\
    forall c a, inside y c -> g c = SOk a -> nth_error out (Z.to_nat (position y c)) = Some a.
Proof.
  intros Hn H1 H0 Hg. destruct (positive_or_empty y Hn) as [Hp|He].
  2: { rewrite (H0 He), He. exists []. split; [reflexivity|]. split; [reflexivity|].
       intros c a Hc _. pose proof (inside_elements _ _ Hc). lia. }
  specialize (H1 Hp). subst tr. pose proof (elements_pos _ Hp) as Pos.
  assert (Ex : forall k, exists a, (k < Z.to_nat (elements y))%nat -> g (coordinate y k) = SOk a).
  { intros k. destruct (Nat.lt_ge_cases k (Z.to_nat (elements y))) as [Hk|Hk].
    - destruct (Hg (coordinate y k)) as [a Ha]; [now apply coordinate_at|]. exists a. auto.
    - destruct (Hg (coordinate y 0)) as [a _]; [apply coordinate_at; [exact Hp|lia]|]. exists a. lia. }
  assert (Run : forall n k0 (m : list (option A)), (k0 + n = Z.to_nat (elements y))%nat -> length m = Z.to_nat (elements y) ->
    exists m', exec m (map (fun k => (Z.of_nat k, g (coordinate y k))) (seq k0 n)) = SOk m' /\ length m' = length m /\
      (forall k, (k < k0)%nat -> nth_error m' k = nth_error m k) /\
      (forall k a, (k0 <= k < Z.to_nat (elements y))%nat -> g (coordinate y k) = SOk a -> nth_error m' k = Some (Some a))).
  { induction n as [|n IH]; intros k0 m Hk Hm.
    - exists m. split; [reflexivity|]. split; [reflexivity|]. split; [auto|]. intros; lia.
    - cbn [seq map exec]. destruct (Ex k0) as [a0 Ha0]. rewrite (Ha0 ltac:(lia)).
      rewrite store_ok by lia. destruct (IH (S k0) (set_nth (Z.to_nat (Z.of_nat k0)) (Some a0) m)) as (m' & E & L & K1 & K2).
      + lia.
      + now rewrite set_nth_length.
      + exists m'. rewrite set_nth_length in L. split; [exact E|]. split; [exact L|]. split.
        * intros k Hk'. rewrite K1 by lia. apply set_nth_other. lia.
        * intros k a Hk' Ha. destruct (Nat.eq_dec k k0) as [->|Hne].
          -- rewrite K1 by lia. rewrite Nat2Z.id, set_nth_same by lia. rewrite (Ha0 ltac:(lia)) in Ha. congruence.
          -- apply K2; [lia|exact Ha]. }
  destruct (Run (Z.to_nat (elements y)) 0%nat (fresh (elements y))) as (m' & E & L & _ & K); [lia|unfold fresh; apply repeat_length|].
  assert (All : exists out, m' = map Some out).
  { assert (F : forall o, In o m' -> o <> None).
    { intros o Ho. apply In_nth_error in Ho as [k Ek].
      assert (Hk : (k < length m')%nat) by (apply nth_error_Some; congruence).
      unfold fresh in L. rewrite L, repeat_length in Hk. destruct (Ex k) as [a Ha]. rewrite (K k a) in Ek; [congruence|lia|auto]. }
    clear - F. induction m' as [|[a|] m' IH].
    - exists []. reflexivity.
    - destruct IH as [out ->]; [intros; apply F; now right|]. exists (a :: out). reflexivity.
    - exfalso. apply (F None); [now left|reflexivity]. }
  destruct All as [out ->]. exists out. split; [exact E|]. unfold fresh in L. rewrite map_length, repeat_length in L.
  split; [lia|]. intros c a Hc Ha. pose proof (position_bound _ _ Hc) as B.
  assert (Ec : coordinate y (Z.to_nat (position y c)) = c).
  { destruct (coordinate_at y (Z.to_nat (position y c)) Hp ltac:(lia)) as [I P].
    apply (position_inj y); auto. rewrite P. lia. }
  specialize (K (Z.to_nat (position y c)) a ltac:(lia)). rewrite Ec in K. specialize (K Ha).
  rewrite nth_error_map in K. destruct (nth_error out _) as [b|]; cbn in K; congruence.
Qed.

(** collapsing the trailing axes *)
Lemma position_collapse a b x y : length a = length x ->
  position (a ++ b) (x ++ y) = position (a ++ [elements b]) (x ++ [position b y]).
Proof. intros H. rewrite !position_app by exact H. cbn [elements position]. lia. Qed.

Lemma inside_collapse a b x y : inside a x -> inside b y -> inside (a ++ [elements b]) (x ++ [position b y]).
Proof. intros H1 H2. apply inside_app; [exact H1|]. constructor; [now apply position_bound|constructor]. Qed.
