(** C165: random numbers. *)
From Coq Require Import List ZArith Bool Lia QArith Qround Lqa.
From Verif Require Import ShapeModel KernelBase ConvModel ResizeModel ResizeProofs RandomModel.
Import ListNotations.
Local Open Scope Z_scope.

(** ** What the interface says *)
(** doubles are rounded in order, and the ints are doubles *)
Definition rounds (rnd : Q -> Q) : Prop :=
  (forall a b, (a <= b)%Q -> (rnd a <= rnd b)%Q) /\ (forall z, -2147483648 <= z <= 2147483648 -> (rnd (inject_Z z) == inject_Z z)%Q).

(** include/utils/random.h 37-46, for bounds in order whose difference is an int *)
Definition fine (c : call) (a : answer) : Prop :=
  match c, a with
  | Seed _, Nothing => True
  | Next, Int z => 0 <= z <= 2147483647
  | Between min max, Int z => min <= max -> max - min <= 2147483647 -> min <= z <= max
  | Unit, Real u => (0 <= u <= 1)%Q
  | Binomial p, Bool b => ((p <= 0)%Q -> b = false) /\ ((1 < p)%Q -> b = true)
  | _, _ => False
  end.
(** the arguments are ints *)
Definition ints (c : call) : Prop :=
  match c with
  | Seed s => is_int s = true
  | Between min max => is_int min = true /\ is_int max = true
  | _ => True
  end.

(** ** Ints *)
Definition fits (z : Z) : Prop := -2147483648 <= z <= 2147483647.
Lemma is_int_fits z : is_int z = true <-> fits z.
Proof. unfold is_int, fits. destruct (Z.leb_spec (-2147483648) z), (Z.leb_spec z 2147483647); cbn; split; intros; try discriminate; try lia; reflexivity. Qed.
Lemma fits_wrap z : fits (wrap z).
Proof. unfold fits, wrap. pose proof (Z.mod_pos_bound (z + 2147483648) 4294967296 ltac:(lia)). lia. Qed.
Lemma fits_high z : fits z <-> z / 2147483648 = 0 \/ z / 2147483648 = -1.
Proof. unfold fits. pose proof (Z.div_mod z 2147483648 ltac:(lia)). pose proof (Z.mod_pos_bound z 2147483648 ltac:(lia)). lia. Qed.
Lemma fits_lxor a b : fits a -> fits b -> fits (Z.lxor a b).
Proof.
  rewrite !fits_high. change 2147483648 with (2 ^ 31). rewrite <- !Z.shiftr_div_pow2 by lia. rewrite Z.shiftr_lxor.
  intros [-> | ->] [-> | ->]; cbn; auto.
Qed.
Lemma fits_shiftr a k : 0 <= k -> fits a -> fits (Z.shiftr a k).
Proof.
  intros Hk. unfold fits. rewrite Z.shiftr_div_pow2 by exact Hk. assert (0 < 2 ^ k) by (apply Z.pow_pos_nonneg; lia). set (p := 2 ^ k) in *. clearbody p.
  intros H'. pose proof (Z.div_mod a p ltac:(lia)). pose proof (Z.mod_pos_bound a p ltac:(lia)). set (q := a / p) in *. clearbody q. nia.
Qed.
Lemma int_of_ok z : int_of false z = SOk (if is_int z then z else wrap z).
Proof. unfold int_of. destruct (is_int z); reflexivity. Qed.
Lemma fits_int_of z : fits (if is_int z then z else wrap z).
Proof. destruct (is_int z) eqn:E; [apply is_int_fits; exact E|apply fits_wrap]. Qed.

(** ** The generator *)
Definition good (t : twister) : Prop := length (fst t) = 624%nat /\ Forall fits (fst t) /\ 0 <= snd t < 624.

Lemma fill_ok n : forall i p, exists l, fill false n i p = SOk l /\ length l = n /\ Forall fits l.
Proof.
  induction n as [|n IH]; intros i p.
  - exists []. split; [reflexivity|]. split; [reflexivity|constructor].
  - cbn [fill]. rewrite !int_of_ok. cbn [bind]. rewrite int_of_ok. cbn [bind].
    match goal with |- context[wrap (Z.land ?a ?b)] => set (w := wrap (Z.land a b)) end.
    destruct (IH (i + 1) w) as (l & E & L & F). rewrite E. cbn [bind]. exists (w :: l). split; [reflexivity|]. split; [cbn [length]; lia|].
    constructor; [apply fits_wrap|exact F].
Qed.
Lemma srand_ok seed : fits seed -> exists t, srand false seed = SOk t /\ good t.
Proof.
  intro H. unfold srand. destruct (fill_ok 623 1 seed) as (l & E & L & F). rewrite E. cbn [bind]. exists (seed :: l, 0). split; [reflexivity|].
  unfold good. cbn [fst snd]. split; [cbn [length]; lia|]. split; [constructor; assumption|lia].
Qed.
Lemma load_good l i : length l = 624%nat -> Forall fits l -> 0 <= i < 624 -> exists v, load l i = SOk v /\ fits v.
Proof.
  intros L F H. unfold load. destruct (Z.ltb_spec i 0); [lia|]. destruct (nth_error l (Z.to_nat i)) as [v|] eqn:E.
  - exists v. split; [reflexivity|]. rewrite Forall_forall in F. apply F. apply nth_error_In in E. exact E.
  - apply nth_error_None in E. lia.
Qed.
Lemma set_nth_good n v l : fits v -> Forall fits l -> length (set_nth n v l) = length l /\ Forall fits (set_nth n v l).
Proof.
  intros Hv. revert l. induction n as [|n IH]; intros [|a l] F; cbn [set_nth length]; try (split; [reflexivity|exact F]).
  - split; [reflexivity|]. inversion F; subst. constructor; assumption.
  - inversion F; subst. destruct (IH l ltac:(assumption)) as [A B]. split; [congruence|]. constructor; assumption.
Qed.
Lemma shift_left_ok y k : shift_left false y k = SOk (wrap (Z.shiftl y k)).
Proof. reflexivity. Qed.

(** A draw from any generator stays inside the table, leaves it good, and is no
    negative int *)
Lemma rand_ok t : good t -> exists z t', rand false t = SOk (z, t') /\ 0 <= z <= 2147483647 /\ good t'.
Proof.
  destruct t as [mt i]. unfold good. cbn [fst snd]. intros (L & F & H). unfold rand.
  destruct (load_good mt i L F H) as (a & Ea & Fa). destruct (load_good mt ((i + 1) mod 624) L F ltac:(apply Z.mod_pos_bound; lia)) as (b & Eb & Fb).
  destruct (load_good mt ((i + 397) mod 624) L F ltac:(apply Z.mod_pos_bound; lia)) as (c & Ec & Fc).
  rewrite Ea. cbn [bind]. rewrite Eb. cbn [bind]. rewrite Ec. cbn [bind].
  set (g := wrap (Z.land (unsigned a) 2147483648 + Z.land b 2147483647)). assert (Fg : fits g) by apply fits_wrap. clearbody g.
  set (v0 := Z.lxor c (Z.shiftr g 1)). assert (F0 : fits v0) by (apply fits_lxor; [exact Fc|apply fits_shiftr; [lia|exact Fg]]). clearbody v0.
  set (v := if negb (Z.land g 1 =? 0) then wrap (Z.lxor (unsigned v0) 2567483615) else v0).
  assert (Fv : fits v) by (unfold v; destruct (negb _); [apply fits_wrap|exact F0]). clearbody v.
  rewrite shift_left_ok. cbn [bind]. rewrite shift_left_ok. cbn [bind].
  match goal with |- context[Z.shiftr ?y 18] => set (w := y) end. assert (Fw : fits w) by apply fits_wrap. clearbody w.
  exists (Z.lxor w (Z.shiftr w 18)), (set_nth (Z.to_nat i) v mt, (i + 1) mod 624). split; [reflexivity|].
  destruct (set_nth_good (Z.to_nat i) v mt Fv F) as [L' F']. split.
  - pose proof (fits_lxor w (Z.shiftr w 18) Fw (fits_shiftr w 18 ltac:(lia) Fw)) as B.
    assert (N : 0 <= Z.lxor w (Z.shiftr w 18)) by (apply Z.lxor_nonneg; rewrite Z.shiftr_nonneg; reflexivity). destruct B. lia.
  - cbn [fst snd]. split; [congruence|]. split; [exact F'|]. apply Z.mod_pos_bound. lia.
Qed.

(** ** Rounding *)
Lemma rounds_eq rnd a z : rounds rnd -> -2147483648 <= z <= 2147483648 -> (a == inject_Z z)%Q -> (rnd a == inject_Z z)%Q.
Proof.
  intros [M E] H Ha. rewrite <- (E z H). apply Qle_antisym; apply M; rewrite Ha; apply Qle_refl.
Qed.
Lemma unit_range rnd z : rounds rnd -> 0 <= z <= 2147483647 -> (0 <= rnd (inject_Z z / inject_Z MAX)%Q <= 1)%Q.
Proof.
  intros Hr H. assert (P : (0 < inject_Z MAX)%Q) by reflexivity. destruct Hr as [M E]. split.
  - rewrite <- (E 0 ltac:(lia)). change (inject_Z 0) with 0%Q. apply M. apply Qle_shift_div_l; [exact P|]. rewrite Qmult_0_l. change 0%Q with (inject_Z 0). rewrite <- Zle_Qle. lia.
  - change 1%Q with (inject_Z 1). rewrite <- (E 1 ltac:(lia)). apply M. apply Qle_shift_div_r; [exact P|]. change (inject_Z 1) with 1%Q. rewrite Qmult_1_l. rewrite <- Zle_Qle. unfold MAX. lia.
Qed.
Lemma truncate_range (v : Q) (d : Z) : (0 <= v <= inject_Z d)%Q \/ (inject_Z d <= v <= 0)%Q -> 0 <= truncate v <= d \/ d <= truncate v <= 0.
Proof.
  intros [[A B]|[A B]]; unfold truncate; pose proof (Qle_bool_iff 0 v).
  - destruct (Qgeb v 0) eqn:E.
    + left. split; [apply (Qfloor_resp_le 0 v A)|]. rewrite <- (Qfloor_Z d). apply Qfloor_resp_le. exact B.
    + exfalso. pose proof (Qgeb_spec v 0) as S. rewrite E in S. lra.
  - destruct (Qgeb v 0) eqn:E.
    + pose proof (Qgeb_spec v 0) as S. rewrite E in S. assert (v == 0)%Q as V by lra. right.
      rewrite V. change (Qfloor 0) with 0. split; [|lia]. rewrite Zle_Qle. change (inject_Z 0) with 0%Q. lra.
    + right. split.
      * rewrite <- (Qceiling_Z d). apply Qceiling_resp_le. exact A.
      * apply (Qceiling_resp_le v 0 B).
Qed.
Lemma scaled_range rnd d (u : Q) : rounds rnd -> fits d -> (0 <= u <= 1)%Q ->
  exists k, int_of_double (rnd (inject_Z d * u)%Q) = SOk k /\ (0 <= k <= d \/ d <= k <= 0).
Proof.
  intros Hr Hd [U1 U2]. assert (K : 0 <= truncate (rnd (inject_Z d * u)%Q) <= d \/ d <= truncate (rnd (inject_Z d * u)%Q) <= 0).
  { apply truncate_range. destruct Hr as [M E]. destruct (Z.le_ge_cases 0 d) as [G|G].
    - left. assert (0 <= inject_Z d)%Q by (change 0%Q with (inject_Z 0); rewrite <- Zle_Qle; exact G). split.
      + rewrite <- (E 0 ltac:(lia)). change (inject_Z 0) with 0%Q. apply M. apply Qmult_le_0_compat; assumption.
      + rewrite <- (E d ltac:(destruct Hd; lia)) at 2. apply M. nra.
    - right. assert (inject_Z d <= 0)%Q by (change 0%Q with (inject_Z 0); rewrite <- Zle_Qle; exact G). split.
      + rewrite <- (E d ltac:(destruct Hd; lia)) at 1. apply M. nra.
      + rewrite <- (E 0 ltac:(lia)). change (inject_Z 0) with 0%Q. apply M. nra. }
  unfold int_of_double. exists (truncate (rnd (inject_Z d * u)%Q)). split; [|exact K].
  assert (fits (truncate (rnd (inject_Z d * u)%Q))) as G by (unfold fits in *; lia). apply is_int_fits in G. rewrite G. reflexivity.
Qed.

(** ** The properties *)
Lemma call_ok rnd c t : rounds rnd -> ints c -> good t ->
  exists a t', do_call false rnd c t = SOk (a, t') /\ fine c a /\ good t'.
Proof.
  intros Hr Hi G. destruct (rand_ok t G) as (z & t' & Er & Bz & G'). pose proof (unit_range rnd z Hr Bz) as U.
  destruct c as [s| |min max| |p]; cbn [do_call].
  - destruct (srand_ok s (proj1 (is_int_fits s) Hi)) as (t1 & E & G1). rewrite E. cbn [bind]. exists Nothing, t1. split; [reflexivity|]. split; [exact I|exact G1].
  - rewrite Er. cbn [bind fst snd]. exists (Int z), t'. split; [reflexivity|]. split; [exact Bz|exact G'].
  - unfold between, unit. rewrite int_of_ok. cbn [bind]. rewrite Er. cbn [bind fst snd].
    destruct (scaled_range rnd (if is_int (max - min) then max - min else wrap (max - min)) _ Hr (fits_int_of _) U) as (k & Ek & Bk).
    rewrite Ek. cbn [bind]. rewrite int_of_ok. cbn [bind fst snd]. eexists _, t'. split; [reflexivity|]. split; [|exact G'].
    cbn [fine]. intros M1 M2. destruct Hi as [I1 I2]. apply is_int_fits in I1. apply is_int_fits in I2. unfold fits in *.
    assert (W : is_int (max - min) = true) by (apply is_int_fits; unfold fits; lia). rewrite W in Bk.
    assert (W2 : is_int (min + k) = true) by (apply is_int_fits; unfold fits; lia). rewrite W2. lia.
  - unfold unit. rewrite Er. cbn [bind fst snd]. eexists _, t'. split; [reflexivity|]. split; [exact U|exact G'].
  - unfold unit. rewrite Er. cbn [bind fst snd]. eexists _, t'. split; [reflexivity|]. split; [|exact G'].
    cbn [fine]. set (u := rnd _) in *. clearbody u. split; intro Hp.
    + assert (B : Qle_bool p u = true) by (apply Qle_bool_iff; lra). rewrite B. reflexivity.
    + destruct (Qle_bool p u) eqn:B; [|reflexivity]. apply Qle_bool_iff in B. lra.
Qed.

(** Whatever the seed and the calls that follow, with ints that wrap around, the
    generator never leaves its table, every call returns, and what it returns lies
    where the header says *)
Theorem C165_ranges_partial : forall rnd seed l, rounds rnd -> is_int seed = true -> Forall ints l ->
  exists as_, session false rnd seed l = SOk as_ /\ Forall2 fine l as_.
Proof.
  intros rnd seed l Hr Hs. unfold session. destruct (srand_ok seed (proj1 (is_int_fits seed) Hs)) as (t & E & G). rewrite E. cbn [bind].
  clear E. revert t G. induction l as [|c l IH]; intros t G Hl.
  - exists []. split; [reflexivity|constructor].
  - inversion Hl; subst. cbn [calls]. destruct (call_ok rnd c t Hr ltac:(assumption) G) as (a & t' & E & A & G'). rewrite E. cbn [bind fst snd].
    destruct (IH t' G' ltac:(assumption)) as (as_ & Es & As). rewrite Es. cbn [bind]. exists (a :: as_). split; [reflexivity|]. constructor; assumption.
Qed.

(** Setting the seed starts afresh: nothing that came before is seen after *)
Theorem C165_reseed : forall rnd seed before s l, rounds rnd -> is_int seed = true -> is_int s = true -> Forall ints before -> Forall ints l ->
  exists first rest, session false rnd seed (before ++ Seed s :: l) = SOk (first ++ Nothing :: rest) /\
    length first = length before /\ session false rnd s l = SOk rest.
Proof.
  intros rnd seed before s l Hr Hs Hs' Hb Hl.
  destruct (C165_ranges_partial rnd s l Hr Hs' Hl) as (rest & Er & _).
  assert (K : forall t, good t -> exists first, calls false rnd (before ++ Seed s :: l) t = SOk (first ++ Nothing :: rest) /\ length first = length before).
  { induction before as [|c before IH]; intros t G.
    - exists []. split; [|reflexivity]. cbn [app calls do_call]. unfold session in Er. destruct (srand false s) as [t'| |]; try discriminate Er. cbn [bind fst snd] in *. rewrite Er. reflexivity.
    - inversion Hb; subst. cbn [app calls]. destruct (call_ok rnd c t Hr ltac:(assumption) G) as (a & t' & E & _ & G'). rewrite E. cbn [bind fst snd].
      destruct (IH ltac:(assumption) t' G') as (first & Ef & Lf). rewrite Ef. cbn [bind]. exists (a :: first). split; [reflexivity|]. cbn [length]. congruence. }
  destruct (srand_ok seed (proj1 (is_int_fits seed) Hs)) as (t & E & G). destruct (K t G) as (first & Ef & Lf).
  exists first, rest. split; [unfold session; rewrite E; exact Ef|]. split; [exact Lf|exact Er].
Qed.

(** In standard C++ there is no seed at all with which a generator can be made:
    filling its table overflows an int *)
Theorem C165_overflow_refuted : forall seed, is_int seed = true -> srand true seed = SUndef.
Proof.
  intros seed H. apply is_int_fits in H. unfold srand. set (m := 620%nat). change 623%nat with (S (S (S m))). cbn [fill].
  pose proof (fits_lxor seed (Z.shiftr seed 30) H (fits_shiftr seed 30 ltac:(lia) H)) as B. set (x := Z.lxor seed (Z.shiftr seed 30)) in *. clearbody x. clear H.
  unfold int_of at 1. destruct (is_int (1812433253 * x)) eqn:E; [|reflexivity]. apply is_int_fits in E. unfold fits in E.
  assert (x = -1 \/ x = 0 \/ x = 1) as [-> | [-> | ->]] by lia; cbv -[fill m]; reflexivity.
Qed.

(** Bounds further apart than an int reaches give a number outside them *)
Theorem C165_bounds_refuted : forall rnd, (forall v, rnd v = v) ->
  session false rnd 1 [Between (-2000000000) 2000000000] = SOk [Int (-2063459448)].
Proof.
  intros rnd Hr. unfold session. set (t := srand false 1).
  assert (T : exists t', (match t with SOk t0 => rand false t0 | _ => SErr end) = SOk (462010977, t')).
  { eexists. unfold t. vm_compute. reflexivity. }
  destruct T as [t' T]. destruct t as [t0| |]; try discriminate T. cbn [bind calls do_call]. unfold between, unit. rewrite int_of_ok. cbn [bind].
  rewrite T. cbn [bind fst snd]. rewrite !Hr. vm_compute. reflexivity.
Qed.

(** ** The Mersenne twister, as published (mt19937ar.c): words of 32 bits, no sign *)
Definition word (z : Z) : Z := z mod 4294967296.
Fixpoint init_genrand (n : nat) (i previous : Z) : list Z :=
  match n with
  | O => []
  | S n' => let w := word (1812433253 * Z.lxor previous (Z.shiftr previous 30) + i) in w :: init_genrand n' (i + 1) w
  end.
(** the first number of a new generator *)
Definition genrand_int32 (seed : Z) : Z :=
  let mt := seed :: init_genrand 623 1 seed in
  let y := Z.lor (Z.land (nth 0 mt 0) 2147483648) (Z.land (nth 1 mt 0) 2147483647) in
  let y := Z.lxor (Z.lxor (nth 397 mt 0) (Z.shiftr y 1)) (if Z.odd y then 2567483615 else 0) in
  let y := Z.lxor y (Z.shiftr y 11) in
  let y := Z.lxor y (Z.land (word (Z.shiftl y 7)) 2636928640) in
  let y := Z.lxor y (Z.land (word (Z.shiftl y 15)) 4022730752) in
  Z.lxor y (Z.shiftr y 18).
Example genrand_5489 : genrand_int32 5489 = 3499211612.
Proof. vm_compute. reflexivity. Qed.

(** The generator is not the one it is named after, neither its 32 bits, nor the
    upper 31 of them, nor the lower *)
Theorem C165_twister_refuted : forall rnd,
  session false rnd 5489 [Next] = SOk [Int 31526908] /\
  genrand_int32 5489 <> 31526908 /\ genrand_int32 5489 / 2 <> 31526908 /\ genrand_int32 5489 mod 2147483648 <> 31526908.
Proof.
  intro rnd. split; [vm_compute; reflexivity|]. rewrite genrand_5489. split; [discriminate|]. split; vm_compute; discriminate.
Qed.

(** next(0, 1), said to be uniformly distributed, is 1 for one single value of the
    draw; doubles hold 53 bits *)
Theorem C165_uniform_refuted : forall rnd t z t', rounds rnd ->
  (forall v : Q, (0 <= v <= 1)%Q -> (rnd v <= v + (1 # 9007199254740992))%Q) ->
  good t -> rand false t = SOk (z, t') ->
  between false rnd 0 1 t = SOk ((if z =? 2147483647 then 1 else 0), t').
Proof.
  intros rnd t z t' Hr Hp G E. destruct (rand_ok t G) as (z' & t1 & E' & Bz & _). rewrite E in E'. injection E' as <- <-.
  unfold between, unit. rewrite int_of_ok. cbn [bind]. rewrite E. cbn [bind fst snd]. change (if is_int (1 - 0) then 1 - 0 else wrap (1 - 0)) with 1.
  pose proof (unit_range rnd z Hr Bz) as U. set (u := rnd (inject_Z z / inject_Z MAX)%Q) in *.
  destruct (scaled_range rnd 1 u Hr ltac:(unfold fits; lia) U) as (k & Ek & Bk). rewrite Ek. cbn [bind]. rewrite int_of_ok. cbn [bind fst snd].
  assert (K : k = if z =? 2147483647 then 1 else 0).
  { unfold int_of_double in Ek. destruct (is_int (truncate (rnd (inject_Z 1 * u)%Q))); [|discriminate Ek]. injection Ek as <-.
    destruct Hr as [M Ex].
    assert (Q1 : (rnd (inject_Z 1 * u)%Q == rnd u)%Q) by (apply Qle_antisym; apply M; change (inject_Z 1) with 1%Q; rewrite Qmult_1_l; apply Qle_refl).
    assert (P0 : (0 <= rnd u)%Q) by (rewrite <- (Ex 0 ltac:(lia)); apply M; exact (proj1 U)).
    destruct (Z.eqb_spec z 2147483647) as [-> |N].
    - assert (U1 : (u == inject_Z 1)%Q) by (apply (rounds_eq rnd); [split; assumption|lia|reflexivity]).
      assert (R1 : (rnd u == inject_Z 1)%Q) by (apply (rounds_eq rnd); [split; assumption|lia|exact U1]).
      destruct Bk as [Bk|Bk]; [|lia].
      unfold truncate. pose proof (Qgeb_spec (rnd (inject_Z 1 * u)%Q) 0) as S. destruct (Qgeb (rnd (inject_Z 1 * u)%Q) 0).
      + rewrite Q1, R1. reflexivity.
      + rewrite Q1, R1 in S. exfalso. change (inject_Z 1) with 1%Q in S. lra.
    - assert (D : (inject_Z z / inject_Z MAX <= 1 - (1 # 2147483647))%Q).
      { apply Qle_shift_div_r; [reflexivity|]. unfold MAX. change ((1 - (1 # 2147483647)) * inject_Z 2147483647)%Q with (4611686011984936962 # 2147483647)%Q.
        unfold Qle, inject_Z. cbn [Qnum Qden]. lia. }
      assert (D0 : (0 <= inject_Z z / inject_Z MAX)%Q). { apply Qle_shift_div_l; [reflexivity|]. rewrite Qmult_0_l. change 0%Q with (inject_Z 0). rewrite <- Zle_Qle. lia. }
      pose proof (Hp (inject_Z z / inject_Z MAX)%Q ltac:(lra)) as H1. fold u in H1. pose proof (Hp u U) as H2.
      set (q := (inject_Z z / inject_Z MAX)%Q) in *. clearbody u q.
      assert (L : (rnd u < 1)%Q) by lra.
      unfold truncate. pose proof (Qgeb_spec (rnd (inject_Z 1 * u)%Q) 0) as S. destruct (Qgeb (rnd (inject_Z 1 * u)%Q) 0); [|rewrite Q1 in S; lra].
      rewrite Q1. assert (F1 : Qfloor (rnd u) < 1). { rewrite Zlt_Qlt. apply Qle_lt_trans with (rnd u); [apply Qfloor_le|exact L]. }
      assert (F0 : 0 <= Qfloor (rnd u)) by exact (Qfloor_resp_le 0 (rnd u) P0). lia. }
  rewrite K. destruct (z =? 2147483647); reflexivity.
Qed.

(** ** Examples *)
Example C165_rounds_exact : rounds (fun v => v).
Proof. split; [intros a b H; exact H|intros; reflexivity]. Qed.
Example C165_good : exists t, srand false 1 = SOk t /\ good t.
Proof. apply srand_ok. unfold fits. lia. Qed.
Example C165_example :
  session false (fun v => v) 1 [Next; Between 10 20; Binomial (1 # 2); Seed 1; Next] =
  SOk [Int 462010977; Int 13; Bool false; Nothing; Int 462010977].
Proof. vm_compute. reflexivity. Qed.

Print Assumptions C165_ranges_partial.
Print Assumptions C165_reseed.
Print Assumptions C165_overflow_refuted.
Print Assumptions C165_bounds_refuted.
Print Assumptions C165_twister_refuted.
Print Assumptions C165_uniform_refuted.
Print Assumptions C165_example.
