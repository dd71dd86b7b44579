(** The plain matrix product. *)
From Coq Require Import List ZArith Bool Lia Ring_theory Ring.
From Verif Require Import ShapeModel KernelBase KernelProofs EltwiseModel EltwiseKernelProofs GemmModel GemmSpec GemmProofs.
Import ListNotations.
Local Open Scope Z_scope.

(** ** Executing instructions on different cells *)
Definition iidx {A} (q : instr A) : Z := match q with Put i _ => i | Upd i _ => i end.
Definition after {A} (m : list (option A)) (q : instr A) (a : A) : Prop :=
  match q with
  | Put _ (SOk a') => a = a'
  | Upd i (SOk f) => exists x, nth_error m (Z.to_nat i) = Some (Some x) /\ a = f x
  | _ => False
  end.

Lemma instrs_once {A} (p : list (instr A)) : forall m,
  NoDup (map iidx p) ->
  (forall q, In q p -> 0 <= iidx q < Z.of_nat (length m) /\ exists a, after m q a) ->
  exists m', exec_instrs m p = SOk m' /\ length m' = length m /\
    (forall q a, In q p -> after m q a -> nth_error m' (Z.to_nat (iidx q)) = Some (Some a)) /\
    (forall i, ~ In (Z.of_nat i) (map iidx p) -> nth_error m' i = nth_error m i).
Proof.
  induction p as [|q p IH]; intros m ND H.
  - exists m. split; [reflexivity|]. split; [reflexivity|]. split; [intros ? ? []|reflexivity].
  - cbn [map] in ND. inversion ND as [|? ? N1 N2]; subst.
    destruct (H q (or_introl eq_refl)) as (B & a & Ha).
    assert (Step : exec_instrs m (q :: p) = exec_instrs (set_nth (Z.to_nat (iidx q)) (Some a) m) p).
    { destruct q as [i [v| |]|i [f| |]]; cbn [after iidx] in *; try contradiction.
      - subst v. cbn [exec_instrs]. now rewrite store_ok by exact B.
      - destruct Ha as (x & Hx & ->). cbn [exec_instrs].
        replace (load m i) with (SOk (Some x)) by (symmetry; apply load_inv; split; [lia|exact Hx]).
        now rewrite store_ok by exact B. }
    rewrite Step.
    assert (Other : forall q' b, In q' p -> (after m q' b <-> after (set_nth (Z.to_nat (iidx q)) (Some a) m) q' b)).
    { intros q' b Hq'. assert (Z.to_nat (iidx q) <> Z.to_nat (iidx q')).
      { destruct (H q' (or_intror Hq')) as [B' _]. intros E. assert (iidx q = iidx q') by lia. apply N1. rewrite H0. now apply in_map. }
      destruct q' as [i [v| |]|i [f| |]]; cbn [after iidx] in *; try tauto. now rewrite set_nth_other. }
    destruct (IH (set_nth (Z.to_nat (iidx q)) (Some a) m) N2) as (m' & E & L & P1 & P2).
    { intros q' Hq'. rewrite set_nth_length. destruct (H q' (or_intror Hq')) as (B' & b & Hb). split; [exact B'|]. exists b. now apply (Other q' b Hq'). }
    rewrite set_nth_length in L. exists m'. split; [exact E|]. split; [exact L|]. split.
    + intros q' b [<-|Hq'] Hb.
      * rewrite <- (Nat2Z.id (Z.to_nat (iidx q))) at 1. rewrite Nat2Z.id. rewrite P2.
        -- rewrite set_nth_same by lia. do 2 f_equal. clear - Ha Hb. destruct q as [i [v| |]|i [f| |]]; cbn [after] in *; try contradiction; try congruence.
           destruct Ha as (x & Hx & ->), Hb as (y & Hy & ->). congruence.
        -- rewrite Z2Nat.id by lia. exact N1.
      * apply P1; [exact Hq'|]. now apply Other.
    + intros i Hi. cbn [map In] in Hi. rewrite P2 by tauto. apply set_nth_other. intros E'. apply Hi. left. lia.
Qed.

Lemma NoDup_map_on {A B} (f : A -> B) l : NoDup l -> (forall x y, In x l -> In y l -> f x = f y -> x = y) -> NoDup (map f l).
Proof.
  induction 1 as [|x l Hx ND IH]; intros H; [constructor|]. cbn [map]. constructor.
  - intros Hin. apply in_map_iff in Hin. destruct Hin as (y & E & Hy). assert (y = x) by (apply H; [now right|now left|exact E]). now subst.
  - apply IH. intros y z Hy Hz. apply H; now right.
Qed.

Lemma NoDup_flat_map_on {A B} (f : A -> list B) l : NoDup l -> (forall x, In x l -> NoDup (f x)) ->
  (forall x y b, In x l -> In y l -> In b (f x) -> In b (f y) -> x = y) -> NoDup (flat_map f l).
Proof.
  induction 1 as [|x l Hx ND IH]; intros H1 H2; [constructor|]. cbn [flat_map].
  assert (G : NoDup (flat_map f l)).
  { apply IH; [intros y Hy; apply H1; now right|]. intros y z b Hy Hz. apply H2; now right. }
  assert (D : forall b, In b (f x) -> ~ In b (flat_map f l)).
  { intros b Hb Hin. apply in_flat_map in Hin. destruct Hin as (y & Hy & Hb'). apply Hx. rewrite (H2 x y b); auto; [now left|now right]. }
  specialize (H1 x (or_introl eq_refl)). revert H1 D. generalize (f x). induction l0 as [|b l0 IH0]; intros N D; [exact G|].
  inversion N; subst. cbn [app]. constructor.
  - rewrite in_app_iff. intros [Hb|Hb]; [contradiction|]. apply (D b); [now left|exact Hb].
  - apply IH0; [assumption|]. intros c Hc. apply D. now right.
Qed.

Lemma grid_once M N ld : N <= ld -> NoDup (flat_map (fun i => map (fun j => i * ld + j) (upto N)) (upto M)).
Proof.
  intros H. apply NoDup_flat_map_on.
  - apply NoDup_upto.
  - intros i _. apply NoDup_map_on; [apply NoDup_upto|]. intros; lia.
  - intros i i' b _ _ Hb Hb'. apply in_map_iff in Hb, Hb'. destruct Hb as (j & <- & Hj), Hb' as (j' & E & Hj').
    apply In_upto in Hj, Hj'. nia.
Qed.

Lemma map_flat_map2 {X Y W} (g : Y -> W) (f : X -> list Y) (xs : list X) : map g (flat_map f xs) = flat_map (fun x => map g (f x)) xs.
Proof. induction xs as [|x xs IH]; [reflexivity|]. cbn [flat_map]. now rewrite map_app, IH. Qed.

Section Proofs.
Context {R : Type} (rO rI : R) (radd rmul : R -> R -> R).
Hypothesis Rth : semi_ring_theory rO rI radd rmul eq.
Add Ring Rring : Rth.
Hypothesis nontrivial : rI <> rO.
Variable near : R -> R -> bool.
Hypothesis near_refl : forall a, near a a = true.
Notation "a +! b" := (radd a b) (at level 50, left associativity).
Notation "a *! b" := (rmul a b) (at level 40, left associativity).
Notation sums := (sums rO radd).

Lemma dot_ok vec N (x y : Z -> sres R) x0 incx y0 incy f g : 0 <= N ->
  (forall k, 0 <= k < N -> x (x0 + k * incx) = SOk (f k)) ->
  (forall k, 0 <= k < N -> y (y0 + k * incy) = SOk (g k)) ->
  inline_dot rO radd rmul vec N x x0 incx y y0 incy = SOk (sums (fun k => f k *! g k) (upto N)).
Proof using All.
  intros HN Hx Hy. unfold inline_dot.
  assert (HK4 : 0 <= N / 4 /\ 4 * (N / 4) <= N) by (Z.to_euclidean_division_equations; lia).
  assert (Tail : forall l done s, (forall k, In k l -> 0 <= k < N) -> s = sums (fun k => f k *! g k) done ->
    foldM (fun sum k => lift2 (fun a b => sum +! a *! b) (x (x0 + k * incx)) (y (y0 + k * incy))) s l = SOk (sums (fun k => f k *! g k) (done ++ l))).
  { intros l done s Hl Es.
    destruct (foldM_inv (fun d s => s = sums (fun k => f k *! g k) d)
                (fun sum k => lift2 (fun a b => sum +! a *! b) (x (x0 + k * incx)) (y (y0 + k * incy))) l done s Es) as (s' & E & E').
    - intros d k c Hk ->. specialize (Hl k Hk). rewrite (Hx k), (Hy k) by exact Hl. eexists. split; [reflexivity|].
      now rewrite (sums_snoc rO rI radd rmul Rth).
    - rewrite E. now rewrite E'. }
  destruct vec.
  - destruct (foldM_inv (fun done s => s = map (fun j => sums (fun kk => f (4 * kk + j) *! g (4 * kk + j)) done) (upto 4))
      (fun c i => fmaddM radd rmul (each (map (fun l => x (x0 + (4 * i + l) * incx)) (upto 4)))
                                   (each (map (fun l => y (y0 + (4 * i + l) * incy)) (upto 4))) c) (upto (N / 4)) [] (vzero rO 4)) as (s & E & Es).
    + apply repeat_map.
    + intros done i s Hi ->. apply In_upto in Hi. eexists. split.
      * apply (fmaddM_vec radd rmul 4 (fun j => f (4 * i + j)) (fun j => g (4 * i + j))); apply each_ok; intros l Hl; apply In_upto in Hl.
        -- apply Hx. lia.
        -- apply Hy. lia.
      * apply vec_ext. intros j Hj. rewrite (sums_snoc rO rI radd rmul Rth). ring.
    + cbn [app] in Es. rewrite E, Es. change (upto 4) with [0; 1; 2; 3]. unfold vsum. cbn [map fold_left].
      rewrite (Tail (between (N / 4 * 4) N) (flat_map quads (upto (N / 4)))).
      * rewrite (sums_app rO rI radd rmul Rth). now rewrite <- (sums_split rO rI radd rmul Rth).
      * intros k Hk. apply In_between in Hk. lia.
      * rewrite (sums_quads rO rI radd rmul Rth). ring.
  - rewrite by_four_upto by exact HN. apply (Tail (upto N) []).
    + intros k Hk. now apply In_upto.
    + reflexivity.
Qed.

(** *** beta * C *)
Lemma scal_row n beta at_ : forall q, In q (inline_scal rO rI rmul near n beta at_) -> exists j, 0 <= j < n /\ iidx q = at_ + j.
Proof.
  intros q. unfold inline_scal. destruct (near beta rI); [intros []|]. destruct (near beta rO); intros H; apply in_map_iff in H;
    destruct H as (j & <- & Hj); exists j; (split; [now apply In_upto|reflexivity]).
Qed.

Definition scal_instrs M N beta ldc :=
  if ldc =? N then inline_scal rO rI rmul near (M * N) beta 0
  else flat_map (fun m => inline_scal rO rI rmul near N beta (m * ldc)) (upto M).

(** the cells of C *)
Definition grid_cells (m : list (option R)) (M N ldc : Z) (c : Z -> Z -> R) : Prop :=
  forall i j, 0 <= i < M -> 0 <= j < N -> nth_error m (Z.to_nat (i * ldc + j)) = Some (Some (c i j)).
Definition same_elsewhere (m m' : list (option R)) (M N ldc : Z) : Prop :=
  length m' = length m /\
  forall p, (forall i j, 0 <= i < M -> 0 <= j < N -> p <> Z.to_nat (i * ldc + j)) -> nth_error m' p = nth_error m p.

Lemma scal_ok M N beta ldc m c : 0 <= M -> 0 <= N -> N <= ldc ->
  (forall i j, 0 <= i < M -> 0 <= j < N -> 0 <= i * ldc + j < Z.of_nat (length m)) ->
  (beta = rO \/ grid_cells m M N ldc c) ->
  (near beta rI = true -> beta = rI) -> (near beta rO = true -> beta = rO) ->
  exists m', exec_instrs m (scal_instrs M N beta ldc) = SOk m' /\
    grid_cells m' M N ldc (fun i j => beta *! c i j) /\ same_elsewhere m m' M N ldc.
Proof using All.
  intros HM HN HL HB Hc Hb1 Hb0.
  (* the instructions, as cells of the grid *)
  assert (Inst : exists mk : Z -> instr R, (forall p, iidx (mk p) = p) /\
     (near beta rI = false -> scal_instrs M N beta ldc = map mk (flat_map (fun i => map (fun j => i * ldc + j) (upto N)) (upto M))) /\
     (near beta rI = false -> forall i j, 0 <= i < M -> 0 <= j < N -> after m (mk (i * ldc + j)) (beta *! c i j))).
  { exists (fun p => if near beta rO then Put p (SOk rO) else Upd p (SOk (fun x => x *! beta))). split; [|split].
    - intros p. destruct (near beta rO); reflexivity.
    - intros Hn. unfold scal_instrs, inline_scal. rewrite Hn. destruct (Z.eqb_spec ldc N) as [->|Ne].
      + assert (G : forall F : Z -> instr R, map (fun i => F (0 + i)) (upto (M * N)) = map F (flat_map (fun i => map (fun j => i * N + j) (upto N)) (upto M))).
        { intros F. rewrite <- (map_map (fun i => 0 + i) F). f_equal.
          transitivity (upto (M * N)); [rewrite <- (map_id (upto (M * N))) at 2; apply map_ext; intros; lia|].
          clear - HM HN. pattern M. apply natlike_ind; [reflexivity| |exact HM]. intros k Hk IH. unfold Z.succ. rewrite upto_S, flat_map_app, <- IH by exact Hk.
          cbn [flat_map]. rewrite app_nil_r. rewrite <- (upto_between (k * N) ((k + 1) * N)) by nia. f_equal. unfold between. f_equal. f_equal. lia. }
        destruct (near beta rO); apply G.
      + rewrite map_flat_map2. destruct (near beta rO); apply flat_map_ext; intros i; now rewrite map_map.
    - intros Hn i j Hi Hj. destruct (near beta rO) eqn:En.
      + rewrite (Hb0 eq_refl). cbn [after]. ring.
      + destruct Hc as [Eb|Hc]; [exfalso; subst beta; rewrite near_refl in En; discriminate|].
        cbn [after]. exists (c i j). split; [now apply Hc|]. ring. }
  destruct Inst as (mk & Hidx & Hsh & Haf). destruct (near beta rI) eqn:En.
  - pose proof (Hb1 eq_refl) as Eb1. clear Hb1 Hb0. subst beta. exists m.
    assert (Es : scal_instrs M N rI ldc = []).
    { assert (near rI rI = true) as Hn by apply near_refl. unfold scal_instrs, inline_scal. rewrite Hn. destruct (ldc =? N); [reflexivity|].
      clear; induction (upto M); [reflexivity|]. exact IHl. }
    rewrite Es. split; [reflexivity|]. split; [|now split].
    intros i j Hi Hj. destruct Hc as [E|Hc]; [contradiction|].
    rewrite (Hc i j Hi Hj). do 2 f_equal. ring.
  - rewrite Hsh by reflexivity.
    destruct (instrs_once (map mk (flat_map (fun i => map (fun j => i * ldc + j) (upto N)) (upto M))) m) as (m' & E & L & P1 & P2).
    + rewrite map_map. rewrite (map_ext _ (fun p => p)) by exact Hidx. rewrite map_id. now apply grid_once.
    + intros q Hq. apply in_map_iff in Hq. destruct Hq as (p & <- & Hp). apply in_flat_map in Hp. destruct Hp as (i & Hi & Hp).
      apply in_map_iff in Hp. destruct Hp as (j & <- & Hj). apply In_upto in Hi, Hj. rewrite Hidx. split; [now apply HB|]. eexists. now apply Haf.
    + exists m'. split; [exact E|]. split.
      * intros i j Hi Hj. rewrite <- (Hidx (i * ldc + j)) at 1. apply P1; [|now apply Haf].
        apply in_map. apply in_flat_map. exists i. split; [now apply In_upto|]. apply in_map_iff. exists j. split; [reflexivity|now apply In_upto].
      * split; [exact L|]. intros p Hp. apply P2. rewrite map_map, (map_ext _ (fun p => p)) by exact Hidx. rewrite map_id.
        intros Hin. apply in_flat_map in Hin. destruct Hin as (i & Hi & Hin). apply in_map_iff in Hin. destruct Hin as (j & E' & Hj).
        apply In_upto in Hi, Hj. apply (Hp i j Hi Hj). lia.
Qed.

(** *** The row major product *)
Lemma row_major_ok (vec transA transB : bool) M N K alpha a lda b ldb beta m ldc f g c :
  0 <= M -> 0 <= N -> 0 <= K ->
  (if transA then M else K) <= lda -> (if transB then K else N) <= ldb -> N <= ldc ->
  (forall i k, 0 <= i < M -> 0 <= k < K -> a (if transA then k * lda + i else i * lda + k) = SOk (f i k)) ->
  (forall k j, 0 <= k < K -> 0 <= j < N -> b (if transB then j * ldb + k else k * ldb + j) = SOk (g k j)) ->
  (forall i j, 0 <= i < M -> 0 <= j < N -> 0 <= i * ldc + j < Z.of_nat (length m)) ->
  (beta = rO \/ grid_cells m M N ldc c) ->
  (near alpha rO = true -> alpha = rO) -> (near beta rI = true -> beta = rI) -> (near beta rO = true -> beta = rO) ->
  exists p m', gemm_row_major rO rI radd rmul near vec transA transB M N K alpha a lda b ldb beta ldc = Some p /\
    exec_instrs m p = SOk m' /\
    grid_cells m' M N ldc (fun i j => alpha *! sums (fun k => f i k *! g k j) (upto K) +! beta *! c i j) /\
    same_elsewhere m m' M N ldc.
Proof using All.
  intros HM HN HK HA HBd HC Ha Hb Hm Hc Ha0 Hb1 Hb0. unfold gemm_row_major.
  destruct (Z.leb_spec (if transA then M else K) lda); [|lia]. destruct (Z.leb_spec (if transB then K else N) ldb); [|lia].
  destruct (Z.leb_spec N ldc); [|lia]. cbn [andb negb].
  change (if ldc =? N then inline_scal rO rI rmul near (M * N) beta 0 else flat_map (fun m0 => inline_scal rO rI rmul near N beta (m0 * ldc)) (upto M))
    with (scal_instrs M N beta ldc).
  destruct (scal_ok M N beta ldc m c HM HN HC Hm Hc Hb1 Hb0) as (m1 & E1 & G1 & S1).
  destruct (near alpha rO) eqn:En.
  - pose proof (Ha0 eq_refl) as Ea0. clear Ha0. subst alpha. eexists. exists m1. split; [reflexivity|]. split; [exact E1|]. split; [|exact S1].
    intros i j Hi Hj. rewrite (G1 i j Hi Hj). do 2 f_equal. ring.
  - eexists.
    set (dot := fun i j => match transA, transB with
                 | false, false => inline_dot rO radd rmul vec K a (i * lda) 1 b j ldb
                 | true, false => inline_dot rO radd rmul vec K a i lda b j ldb
                 | false, true => inline_dot rO radd rmul vec K a (i * lda) 1 b (j * ldb) 1
                 | true, true => inline_dot rO radd rmul vec K a i lda b (j * ldb) 1
                 end).
    assert (Hdot : forall i j, 0 <= i < M -> 0 <= j < N -> dot i j = SOk (sums (fun k => f i k *! g k j) (upto K))).
    { intros i j Hi Hj. unfold dot. destruct transA, transB;
        apply (dot_ok vec K _ _ _ _ _ _ (fun k => f i k) (fun k => g k j)); try exact HK; intros k Hk;
        first [rewrite <- (Ha i k Hi Hk); f_equal; lia | rewrite <- (Hb k j Hk Hj); f_equal; lia]. }
    destruct (instrs_once (flat_map (fun i => map (fun j => Upd (i * ldc + j) (lift1 (fun d c0 => c0 +! alpha *! d) (dot i j))) (upto N)) (upto M)) m1)
      as (m2 & E2 & L2 & P1 & P2).
    + rewrite map_flat_map2. rewrite (flat_map_ext _ (fun i => map (fun j => i * ldc + j) (upto N))) by (intros i; rewrite map_map; reflexivity).
      now apply grid_once.
    + intros q Hq. apply in_flat_map in Hq. destruct Hq as (i & Hi & Hq). apply in_map_iff in Hq. destruct Hq as (j & <- & Hj).
      apply In_upto in Hi, Hj. cbn [iidx]. rewrite (proj1 S1). split; [now apply Hm|]. rewrite Hdot by assumption. cbn [lift1 after].
      eexists. exists (beta *! c i j). split; [now apply G1|reflexivity].
    + exists m2. split; [reflexivity|]. split; [rewrite (exec_instrs_app _ _ _ _ E1); exact E2|]. split.
      * intros i j Hi Hj. pose proof (P1 (Upd (i * ldc + j) (lift1 (fun d c0 => c0 +! alpha *! d) (dot i j))) (beta *! c i j +! alpha *! sums (fun k => f i k *! g k j) (upto K))) as P.
        cbn [iidx] in P. rewrite P; [do 2 f_equal; ring| |].
        -- apply in_flat_map. exists i. split; [now apply In_upto|]. apply in_map_iff. exists j. split; [reflexivity|now apply In_upto].
        -- rewrite Hdot by assumption. cbn [lift1 after]. exists (beta *! c i j). split; [now apply G1|reflexivity].
      * split; [rewrite L2; apply S1|]. intros p Hp. rewrite P2; [now apply S1|].
        rewrite map_flat_map2. intros Hin. apply in_flat_map in Hin. destruct Hin as (i & Hi & Hin). rewrite map_map in Hin. apply in_map_iff in Hin.
        destruct Hin as (j & E' & Hj). cbn [iidx] in E'. apply In_upto in Hi, Hj. apply (Hp i j Hi Hj). lia.
Qed.
End Proofs.
