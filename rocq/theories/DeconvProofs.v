(** Transposed convolution by the packed product and col2im. *)
From Coq Require Import List ZArith Bool Lia Ring.
From Verif Require Import ShapeModel ShapeSpec ShapeProofs KernelBase KernelSpec KernelProofs LoopModel LoopProofs EltwiseModel EltwiseKernelProofs
  AxisModel AxisProofs GemmModel GemmSpec GemmProofs ConvModel ConvSpec ConvProofs DeconvModel DeconvSpec.
Import ListNotations.
Local Open Scope Z_scope.

(** ** a program on a part of a memory *)
Lemma load_within {A} (pre m post : list A) i a : load m i = SOk a -> load (pre ++ m ++ post) (Z.of_nat (length pre) + i) = SOk a.
Proof.
  intros H. apply load_inv in H. destruct H as [H0 H]. apply load_inv. split; [lia|].
  rewrite Z2Nat.inj_add, Nat2Z.id by lia. rewrite nth_error_app2 by lia. replace (length pre + Z.to_nat i - length pre)%nat with (Z.to_nat i) by lia.
  rewrite nth_error_app1; [exact H|]. apply nth_error_Some. now rewrite H.
Qed.

Lemma set_nth_within {A} (pre m post : list A) k a : (k < length m)%nat ->
  set_nth (length pre + k) a (pre ++ m ++ post) = pre ++ set_nth k a m ++ post.
Proof.
  intros H. induction pre as [|x pre IH]; cbn [app length Nat.add].
  - revert k H. induction m as [|y m IHm]; intros k H; cbn [length] in H; [lia|]. destruct k as [|k]; cbn; [reflexivity|]. now rewrite IHm by lia.
  - cbn [set_nth]. now rewrite IH.
Qed.

Lemma store_within {A} (pre m post : list (option A)) i a m' : store m i a = SOk m' ->
  store (pre ++ m ++ post) (Z.of_nat (length pre) + i) a = SOk (pre ++ m' ++ post).
Proof.
  intros H. assert (B : 0 <= i < Z.of_nat (length m)).
  { destruct (Z_lt_dec i 0) as [Hi|Hi]; [unfold store in H; destruct (Z.ltb_spec i 0); [discriminate|lia]|].
    destruct (Z_lt_dec i (Z.of_nat (length m))); [lia|]. unfold store in H. destruct (Z.ltb_spec i 0); [lia|].
    destruct (Z.leb_spec (Z.of_nat (length m)) i); [discriminate|lia]. }
  rewrite store_ok in H by exact B. injection H as <-. rewrite store_ok by (rewrite !app_length; lia).
  f_equal. rewrite Z2Nat.inj_add, Nat2Z.id by lia. apply set_nth_within. lia.
Qed.

Lemma exec_instrs_within {A} (pre post : list (option A)) p : forall m m', exec_instrs m p = SOk m' ->
  exec_instrs (pre ++ m ++ post) (shift_instrs (Z.of_nat (length pre)) p) = SOk (pre ++ m' ++ post).
Proof.
  induction p as [|[i [a| |]|i [f| |]] p IH]; intros m m' H; cbn [exec_instrs shift_instrs map] in *; try discriminate.
  - injection H as ->. reflexivity.
  - destruct (store m i a) as [m1| |] eqn:E; try discriminate. rewrite (store_within pre m post i a m1 E). now apply IH.
  - destruct (load m i) as [[a|]| |] eqn:El; try discriminate. rewrite (load_within pre m post i _ El).
    destruct (store m i (f a)) as [m1| |] eqn:E; try discriminate. rewrite (store_within pre m post i _ m1 E). now apply IH.
Qed.

Lemma fresh_app {A} a b : 0 <= a -> 0 <= b -> @fresh A (a + b) = fresh a ++ fresh b.
Proof. intros Ha Hb. unfold fresh. rewrite Z2Nat.inj_add by lia. apply repeat_app. Qed.

Lemma counted_loops s : counted (loops s) = map (fun c => (position s c, c)) (loops s).
Proof.
  apply nth_error_ext. intros i. rewrite nth_error_map. destruct (nth_error (loops s) i) as [c|] eqn:E; cbn [option_map].
  - assert (H : nth_error (counted (loops s)) i = Some (Z.of_nat i, c)).
    { unfold counted. assert (Hi : (i < length (loops s))%nat) by (apply nth_error_Some; congruence).
      assert (G : forall (X Y : Type) (l : list X) (l' : list Y) n x y, nth_error l n = Some x -> nth_error l' n = Some y -> nth_error (combine l l') n = Some (x, y)).
      { intros X Y l. induction l as [|x0 l IH]; intros l' n x y Hx Hy; [destruct n; discriminate|]. destruct l' as [|y0 l']; [destruct n; discriminate|].
        destruct n as [|n]; cbn in *; [congruence|]. now apply IH. }
      apply G; [|exact E]. rewrite <- (Nat2Z.id i) at 1. apply nth_error_upto. lia. }
    rewrite H. apply nth_error_In in H. apply In_counted_loops in H. destruct H as [_ ->]. reflexivity.
  - apply nth_error_None. unfold counted. rewrite combine_length, length_upto. apply nth_error_None in E. lia.
Qed.

Section Proofs.
Context {R : Type} (rO rI : R) (radd rmul : R -> R -> R).
Hypothesis Rth : semi_ring_theory rO rI radd rmul eq.
Add Ring Rring : Rth.
Variable near : R -> R -> bool.
Hypothesis near_refl : forall x, near x x = true.
Notation "a +! b" := (radd a b) (at level 50, left associativity).
Notation "a *! b" := (rmul a b) (at level 40, left associativity).
Notation sum_of := (sum_of rO radd).

(** ** sums over lists *)
Definition suml {X} (f : X -> R) (l : list X) : R := fold_right (fun k s => f k +! s) rO l.

Lemma suml_cons {X} (f : X -> R) x l : suml f (x :: l) = f x +! suml f l.
Proof. reflexivity. Qed.
Lemma suml_nil {X} (f : X -> R) : suml f [] = rO.
Proof. reflexivity. Qed.

Lemma suml_app {X} (f : X -> R) l l' : suml f (l ++ l') = suml f l +! suml f l'.
Proof using Rth. induction l as [|x l IH]; cbn [app]; [rewrite suml_nil; ring|]. rewrite !suml_cons, IH. ring. Qed.

Lemma suml_map {X Y} (f : Y -> R) (g : X -> Y) l : suml f (map g l) = suml (fun x => f (g x)) l.
Proof. induction l as [|x l IH]; [reflexivity|]. cbn [map suml fold_right]. fold (suml f (map g l)). now rewrite IH. Qed.

Lemma suml_flat_map {X Y} (f : Y -> R) (g : X -> list Y) l : suml f (flat_map g l) = suml (fun x => suml f (g x)) l.
Proof using Rth. induction l as [|x l IH]; [reflexivity|]. cbn [flat_map]. rewrite suml_app, IH. reflexivity. Qed.

Lemma suml_ext {X} (f g : X -> R) l : (forall x, In x l -> f x = g x) -> suml f l = suml g l.
Proof. induction l as [|x l IH]; intros H; [reflexivity|]. cbn [suml fold_right]. rewrite (H x) by now left. f_equal. apply IH. intros y Hy. apply H. now right. Qed.

Lemma suml_zero {X} (l : list X) : suml (fun _ => rO) l = rO.
Proof using Rth. induction l as [|x l IH]; [reflexivity|]. rewrite suml_cons, IH. ring. Qed.

Lemma suml_single (f : Z -> R) l c : NoDup l -> In c l -> (forall x, In x l -> x <> c -> f x = rO) -> suml f l = f c.
Proof using Rth.
  induction l as [|x l IH]; intros N Hin H; [destruct Hin|]. inversion N as [|? ? N1 N2]; subst. rewrite suml_cons.
  destruct Hin as [->|Hin].
  - rewrite (suml_ext f (fun _ => rO)), suml_zero; [ring|]. intros y Hy. apply H; [now right|]. intros ->. contradiction.
  - rewrite IH; auto; [|intros y Hy; apply H; now right]. rewrite (H x); [ring|now left|]. intros ->. contradiction.
Qed.

Lemma sum_single n (f : Z -> R) c : 0 <= c < n -> (forall x, 0 <= x < n -> x <> c -> f x = rO) -> sum_of n f = f c.
Proof using Rth. intros Hc H. apply (suml_single f (upto n) c); [apply NoDup_upto|now apply In_upto|]. intros x Hx. apply H. now apply In_upto. Qed.

Lemma suml_loops n s (f : list Z -> R) : suml f (loops (n :: s)) = sum_of n (fun i => suml (fun c => f (i :: c)) (loops s)).
Proof using Rth. cbn [loops]. rewrite suml_flat_map. apply suml_ext. intros i _. apply suml_map. Qed.

(** the additions that reach one place *)
Lemma adds_at {X} (test : X -> bool) (v : X -> R) l : forall z,
  apply_all (flat_map (fun x => if test x then [fun acc => acc +! v x] else []) l) z = z +! suml (fun x => if test x then v x else rO) l.
Proof using Rth.
  unfold apply_all. induction l as [|x l IH]; intros z; cbn [flat_map fold_left]; [rewrite suml_nil; ring|].
  rewrite suml_cons. destruct (test x); cbn [app fold_left]; rewrite IH; ring.
Qed.

(** ** col2im *)
Lemma col2im_ok (col : Z -> sres R) outs oh ow kh kw h w win V :
  0 <= outs -> 0 <= oh -> 0 <= ow -> 0 <= kh -> 0 <= kw -> 0 <= h -> 0 <= w ->
  forward win oh ow kh kw = SOk (h, w) ->
  (forall c p q i j, 0 <= c < outs -> 0 <= p < kh -> 0 <= q < kw -> 0 <= i < h -> 0 <= j < w ->
     col (((c * kh + p) * kw + q) * (h * w) + (i * w + j)) = SOk (V c p q i j)) ->
  exists prog data, col2im rO radd col outs oh ow kh kw win = SOk prog /\ exec_instrs (fresh (outs * oh * ow)) prog = SOk (map Some data) /\
    Z.of_nat (length data) = outs * oh * ow /\
    forall c a b, 0 <= c < outs -> 0 <= a < oh -> 0 <= b < ow ->
      nth_error data (Z.to_nat (c * (oh * ow) + (a * ow + b))) =
      Some (sum_of kh (fun p => sum_of kw (fun q => sum_of h (fun i => sum_of w (fun j =>
        if (i * stride_h win + p * dil_h win - top win =? a) && (j * stride_w win + q * dil_w win - left_ win =? b) then V c p q i j else rO))))).
Proof using Rth.
  intros HO Hoh How Hkh Hkw Hh Hw Hf Hcol. unfold col2im. rewrite Hf. cbn [bind].
  destruct (Z.ltb_spec h 0); [lia|]. destruct (Z.ltb_spec w 0); [lia|]. cbn [orb].
  replace (oh * ow * outs) with (outs * oh * ow) by ring. rewrite counted_loops. rewrite flat_map_concat_map, map_map, <- flat_map_concat_map. cbn [fst snd].
  set (s := [outs; kh; kw; h; w]).
  set (row := fun p i => - top win + p * dil_h win + i * stride_h win). set (cl := fun q j => - left_ win + q * dil_w win + j * stride_w win).
  set (upd := fun c : list Z => match c with
     | [ch; p; q; i; j] => if in_image (row p i) oh && in_image (cl q j) ow then [(ch * (oh * ow) + (row p i * ow + cl q j), @SOk (R -> R) (fun acc => acc +! V ch p q i j))] else []
     | _ => [] end).
  assert (Ei : forall c, In c (loops s) ->
    match c with
    | [channel; kernel_row; kernel_col; output_row; output_col] =>
        if negb (in_image (- top win + kernel_row * dil_h win + output_row * stride_h win) oh) then []
        else if in_image (- left_ win + kernel_col * dil_w win + output_col * stride_w win) ow
        then [Upd (channel * (oh * ow) + ((- top win + kernel_row * dil_h win + output_row * stride_h win) * ow + (- left_ win + kernel_col * dil_w win + output_col * stride_w win)))
                (lift1 (fun v acc => acc +! v) (col (position s c)))]
        else []
    | _ => []
    end = map (fun u => Upd (fst u) (snd u)) (upd c)).
  { intros c Hc. apply In_loops in Hc. inversion Hc as [|? ch ? c1 Hch Hc1]; subst. inversion Hc1 as [|? p ? c2 Hp Hc2]; subst. inversion Hc2 as [|? q ? c3 Hq Hc3]; subst.
    inversion Hc3 as [|? i ? c4 Hi Hc4]; subst. inversion Hc4 as [|? j ? c5 Hj Hc5]; subst. inversion Hc5; subst.
    unfold upd, row, cl. destruct (in_image (- top win + p * dil_h win + i * stride_h win) oh); cbn [negb andb map]; [|reflexivity].
    destruct (in_image (- left_ win + q * dil_w win + j * stride_w win) ow); cbn [map fst snd]; [|reflexivity].
    replace (position s [ch; p; q; i; j]) with (((ch * kh + p) * kw + q) * (h * w) + (i * w + j)) by (unfold s; cbn [position elements]; ring).
    rewrite Hcol by assumption. reflexivity. }
  rewrite flat_map_concat_map, (map_ext_in _ _ _ Ei), <- flat_map_concat_map.
  eexists. 
  assert (Hz : 0 <= outs * oh * ow) by (repeat apply Z.mul_nonneg_nonneg; assumption).
  destruct (upds_fold (flat_map upd (loops s)) (map (fun _ => rO) (upto (outs * oh * ow)))) as (data & E & L & P).
  { intros d f Hin. apply in_flat_map in Hin. destruct Hin as (c & Hc & Hin). apply In_loops in Hc.
    inversion Hc as [|? ch ? c1 Hch Hc1]; subst. inversion Hc1 as [|? p ? c2 Hp Hc2]; subst. inversion Hc2 as [|? q ? c3 Hq Hc3]; subst.
    inversion Hc3 as [|? i ? c4 Hi Hc4]; subst. inversion Hc4 as [|? j ? c5 Hj Hc5]; subst. inversion Hc5; subst.
    unfold upd in Hin. unfold in_image in Hin. 
    destruct (Z.leb_spec 0 (row p i)), (Z.ltb_spec (row p i) oh), (Z.leb_spec 0 (cl q j)), (Z.ltb_spec (cl q j) ow); cbn [andb] in Hin; try (destruct Hin; fail).
    destruct Hin as [Hin|[]]. apply pair_equal_spec in Hin. destruct Hin as [<- <-]. rewrite map_length, length_upto.
    split; [|eauto]. set (r := row p i) in *. set (l := cl q j) in *. clearbody r l. rewrite Z2Nat.id by exact Hz.
    assert (0 <= r * ow + l < oh * ow) by nia. nia. }
  exists data. split; [reflexivity|]. rewrite map_length, length_upto in L. split; [|split; [lia|]].
  - rewrite (exec_instrs_app _ _ _ _ (zeros_compute rO _)). rewrite <- E. f_equal.
    clear. induction (loops s) as [|c l IH]; [reflexivity|]. cbn [flat_map]. now rewrite map_app, IH.
  - intros c a b Hc Ha Hb. assert (Hpos : 0 <= c * (oh * ow) + (a * ow + b) < outs * oh * ow) by (assert (0 <= a * ow + b < oh * ow) by nia; nia).
    rewrite (P _ rO) by (rewrite nth_error_map, nth_error_upto by exact Hpos; reflexivity). f_equal. rewrite Z2Nat.id by lia.
    rewrite updates_at_flat_map.
    assert (Eu : forall k, In k (loops s) -> updates_at (c * (oh * ow) + (a * ow + b)) (upd k) =
      (if match k with [ch; p; q; i; j] => (ch =? c) && ((i * stride_h win + p * dil_h win - top win =? a) && (j * stride_w win + q * dil_w win - left_ win =? b)) | _ => false end
       then [fun acc => acc +! match k with [ch; p; q; i; j] => V ch p q i j | _ => rO end] else [])).
    { intros k Hk. apply In_loops in Hk. inversion Hk as [|? ch ? c1 Hch Hc1]; subst. inversion Hc1 as [|? p ? c2 Hp Hc2]; subst. inversion Hc2 as [|? q ? c3 Hq Hc3]; subst.
      inversion Hc3 as [|? i ? c4 Hi Hc4]; subst. inversion Hc4 as [|? j ? c5 Hj Hc5]; subst. inversion Hc5; subst.
      unfold upd. replace (i * stride_h win + p * dil_h win - top win) with (row p i) by (unfold row; ring).
      replace (j * stride_w win + q * dil_w win - left_ win) with (cl q j) by (unfold cl; ring).
      set (r := row p i). set (l := cl q j). clearbody r l. clear - Ha Hb Hc Hch How Hoh. unfold in_image.
      assert (D : (0 <= r < oh /\ 0 <= l < ow) \/ ~ (0 <= r < oh /\ 0 <= l < ow)) by lia.
      destruct D as [[Dr Dl]|D].
      - replace ((0 <=? r) && (r <? oh) && ((0 <=? l) && (l <? ow))) with true by (symmetry; rewrite !andb_true_iff, !Z.leb_le, !Z.ltb_lt; auto).
        cbn [updates_at flat_map fst snd]. rewrite app_nil_r.
        assert (Eq : (ch * (oh * ow) + (r * ow + l) =? c * (oh * ow) + (a * ow + b)) = ((ch =? c) && ((r =? a) && (l =? b)))).
        { assert (F1 : 0 <= r * ow + l < oh * ow) by nia. assert (F2 : 0 <= a * ow + b < oh * ow) by nia.
          set (X := r * ow + l) in *. set (Y := a * ow + b) in *. set (S0 := oh * ow) in *.
          destruct (Z.eqb_spec ch c) as [->|Nc]; cbn [andb].
          - destruct (Z.eqb_spec r a) as [->|Nr]; cbn [andb].
            + destruct (Z.eqb_spec l b) as [->|Nl]; [apply Z.eqb_eq; reflexivity|]. apply Z.eqb_neq. unfold X, Y. lia.
            + apply Z.eqb_neq. intros Q. apply Nr. assert (X = Y) by lia. unfold X, Y in *. nia.
          - apply Z.eqb_neq. intros Q. apply Nc. clearbody X Y S0. nia. }
        now rewrite Eq.
      - replace ((0 <=? r) && (r <? oh) && ((0 <=? l) && (l <? ow))) with false
          by (symmetry; apply not_true_iff_false; rewrite !andb_true_iff, !Z.leb_le, !Z.ltb_lt; intuition).
        cbn [updates_at flat_map]. replace ((ch =? c) && ((r =? a) && (l =? b))) with false; [reflexivity|].
        symmetry. apply not_true_iff_false. rewrite !andb_true_iff, !Z.eqb_eq. intros (_ & -> & ->). tauto. }
    rewrite (flat_map_concat_map _ (loops s)), (map_ext_in _ _ _ Eu), <- flat_map_concat_map, adds_at.
    unfold s. rewrite suml_loops. rewrite (sum_single outs _ c Hc).
    + rewrite Z.eqb_refl. cbn [andb]. match goal with |- rO +! ?x = _ => transitivity x; [ring|] end.
      rewrite suml_loops. apply sum_ext. intros p Hp. rewrite suml_loops. apply sum_ext. intros q Hq. rewrite suml_loops. apply sum_ext. intros i Hi.
      rewrite suml_loops. apply sum_ext. intros j Hj. cbn [loops]. rewrite suml_cons, suml_nil. ring.
    + intros ch Hch Ne. replace (ch =? c) with false by (symmetry; apply Z.eqb_neq; exact Ne).
      etransitivity; [|apply (suml_zero (loops [kh; kw; h; w]))]. apply suml_ext. intros k Hk.
      destruct k as [|p [|q [|i [|j [|]]]]]; reflexivity.
Qed.

(** ** one image *)
Lemma exec_grid2 (M N : Z) (g : Z -> Z -> R) tr m : 0 <= M -> 0 <= N -> Z.of_nat (length m) = M * N ->
  (forall d v, In (d, v) tr -> exists i j, 0 <= i < M /\ 0 <= j < N /\ d = i * N + j /\ v = SOk (g i j)) ->
  (forall i j, 0 <= i < M -> 0 <= j < N -> In (i * N + j) (map fst tr)) ->
  exists out, exec m tr = SOk (map Some out) /\ Z.of_nat (length out) = M * N /\
    forall i j, 0 <= i < M -> 0 <= j < N -> nth_error out (Z.to_nat (i * N + j)) = Some (g i j).
Proof.
  intros HM HN L H1 H2.
  destruct (exec_grid [M; N] (fun c => match c with [i; j] => g i j | _ => rO end) tr m) as (out & E & L' & P).
  - repeat constructor; assumption.
  - rewrite L. cbn [elements]. ring.
  - intros d v Hin. destruct (H1 d v Hin) as (i & j & Hi & Hj & -> & ->). exists [i; j]. split; [repeat (constructor; [lia|]); constructor|].
    split; [cbn [position elements]; ring|reflexivity].
  - intros c Hc. inversion Hc as [|? i ? c1 Hi Hc1]; subst. inversion Hc1 as [|? j ? c2 Hj Hc2]; subst. inversion Hc2; subst.
    replace (position [M; N] [i; j]) with (i * N + j) by (cbn [position elements]; ring). now apply H2.
  - exists out. split; [exact E|]. split; [rewrite L'; cbn [elements]; ring|]. intros i j Hi Hj.
    specialize (P [i; j]). replace (position [M; N] [i; j]) with (i * N + j) in P by (cbn [position elements]; ring). apply P.
    repeat (constructor; [lia|]); constructor.
Qed.

(** what the kernel computes *)
Definition deconv_at (A : Z -> Z -> R) (image : Z -> Z -> Z -> R) (ins h w kh kw : Z) (win : window) (c a b : Z) : R :=
  sum_of kh (fun p => sum_of kw (fun q => sum_of h (fun i => sum_of w (fun j =>
    if (i * stride_h win + p * dil_h win - top win =? a) && (j * stride_w win + q * dil_w win - left_ win =? b)
    then sum_of ins (fun o => A ((c * kh + p) * kw + q) o *! image o i j) else rO)))).

Lemma deconv_image_ok (x wt : Z -> sres R) ins h w outs kh kw oh ow win col pre post image A :
  0 <= ins -> 0 <= h -> 0 <= w -> 0 <= outs -> 0 <= kh -> 0 <= kw -> 0 <= oh -> 0 <= ow ->
  oh = backward_size h (top win) (bottom win) kh (stride_h win) (dil_h win) ->
  ow = backward_size w (left_ win) (right_ win) kw (stride_w win) (dil_w win) ->
  stride_h win <> 0 -> stride_w win <> 0 ->
  (forall o i j, 0 <= o < ins -> 0 <= i < h -> 0 <= j < w -> x (o * (h * w) + (i * w + j)) = SOk (image o i j)) ->
  (forall k o, 0 <= k < outs * kh * kw -> 0 <= o < ins -> wt (k * ins + o) = SOk (A k o)) ->
  Z.of_nat (length col) = outs * kh * kw * h * w ->
  exists col' data, deconv_image rO rI radd rmul near true x wt ins h w outs kh kw oh ow win (Z.of_nat (length pre)) col (pre ++ fresh (outs * oh * ow) ++ post)
      = SOk (col', pre ++ map Some data ++ post) /\
    Z.of_nat (length col') = outs * kh * kw * h * w /\ Z.of_nat (length data) = outs * oh * ow /\
    forall c a b, 0 <= c < outs -> 0 <= a < oh -> 0 <= b < ow ->
      nth_error data (Z.to_nat (c * (oh * ow) + (a * ow + b))) = Some (deconv_at A image ins h w kh kw win c a b).
Proof using Rth near_refl.
  intros HI Hh Hw HO Hkh Hkw Hoh How Eoh Eow Hsh Hsw Hx Hwt Lcol.
  assert (HM : 0 <= outs * kh * kw) by (repeat apply Z.mul_nonneg_nonneg; assumption).
  assert (HN : 0 <= h * w) by nia.
  set (B := fun o n => match x (o * (h * w) + n) with SOk v => v | _ => rO end).
  destruct (packed_stores rO rI radd rmul Rth near near_refl (outs * kh * kw) (h * w) ins wt x A B true HM HN HI Hwt) as (stores & E & S1 & S2).
  { intros o n Ho Hn. unfold B. assert (0 < w) by nia.
    assert (0 <= n / w < h) by (split; [apply Z.div_pos; lia|apply Z.div_lt_upper_bound; nia]).
    pose proof (Z.mod_pos_bound n w ltac:(lia)) as Hm. pose proof (Z.div_mod n w ltac:(lia)) as D.
    pose proof (Hx o (n / w) (n mod w) Ho ltac:(lia) Hm) as P. replace (n / w * w + n mod w) with n in P by lia. now rewrite P. }
  assert (HB : forall o i j, 0 <= o < ins -> 0 <= i < h -> 0 <= j < w -> B o (i * w + j) = image o i j) by (intros; unfold B; now rewrite Hx).
  destruct (exec_grid2 (outs * kh * kw) (h * w) (fun k n => sum_of ins (fun o => A k o *! B o n)) stores col HM HN) as (buf & Eb & Lb & Pb);
    [rewrite Lcol; ring|exact S1|exact S2|].
  unfold deconv_image. rewrite E. cbn [bind]. rewrite Eb. cbn [bind].
  destruct (is_1x1 kh kw win) eqn:E1.
  - unfold is_1x1 in E1.
    repeat match type of E1 with (_ && _ = true) => apply andb_true_iff in E1; let E := fresh "E" in destruct E1 as [E1 E]; apply Z.eqb_eq in E end.
    apply Z.eqb_eq in E1. assert (Q1 : oh = h) by (rewrite Eoh; unfold backward_size; rewrite E1, E6, E3, E4; ring).
    assert (Q2 : ow = w) by (rewrite Eow; unfold backward_size; rewrite E0, E2, E5, E7; ring).
    exists (map Some buf), buf. subst kh kw. clear Eoh Eow. subst oh ow.
    unfold blit. rewrite !app_length, !map_length. unfold fresh at 1. rewrite repeat_length.
    replace (outs * 1 * 1 * h * w) with (outs * h * w) in * by ring.
    assert (Hz : 0 <= outs * h * w) by (repeat apply Z.mul_nonneg_nonneg; assumption).
    replace (outs * 1 * 1 * (h * w)) with (outs * h * w) in Lb by ring.
    destruct (Z.ltb_spec (outs * h * w) 0); [lia|]. destruct (Z.ltb_spec (Z.of_nat (length pre)) 0); [lia|].
    destruct (Z.ltb_spec (Z.of_nat (length buf)) (outs * h * w)); [lia|].
    destruct (Z.ltb_spec (Z.of_nat (length pre + (Z.to_nat (outs * h * w) + length post))) (Z.of_nat (length pre) + outs * h * w)); [lia|].
    cbn [orb bind]. split; [|split; [exact Lb|split; [exact Lb|]]].
    + f_equal. f_equal. rewrite Nat2Z.id, firstn_app, firstn_all, Nat.sub_diag. cbn [firstn]. rewrite app_nil_r. f_equal.
      rewrite firstn_all2 by (rewrite map_length; lia). f_equal.
      rewrite Z2Nat.inj_add, Nat2Z.id by lia. rewrite skipn_app. rewrite skipn_all2 by lia. cbn [app].
      replace (length pre + Z.to_nat (outs * h * w) - length pre)%nat with (Z.to_nat (outs * h * w)) by lia.
      rewrite skipn_app. unfold fresh. rewrite skipn_all2 by (rewrite repeat_length; lia). rewrite repeat_length, Nat.sub_diag. reflexivity.
    + intros c a b Hc Ha Hb. rewrite Pb by nia. f_equal. unfold deconv_at. rewrite (sum_single 1 _ 0) by lia. rewrite (sum_single 1 _ 0) by lia.
      rewrite E1, E2, E4, E7.
      rewrite (sum_single h _ a Ha).
      2:{ intros i Hi Ne. rewrite (sum_ext rO radd w _ (fun _ => rO)); [apply (suml_zero (upto w))|].
          intros j Hj. destruct (Z.eqb_spec (i * 1 + 0 * dil_h win - 0) a); [lia|reflexivity]. }
      rewrite (sum_single w _ b Hb).
      2:{ intros j Hj Ne. destruct (Z.eqb_spec (j * 1 + 0 * dil_w win - 0) b); [lia|]. now rewrite andb_false_r. }
      destruct (Z.eqb_spec (a * 1 + 0 * dil_h win - 0) a); [|lia]. destruct (Z.eqb_spec (b * 1 + 0 * dil_w win - 0) b); [|lia]. cbn [andb].
      apply sum_ext. intros o Ho. rewrite HB by lia. f_equal. f_equal. lia.
  - destruct (col2im_ok (read (map Some buf)) outs oh ow kh kw h w win (fun c p q i j => sum_of ins (fun o => A ((c * kh + p) * kw + q) o *! image o i j)))
      as (prog & data & Ep & Ex & Ld & Pd); auto.
    { unfold forward, conv_size. destruct (Z.eqb_spec (stride_h win) 0); [lia|]. destruct (Z.eqb_spec (stride_w win) 0); [lia|]. cbn [bind].
      replace (oh + top win + bottom win - (dil_h win * (kh - 1) + 1)) with ((h - 1) * stride_h win) by (rewrite Eoh; unfold backward_size; ring).
      replace (ow + left_ win + right_ win - (dil_w win * (kw - 1) + 1)) with ((w - 1) * stride_w win) by (rewrite Eow; unfold backward_size; ring).
      rewrite !Z.quot_mul by assumption. repeat f_equal; lia. }
    { intros c p q i j Hc Hp Hq Hi Hj.
      assert (Hk : 0 <= (c * kh + p) * kw + q < outs * kh * kw) by (assert (0 <= c * kh + p < outs * kh) by nia; nia).
      assert (Hn : 0 <= i * w + j < h * w) by nia.
      assert (El : load (map Some buf) (((c * kh + p) * kw + q) * (h * w) + (i * w + j)) = SOk (Some (sum_of ins (fun o => A ((c * kh + p) * kw + q) o *! B o (i * w + j))))).
      { apply load_inv. split; [nia|]. rewrite nth_error_map, Pb by assumption. reflexivity. }
      unfold read. rewrite El. f_equal. apply sum_ext. intros o Ho. now rewrite HB. }
    rewrite Ep. cbn [bind]. rewrite (exec_instrs_within pre post prog _ _ Ex). cbn [bind].
    exists (map Some buf), data. split; [reflexivity|]. split; [rewrite map_length, Lb; ring|]. split; [exact Ld|exact Pd].
Qed.

(** ** all the images *)
Lemma deconv_images_ok (x wt : Z -> sres R) ins h w outs kh kw oh ow win image A :
  0 <= ins -> 0 <= h -> 0 <= w -> 0 <= outs -> 0 <= kh -> 0 <= kw -> 0 <= oh -> 0 <= ow ->
  oh = backward_size h (top win) (bottom win) kh (stride_h win) (dil_h win) ->
  ow = backward_size w (left_ win) (right_ win) kw (stride_w win) (dil_w win) ->
  stride_h win <> 0 -> stride_w win <> 0 ->
  (forall k o, 0 <= k < outs * kh * kw -> 0 <= o < ins -> wt (k * ins + o) = SOk (A k o)) ->
  forall (todo from : nat) col (done : list R),
  (forall n o i j, Z.of_nat from <= n < Z.of_nat (from + todo) -> 0 <= o < ins -> 0 <= i < h -> 0 <= j < w ->
     x (n * (ins * (h * w)) + (o * (h * w) + (i * w + j))) = SOk (image n o i j)) ->
  Z.of_nat (length col) = outs * kh * kw * h * w ->
  Z.of_nat (length done) = Z.of_nat from * (outs * oh * ow) ->
  (forall n c a b, 0 <= n < Z.of_nat from -> 0 <= c < outs -> 0 <= a < oh -> 0 <= b < ow ->
     nth_error done (Z.to_nat (n * (outs * oh * ow) + (c * (oh * ow) + (a * ow + b)))) = Some (deconv_at A (image n) ins h w kh kw win c a b)) ->
  exists out, deconv_images rO rI radd rmul near true x wt ins h w outs kh kw oh ow win (map Z.of_nat (seq from todo)) col
      (map Some done ++ fresh (Z.of_nat todo * (outs * oh * ow))) = SOk (map Some out) /\
    Z.of_nat (length out) = Z.of_nat (from + todo) * (outs * oh * ow) /\
    forall n c a b, 0 <= n < Z.of_nat (from + todo) -> 0 <= c < outs -> 0 <= a < oh -> 0 <= b < ow ->
     nth_error out (Z.to_nat (n * (outs * oh * ow) + (c * (oh * ow) + (a * ow + b)))) = Some (deconv_at A (image n) ins h w kh kw win c a b).
Proof using Rth near_refl.
  intros HI Hh Hw HO Hkh Hkw Hoh How Eoh Eow Hsh Hsw Hwt. assert (Hz : 0 <= outs * oh * ow) by (repeat apply Z.mul_nonneg_nonneg; assumption).
  set (sz := outs * oh * ow) in *.
  induction todo as [|todo IH]; intros from col done Hx Lcol Ldone Pdone.
  - exists done. cbn [seq map deconv_images]. change (Z.of_nat 0 * sz) with 0. unfold fresh. cbn [Z.to_nat repeat]. rewrite app_nil_r, Nat.add_0_r. auto.
  - cbn [seq map deconv_images].
    replace (Z.of_nat (S todo) * sz) with (sz + Z.of_nat todo * sz) by lia. rewrite fresh_app by nia.
    replace (Z.of_nat from * (outs * oh * ow)) with (Z.of_nat (length (map (@Some R) done))) by (rewrite map_length, Ldone; reflexivity).
    destruct (deconv_image_ok (fun p => x (Z.of_nat from * (ins * (h * w)) + p)) wt ins h w outs kh kw oh ow win col (map Some done) (fresh (Z.of_nat todo * sz)) (image (Z.of_nat from)) A)
      as (col' & data & E & Lc & Ld & Pd); auto.
    { intros o i j Ho Hi Hj. apply Hx; auto. lia. }
    fold sz in E, Ld. rewrite E. cbn [bind fst snd]. rewrite app_assoc, <- map_app.
    destruct (IH (S from) col' (done ++ data)) as (out & Eo & Lo & Po); auto.
    { intros n o i j Hn. apply Hx. lia. }
    { rewrite app_length. lia. }
    { intros n c a b Hn Hc Ha Hb. assert (Hin : 0 <= c * (oh * ow) + (a * ow + b) < sz) by (unfold sz; assert (0 <= a * ow + b < oh * ow) by nia; nia).
      destruct (Z.eq_dec n (Z.of_nat from)) as [->|Ne].
      - rewrite nth_error_app2 by (set (q := c * (oh * ow) + (a * ow + b)) in *; clearbody q; nia).
        rewrite <- (Pd c a b Hc Ha Hb). f_equal. lia.
      - rewrite nth_error_app1 by (set (q := c * (oh * ow) + (a * ow + b)) in *; clearbody q; nia). apply Pdone; auto. lia. }
    exists out. replace (from + S todo)%nat with (S from + todo)%nat by lia. auto.
Qed.
End Proofs.
