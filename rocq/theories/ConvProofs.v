(** Convolution by im2col and the packed product. *)
From Coq Require Import List ZArith Bool Lia Ring.
From Verif Require Import ShapeModel ShapeSpec ShapeProofs KernelBase KernelSpec KernelProofs LoopModel LoopProofs EltwiseModel
  GemmModel GemmSpec GemmProofs ConvModel ConvSpec.
Import ListNotations.
Local Open Scope Z_scope.

(** stores that give every coordinate its value *)
Lemma exec_grid {A} s (g : list Z -> A) tr m : Forall (fun d => 0 <= d) s -> Z.of_nat (length m) = elements s ->
  (forall d v, In (d, v) tr -> exists c, inside s c /\ d = position s c /\ v = SOk (g c)) ->
  (forall c, inside s c -> In (position s c) (map fst tr)) ->
  exists out, exec m tr = SOk (map Some out) /\ Z.of_nat (length out) = elements s /\
    forall c, inside s c -> nth_error out (Z.to_nat (position s c)) = Some (g c).
Proof.
  intros N L H1 H2.
  destruct (exec_spec (fun d => g (nth (Z.to_nat d) (loops s) [])) tr m) as (m' & E & L' & P).
  { intros d v Hin. destruct (H1 d v Hin) as (c & Hc & -> & ->). rewrite L. split; [now apply position_bound|].
    now rewrite (nth_error_nth _ _ [] (nth_loops s c Hc)). }
  exists (map (fun d => g (nth (Z.to_nat d) (loops s) [])) (upto (elements s))). split; [|split].
  - rewrite E. f_equal. apply nth_error_ext. intros i. destruct (Z_lt_dec (Z.of_nat i) (elements s)) as [Hi|Hi].
    + destruct (coordinate_of s (Z.of_nat i) N) as (c & Hc & Pc); [lia|].
      assert (Hil : (i < length m)%nat) by lia. rewrite (proj1 (P i Hil)) by (rewrite <- Pc; now apply H2).
      rewrite !nth_error_map. rewrite <- (Nat2Z.id i) at 2. rewrite nth_error_upto by lia. reflexivity.
    + rewrite (proj2 (nth_error_None m' i)) by lia. symmetry. apply nth_error_None. rewrite !map_length, length_upto. lia.
  - rewrite map_length, length_upto. pose proof (elements_nonneg s N). lia.
  - intros c Hc. rewrite nth_error_map, nth_error_upto by (now apply position_bound). cbn [option_map].
    now rewrite (nth_error_nth _ _ [] (nth_loops s c Hc)).
Qed.

Section Proofs.
Context {R : Type} (rO rI : R) (radd rmul : R -> R -> R).
Hypothesis Rth : semi_ring_theory rO rI radd rmul eq.
Add Ring Rring : Rth.
Variable near : R -> R -> bool.
Hypothesis near_refl : forall x, near x x = true.
Notation "a +! b" := (radd a b) (at level 50, left associativity).
Notation "a *! b" := (rmul a b) (at level 40, left associativity).
Notation sums := (sums rO radd).
Notation sum_of := (sum_of rO radd).

Lemma sum_ext n f g : (forall k, 0 <= k < n -> f k = g k) -> sum_of n f = sum_of n g.
Proof. intros H. change (sums f (upto n) = sums g (upto n)). apply sums_ext. intros x Hx. apply H. now apply In_upto. Qed.

(** a sum over [a * b] terms, line by line *)
Lemma sum_mul a b f : 0 <= a -> 0 <= b -> sum_of (a * b) f = sum_of a (fun i => sum_of b (fun j => f (i * b + j))).
Proof using Rth.
  intros Ha Hb. pattern a. apply natlike_ind; [reflexivity| |exact Ha]. intros k Hk IH. unfold Z.succ.
  change (sums f (upto ((k + 1) * b)) = sums (fun i => sum_of b (fun j => f (i * b + j))) (upto (k + 1))).
  rewrite upto_S, (sums_snoc rO rI radd rmul Rth) by exact Hk.
  change (sum_of (k * b) f) with (sums f (upto (k * b))) in IH.
  change (sums (fun i => sum_of b (fun j => f (i * b + j))) (upto k)) with (sum_of k (fun i => sum_of b (fun j => f (i * b + j)))). rewrite <- IH.
  rewrite <- (upto_between (k * b) ((k + 1) * b)) by nia. rewrite (sums_app rO rI radd rmul Rth). f_equal.
  unfold between. replace ((k + 1) * b - k * b) with b by lia.
  change (sum_of b (fun j => f (k * b + j))) with (sums (fun j => f (k * b + j)) (upto b)).
  induction (upto b) as [|y l IHl]; [reflexivity|]. cbn [map]. rewrite !sums_cons. now rewrite IHl.
Qed.

(** the stores of a packed product *)
Lemma packed_stores M N K (a b : Z -> sres R) A B packA : 0 <= M -> 0 <= N -> 0 <= K ->
  (if packA : bool then forall i k, 0 <= i < M -> 0 <= k < K -> a (i * K + k) = SOk (A i k) else packed_rows M K a A) ->
  (forall k j, 0 <= k < K -> 0 <= j < N -> b (k * N + j) = SOk (B k j)) ->
  exists stores, packed_gemm rO rI radd rmul near true M N K rI a b rO packA true = SOk stores /\
    (forall d v, In (d, v) stores -> exists i j, 0 <= i < M /\ 0 <= j < N /\ d = i * N + j /\ v = SOk (sum_of K (fun k => A i k *! B k j))) /\
    (forall i j, 0 <= i < M -> 0 <= j < N -> In (i * N + j) (map fst stores)).
Proof using Rth near_refl.
  intros HM HN HK Ha Hb. unfold packed_gemm. rewrite !near_refl. cbn [negb orb].
  destruct (pack_B_ok rO rI radd rmul Rth K N N b B HK HN Hb) as (db & -> & Pb).
  assert (Ea : exists a', (if packA then lift1 read (exec (fresh (M * K)) (pack8_A M K a K)) else SOk a) = SOk a' /\ packed_rows M K a' A).
  { destruct packA; [|now exists a]. destruct (pack_A_ok rO rI radd rmul Rth M K K a A HM HK Ha) as (da & -> & Pa). eexists. split; [reflexivity|exact Pa]. }
  destruct Ea as (a' & -> & Pa). cbn [lift1]. eexists. split; [reflexivity|]. split.
  - exact (kernel_events rO rI radd rmul Rth M N K a' _ A B HM HN HK Pa Pb).
  - exact (kernel_covers rO rI radd rmul Rth M N K a' _ A B HM HN HK Pa Pb).
Qed.

(** im2col *)
Lemma im2col_ok (x : Z -> sres R) channels h w kh kw win pv oh ow image m :
  0 <= channels -> 0 <= kh -> 0 <= kw -> 0 <= oh -> 0 <= ow ->
  forward win h w kh kw = SOk (oh, ow) ->
  (forall c i j, 0 <= c < channels -> 0 <= i < h -> 0 <= j < w -> x (c * (h * w) + (i * w + j)) = SOk (image c i j)) ->
  Z.of_nat (length m) = elements [channels; kh; kw; oh; ow] ->
  exists stores buffer, im2col x channels h w kh kw win pv = SOk stores /\ exec m stores = SOk (map Some buffer) /\
    forall c p q i j, 0 <= c < channels -> 0 <= p < kh -> 0 <= q < kw -> 0 <= i < oh -> 0 <= j < ow ->
      nth_error buffer (Z.to_nat (position [channels; kh; kw; oh; ow] [c; p; q; i; j])) =
        Some (padded pv h w (image c) (i * stride_h win + p * dil_h win - top win) (j * stride_w win + q * dil_w win - left_ win)).
Proof.
  intros H1 H2 H3 H4 H5 Hf Hx Lm. unfold im2col. rewrite Hf. cbn [bind].
  destruct (Z.ltb_spec oh 0); [lia|]. destruct (Z.ltb_spec ow 0); [lia|]. cbn [orb].
  assert (N : Forall (fun d => 0 <= d) [channels; kh; kw; oh; ow]) by (repeat constructor; assumption).
  eexists. destruct (exec_grid [channels; kh; kw; oh; ow]
    (fun c => match c with [c; p; q; i; j] => padded pv h w (image c) (i * stride_h win + p * dil_h win - top win) (j * stride_w win + q * dil_w win - left_ win) | _ => rO end)
    (map (fun kc => (fst kc,
    match snd kc with
    | [channel; kernel_row; kernel_col; output_row; output_col] =>
        let input_row := - top win + kernel_row * dil_h win + output_row * stride_h win in
        let input_col := - left_ win + kernel_col * dil_w win + output_col * stride_w win in
        if negb (in_image input_row h) then SOk pv
        else if in_image input_col w then x (channel * (h * w) + (input_row * w + input_col))
        else SOk pv
    | _ => SUndef
    end)) (counted (loops [channels; kh; kw; oh; ow]))) m N Lm) as (buffer & E & L & P).
  - intros d v Hin. apply in_map_iff in Hin. destruct Hin as ((k & c) & Ek & Hin). apply In_counted_loops in Hin. destruct Hin as [Hc ->].
    cbn [fst snd] in Ek. injection Ek as <- <-. exists c. split; [exact Hc|]. split; [reflexivity|].
    inversion Hc as [|? ch ? c1 Hch Hc1]; subst. inversion Hc1 as [|? p ? c2 Hp Hc2]; subst. inversion Hc2 as [|? q ? c3 Hq Hc3]; subst.
    inversion Hc3 as [|? i ? c4 Hi Hc4]; subst. inversion Hc4 as [|? j ? c5 Hj Hc5]; subst. inversion Hc5; subst.
    replace (i * stride_h win + p * dil_h win - top win) with (- top win + p * dil_h win + i * stride_h win) by lia.
    replace (j * stride_w win + q * dil_w win - left_ win) with (- left_ win + q * dil_w win + j * stride_w win) by lia.
    set (r := - top win + p * dil_h win + i * stride_h win). set (cc := - left_ win + q * dil_w win + j * stride_w win).
    unfold padded, in_image.
    destruct (Z.leb_spec 0 r), (Z.ltb_spec r h); cbn [andb negb]; try reflexivity.
    destruct (Z.leb_spec 0 cc), (Z.ltb_spec cc w); cbn [andb negb]; try reflexivity.
    apply Hx; lia.
  - intros c Hc. apply in_map_iff. eexists. split; [|apply in_map_iff; exists (position [channels; kh; kw; oh; ow] c, c); split; [reflexivity|now apply In_counted_loops]].
    reflexivity.
  - exists buffer. split; [reflexivity|]. split; [exact E|]. intros c p q i j Hc Hp Hq Hi Hj. apply (P [c; p; q; i; j]).
    repeat (constructor; [lia|]). constructor.
Qed.

(** one image *)
Definition conv_at (A : Z -> Z -> R) (image : Z -> Z -> Z -> R) (channels h w kh kw : Z) (pv : R) (win : window) (o i j : Z) : R :=
  sum_of channels (fun c => sum_of kh (fun p => sum_of kw (fun q =>
    A o ((c * kh + p) * kw + q) *!
    padded pv h w (image c) (i * stride_h win + p * dil_h win - top win) (j * stride_w win + q * dil_w win - left_ win)))).

Lemma conv_image_ok (x w : Z -> sres R) channels h wd outs kh kw oh ow win pv packed image A :
  0 <= channels -> 0 <= outs -> 0 <= kh -> 0 <= kw -> 0 <= oh -> 0 <= ow ->
  forward win h wd kh kw = SOk (oh, ow) ->
  (forall c i j, 0 <= c < channels -> 0 <= i < h -> 0 <= j < wd -> x (c * (h * wd) + (i * wd + j)) = SOk (image c i j)) ->
  (if negb packed then forall o k, 0 <= o < outs -> 0 <= k < channels * kh * kw -> w (o * (channels * kh * kw) + k) = SOk (A o k)
   else packed_rows outs (channels * kh * kw) w A) ->
  exists stores, conv_image rO rI radd rmul near true x w channels h wd outs kh kw oh ow win pv packed = SOk stores /\
    (forall d v, In (d, v) stores -> exists o i j, 0 <= o < outs /\ 0 <= i < oh /\ 0 <= j < ow /\
        d = o * (oh * ow) + (i * ow + j) /\ v = SOk (conv_at A image channels h wd kh kw pv win o i j)) /\
    (forall o i j, 0 <= o < outs -> 0 <= i < oh -> 0 <= j < ow -> In (o * (oh * ow) + (i * ow + j)) (map fst stores)).
Proof using Rth near_refl.
  intros HC HO Hkh Hkw Hoh How Hf Hx Hw.
  assert (Hcol : exists col,
    (if is_1x1 kh kw win then SOk x
     else bind (im2col x channels h wd kh kw win pv) (fun stores =>
          bind (exec (map Some (repeat rO (Z.to_nat (channels * kh * kw * oh * ow)))) stores) (fun buffer => SOk (read buffer)))) = SOk col /\
    forall c p q i j, 0 <= c < channels -> 0 <= p < kh -> 0 <= q < kw -> 0 <= i < oh -> 0 <= j < ow ->
      col (((c * kh + p) * kw + q) * (oh * ow) + (i * ow + j)) =
      SOk (padded pv h wd (image c) (i * stride_h win + p * dil_h win - top win) (j * stride_w win + q * dil_w win - left_ win))).
  { destruct (is_1x1 kh kw win) eqn:E1.
    - exists x. split; [reflexivity|]. unfold is_1x1 in E1.
      repeat match type of E1 with (_ && _ = true) => apply andb_true_iff in E1; let E := fresh "E" in destruct E1 as [E1 E]; apply Z.eqb_eq in E end.
      apply Z.eqb_eq in E1. unfold forward, conv_size in Hf. rewrite E1, E6, E, E0, E2, E3 in Hf. cbn [Z.eqb bind] in Hf.
      injection Hf as Foh Fow. rewrite Z.quot_1_r in Foh, Fow.
      assert (oh = h) by (subst kh; lia). assert (ow = wd) by (subst kw; lia). subst oh ow.
      intros c p q i j Hc Hp Hq Hi Hj. assert (p = 0) by lia. assert (q = 0) by lia. subst p q kh kw.
      rewrite E1, E6, E0, E3. replace ((c * 1 + 0) * 1 + 0) with c by lia.
      replace (i * 1 + 0 * dil_h win - 0) with i by lia. replace (j * 1 + 0 * dil_w win - 0) with j by lia.
      unfold padded. destruct (Z.leb_spec 0 i), (Z.ltb_spec i h), (Z.leb_spec 0 j), (Z.ltb_spec j wd); try lia. cbn [andb].
      rewrite H, H0. apply Hx; lia.
    - destruct (im2col_ok x channels h wd kh kw win pv oh ow image (map Some (repeat rO (Z.to_nat (channels * kh * kw * oh * ow))))) as (stores & buffer & E & E' & P); auto.
      { rewrite map_length, repeat_length. cbn [elements]. rewrite Z2Nat.id by (repeat apply Z.mul_nonneg_nonneg; assumption). ring. }
      rewrite E. cbn [bind]. rewrite E'. cbn [bind]. eexists. split; [reflexivity|].
      intros c p q i j Hc Hp Hq Hi Hj. unfold read. specialize (P c p q i j Hc Hp Hq Hi Hj).
      replace (position [channels; kh; kw; oh; ow] [c; p; q; i; j]) with (((c * kh + p) * kw + q) * (oh * ow) + (i * ow + j)) in P by (cbn [position elements]; ring).
      assert (El : load (map Some buffer) (((c * kh + p) * kw + q) * (oh * ow) + (i * ow + j)) = SOk (Some (padded pv h wd (image c) (i * stride_h win + p * dil_h win - top win) (j * stride_w win + q * dil_w win - left_ win)))).
      { apply load_inv. split.
        - assert (0 <= c * kh) by nia. assert (0 <= (c * kh + p) * kw) by nia. assert (0 <= oh * ow) by nia. assert (0 <= i * ow) by nia. nia.
        - rewrite nth_error_map, P. reflexivity. }
      now rewrite El. }
  destruct Hcol as (col & Ecol & Pcol). unfold conv_image. rewrite Ecol. cbn [bind]. clear Ecol.
  assert (HN : 0 <= oh * ow) by nia. assert (HK : 0 <= channels * kh * kw) by (repeat apply Z.mul_nonneg_nonneg; assumption).
  destruct (packed_stores outs (oh * ow) (channels * kh * kw) w col A (fun k n => match col (k * (oh * ow) + n) with SOk v => v | _ => rO end) (negb packed) HO HN HK Hw)
    as (stores & E & S1 & S2).
  { intros k n Hk Hn. assert (0 < ow) by nia. assert (0 < kw) by nia. assert (0 < kh) by nia.
    assert (Hc : 0 <= k / kw / kh < channels /\ 0 <= (k / kw) mod kh < kh /\ 0 <= k mod kw < kw).
    { split; [|split; apply Z.mod_pos_bound; lia]. split; [apply Z.div_pos; [apply Z.div_pos; lia|lia]|].
      apply Z.div_lt_upper_bound; [lia|]. apply Z.div_lt_upper_bound; [lia|]. nia. }
    assert (Hn' : 0 <= n / ow < oh /\ 0 <= n mod ow < ow).
    { split; [|apply Z.mod_pos_bound; lia]. split; [apply Z.div_pos; lia|apply Z.div_lt_upper_bound; nia]. }
    destruct Hc as (C1 & C2 & C3), Hn' as (N1 & N2).
    pose proof (Pcol _ _ _ _ _ C1 C2 C3 N1 N2) as P.
    replace ((k / kw / kh * kh + (k / kw) mod kh) * kw + k mod kw) with k in P
      by (rewrite (Z.mul_comm (k / kw / kh) kh), <- (Z.div_mod (k / kw) kh) by lia; rewrite (Z.mul_comm (k / kw) kw), <- (Z.div_mod k kw) by lia; reflexivity).
    replace (n / ow * ow + n mod ow) with n in P by (rewrite (Z.mul_comm (n / ow) ow), <- (Z.div_mod n ow) by lia; reflexivity).
    now rewrite P. }
  exists stores. split; [exact E|]. split.
  - intros d v Hin. destruct (S1 d v Hin) as (o & n & Ho & Hn & -> & ->). assert (0 < ow) by nia.
    exists o, (n / ow), (n mod ow).
    assert (Hn' : 0 <= n / ow < oh /\ 0 <= n mod ow < ow).
    { split; [|apply Z.mod_pos_bound; lia]. split; [apply Z.div_pos; lia|apply Z.div_lt_upper_bound; nia]. }
    destruct Hn' as (N1 & N2).
    assert (En : n / ow * ow + n mod ow = n) by (rewrite (Z.mul_comm (n / ow) ow), <- (Z.div_mod n ow) by lia; reflexivity).
    split; [exact Ho|]. split; [exact N1|]. split; [exact N2|]. split; [now rewrite En|]. f_equal. unfold conv_at.
    replace (channels * kh * kw) with (channels * (kh * kw)) by ring. rewrite sum_mul by (try assumption; nia).
    apply sum_ext. intros c Hc. rewrite sum_mul by assumption. apply sum_ext. intros p Hp. apply sum_ext. intros q Hq.
    replace (c * (kh * kw) + (p * kw + q)) with ((c * kh + p) * kw + q) by ring.
    pose proof (Pcol c p q _ _ Hc Hp Hq N1 N2) as P. rewrite En in P. now rewrite P.
  - intros o i j Ho Hi Hj. apply S2; [exact Ho|nia].
Qed.

(** all the images *)
Lemma conv_run_ok (x w : list R) number channels h wd outs kh kw oh ow win pv packed image A :
  0 <= number -> 0 <= channels -> 0 <= h -> 0 <= wd -> 0 <= outs -> 0 <= kh -> 0 <= kw -> 0 <= oh -> 0 <= ow ->
  forward win h wd kh kw = SOk (oh, ow) ->
  (forall n c i j, 0 <= n < number -> 0 <= c < channels -> 0 <= i < h -> 0 <= j < wd ->
     load x (n * (channels * h * wd) + (c * (h * wd) + (i * wd + j))) = SOk (image n c i j)) ->
  (if negb packed then forall o k, 0 <= o < outs -> 0 <= k < channels * kh * kw -> load w (o * (channels * kh * kw) + k) = SOk (A o k)
   else packed_rows outs (channels * kh * kw) (load w) A) ->
  exists stores out, conv_run rO rI radd rmul near true x w number channels h wd outs kh kw oh ow win pv packed = SOk stores /\
    exec (fresh (number * outs * oh * ow)) stores = SOk (map Some out) /\
    Z.of_nat (length out) = elements [number; outs; oh; ow] /\
    forall n o i j, 0 <= n < number -> 0 <= o < outs -> 0 <= i < oh -> 0 <= j < ow ->
      nth_error out (Z.to_nat (position [number; outs; oh; ow] [n; o; i; j])) =
        Some (conv_at A (image n) channels h wd kh kw pv win o i j).
Proof using Rth near_refl.
  intros Hn HC Hh Hwd HO Hkh Hkw Hoh How Hf Hx Hw.
  set (one := fun i => conv_image rO rI radd rmul near true (fun p => load x (i * (channels * h * wd) + p)) (load w) channels h wd outs kh kw oh ow win pv packed).
  assert (Hone : forall i, 0 <= i < number -> exists stores, one i = SOk stores /\
    (forall d v, In (d, v) stores -> exists o a b, 0 <= o < outs /\ 0 <= a < oh /\ 0 <= b < ow /\
        d = o * (oh * ow) + (a * ow + b) /\ v = SOk (conv_at A (image i) channels h wd kh kw pv win o a b)) /\
    (forall o a b, 0 <= o < outs -> 0 <= a < oh -> 0 <= b < ow -> In (o * (oh * ow) + (a * ow + b)) (map fst stores))).
  { intros i Hi. apply conv_image_ok; auto. }
  set (tr := fun i => match one i with SOk s => shift (i * (outs * (oh * ow))) s | _ => [] end).
  exists (flat_map tr (upto number)).
  assert (Erun : conv_run rO rI radd rmul near true x w number channels h wd outs kh kw oh ow win pv packed = SOk (flat_map tr (upto number))).
  { unfold conv_run. fold one. rewrite (each_ok _ tr).
    - cbn [bind]. now rewrite <- flat_map_concat_map.
    - intros i Hi. apply In_upto in Hi. destruct (Hone i Hi) as (s & Es & _). fold (one i). unfold tr. rewrite Es. reflexivity. }
  assert (N : Forall (fun d => 0 <= d) [number; outs; oh; ow]) by (repeat constructor; assumption).
  destruct (exec_grid [number; outs; oh; ow]
     (fun c => match c with [n; o; i; j] => conv_at A (image n) channels h wd kh kw pv win o i j | _ => rO end)
     (flat_map tr (upto number)) (fresh (number * outs * oh * ow)) N) as (out & E & L & P).
  - unfold fresh. rewrite repeat_length. cbn [elements]. rewrite Z2Nat.id by (repeat apply Z.mul_nonneg_nonneg; assumption). ring.
  - intros d v Hin. apply in_flat_map in Hin. destruct Hin as (n & Hin1 & Hin). apply In_upto in Hin1.
    destruct (Hone n Hin1) as (s & Es & S1 & _). unfold tr in Hin. rewrite Es in Hin. apply in_map_iff in Hin.
    destruct Hin as ((d' & v') & Ed & Hin). cbn [fst snd] in Ed. injection Ed as <- <-.
    destruct (S1 d' v' Hin) as (o & i & j & Ho & Hi & Hj & -> & ->). exists [n; o; i; j].
    split; [repeat (constructor; [lia|]); constructor|]. split; [|reflexivity]. cbn [position elements]. ring.
  - intros c Hc. inversion Hc as [|? n ? c1 Hcn Hc1]; subst. inversion Hc1 as [|? o ? c2 Ho Hc2]; subst. inversion Hc2 as [|? i ? c3 Hi Hc3]; subst.
    inversion Hc3 as [|? j ? c4 Hj Hc4]; subst. inversion Hc4; subst.
    destruct (Hone n Hcn) as (s & Es & _ & S2). pose proof (S2 o i j Ho Hi Hj) as Hin. apply in_map_iff in Hin. destruct Hin as ((d & v) & Ed & Hin).
    cbn [fst] in Ed. apply in_map_iff. exists (n * (outs * (oh * ow)) + d, v). split; [cbn [fst position elements]; rewrite Ed; ring|].
    apply in_flat_map. exists n. split; [now apply In_upto|]. unfold tr. rewrite Es. apply in_map_iff. exists (d, v). split; [reflexivity|exact Hin].
  - exists out. split; [exact Erun|]. split; [exact E|]. split; [exact L|]. intros n o i j Hn' Ho Hi Hj. apply (P [n; o; i; j]).
    repeat (constructor; [lia|]). constructor.
Qed.
End Proofs.
