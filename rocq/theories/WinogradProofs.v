(** The stages of Winograd's method. *)
From Coq Require Import List ZArith Bool Lia Ring Field.
From Verif Require Import ShapeModel ShapeSpec ShapeProofs KernelBase KernelSpec KernelProofs LoopModel LoopProofs EltwiseModel
  EltwiseKernelProofs GemmModel GemmSpec GemmProofs ConvModel ConvSpec ConvProofs PoolingModel PoolingProofs DeconvProofs
  WinogradModel WinogradAlgebra.
Import ListNotations.
Local Open Scope Z_scope.

Lemma join_index n m i j : 0 <= i < n -> 0 <= j < m -> 0 <= i * m + j < n * m /\ (i * m + j) / m = i /\ (i * m + j) mod m = j.
Proof.
  intros Hi Hj. split; [nia|]. split.
  - symmetry. apply (Z.div_unique _ _ _ j); lia.
  - symmetry. apply (Z.mod_unique _ _ i); lia.
Qed.
Lemma split_index n m k : 0 <= k < n * m -> 0 <= m -> 0 <= k / m < n /\ 0 <= k mod m < m /\ k = k / m * m + k mod m.
Proof.
  intros Hk Hm. assert (0 < m) by (destruct (Z.eq_dec m 0) as [->|]; [rewrite Z.mul_0_r in Hk; lia|lia]).
  split; [|split; [now apply Z.mod_pos_bound|rewrite Z.mul_comm; now apply Z.div_mod; lia]].
  split; [apply Z.div_pos; lia|]. apply Z.div_lt_upper_bound; lia.
Qed.

Lemma read_some {A} (l : list A) k v : 0 <= k -> nth_error l (Z.to_nat k) = Some v -> read (map Some l) k = SOk v.
Proof.
  intros Hk H. unfold read. assert (E : load (map Some l) k = SOk (Some v)).
  { apply load_inv. split; [exact Hk|]. now rewrite nth_error_map, H. }
  now rewrite E.
Qed.
Lemma read_load {A} (l : list A) k v : read (map Some l) k = SOk v -> load (map Some l) k = SOk (Some v).
Proof. unfold read. destruct (load (map Some l) k) as [[u|]| |]; try discriminate. congruence. Qed.

Lemma grid {A} N s (g : list Z -> A) tr : Forall (fun d => 0 <= d) s -> N = elements s ->
  (forall d v, In (d, v) tr -> exists c, inside s c /\ d = position s c /\ v = SOk (g c)) ->
  (forall c, inside s c -> exists v, In (position s c, v) tr) ->
  exists out, exec (fresh N) tr = SOk (map Some out) /\ Z.of_nat (length out) = elements s /\
    forall c, inside s c -> nth_error out (Z.to_nat (position s c)) = Some (g c) /\ read (map Some out) (position s c) = SOk (g c).
Proof.
  intros F -> H1 H2. destruct (exec_grid s g tr (fresh (elements s)) F) as (out & E & L & P).
  - unfold fresh. rewrite repeat_length. pose proof (elements_nonneg s F). lia.
  - exact H1.
  - intros c Hc. destruct (H2 c Hc) as (v & Hv). apply in_map_iff. now exists (position s c, v).
  - exists out. split; [exact E|]. split; [exact L|]. intros c Hc. split; [now apply P|].
    apply read_some; [now apply position_bound|now apply P].
Qed.

Lemma inside_inv d s k c : inside (d :: s) (k :: c) -> 0 <= k < d /\ inside s c.
Proof. intros H. inversion H; subst. now split. Qed.
Lemma inside_2 a b c : inside [a; b] c -> exists i j, c = [i; j] /\ 0 <= i < a /\ 0 <= j < b.
Proof.
  intros H. destruct c as [|i c]; [inversion H|]. apply inside_inv in H. destruct H as [Hi H].
  destruct c as [|j c]; [inversion H|]. apply inside_inv in H. destruct H as [Hj H]. inversion H; subst. now exists i, j.
Qed.
Lemma inside_3 a b c l : inside [a; b; c] l -> exists i j k, l = [i; j; k] /\ 0 <= i < a /\ 0 <= j < b /\ 0 <= k < c.
Proof.
  intros H. destruct l as [|i l]; [inversion H|]. apply inside_inv in H. destruct H as [Hi H].
  apply inside_2 in H. destruct H as (j & k & -> & Hj & Hk). now exists i, j, k.
Qed.
Lemma inside_4 a b c d l : inside [a; b; c; d] l -> exists i j k m, l = [i; j; k; m] /\ 0 <= i < a /\ 0 <= j < b /\ 0 <= k < c /\ 0 <= m < d.
Proof.
  intros H. destruct l as [|i l]; [inversion H|]. apply inside_inv in H. destruct H as [Hi H].
  apply inside_3 in H. destruct H as (j & k & m & -> & Hj & Hk & Hm). exists i, j, k, m. auto.
Qed.
Lemma in_2 a b i j : 0 <= i < a -> 0 <= j < b -> inside [a; b] [i; j].
Proof. intros. repeat (constructor; [assumption|]). constructor. Qed.
Lemma in_3 a b c i j k : 0 <= i < a -> 0 <= j < b -> 0 <= k < c -> inside [a; b; c] [i; j; k].
Proof. intros. repeat (constructor; [assumption|]). constructor. Qed.
Lemma in_4 a b c d i j k m : 0 <= i < a -> 0 <= j < b -> 0 <= k < c -> 0 <= m < d -> inside [a; b; c; d] [i; j; k; m].
Proof. intros. repeat (constructor; [assumption|]). constructor. Qed.

(** tiles in the order of the loops *)
Lemma steps_tiles t th e : 0 < t -> 0 <= th -> t * th - (t - 1) <= e <= t * th -> steps 0 e t = map (fun k => t * k) (upto th).
Proof.
  intros Ht Hth He. unfold steps. replace ((e - 0 + t - 1) / t) with th.
  - apply map_ext. intros k. lia.
  - Z.to_euclidean_division_equations. nia.
Qed.
Lemma prod_loops {A B} (f : Z -> A) (g : Z -> B) a b :
  list_prod (map f (upto a)) (map g (upto b)) = map (fun c => (f (nth 0 c 0), g (nth 1 c 0))) (loops [a; b]).
Proof.
  enough (G : forall la lb, list_prod (map f la) (map g lb) =
     map (fun c => (f (nth 0 c 0), g (nth 1 c 0))) (flat_map (fun i => map (cons i) (flat_map (fun j => [[j]]) lb)) la)) by apply G.
  intros la lb. induction la as [|i la IH]; [reflexivity|]. cbn [map list_prod flat_map]. rewrite map_app, <- IH. f_equal.
  rewrite !map_map. clear IH. induction lb as [|j lb IHb]; [reflexivity|]. cbn [map flat_map app nth]. now rewrite IHb.
Qed.
Lemma In_tiles t th tw eh ew k y0 x0 : 0 < t -> 0 <= th -> 0 <= tw -> t * th - (t - 1) <= eh <= t * th -> t * tw - (t - 1) <= ew <= t * tw ->
  In (k, (y0, x0)) (counted (list_prod (steps 0 eh t) (steps 0 ew t))) <->
  exists ty tx, 0 <= ty < th /\ 0 <= tx < tw /\ k = ty * tw + tx /\ y0 = t * ty /\ x0 = t * tx.
Proof.
  intros Ht Hth Htw Heh Hew. rewrite (steps_tiles t th), (steps_tiles t tw) by assumption. rewrite prod_loops. rewrite In_counted, nth_error_map. split.
  - intros [Hk H]. destruct (nth_error (loops [th; tw]) (Z.to_nat k)) as [c|] eqn:E; [|discriminate]. cbn [option_map] in H.
    assert (I : In (k, c) (counted (loops [th; tw]))) by (apply In_counted; now split).
    apply In_counted_loops in I. destruct I as [I ->]. apply inside_2 in I. destruct I as (ty & tx & -> & Hy & Hx). cbn [nth] in H.
    apply (f_equal (fun o => match o with Some p => p | None => (0, 0) end)) in H. apply pair_equal_spec in H. destruct H as [<- <-].
    exists ty, tx. cbn [position elements]. split; [exact Hy|]. split; [exact Hx|]. split; [ring|now split].
  - intros (ty & tx & Hy & Hx & -> & -> & ->). split; [nia|].
    pose proof (nth_loops [th; tw] [ty; tx] (in_2 _ _ _ _ Hy Hx)) as H. cbn [position elements] in H.
    replace (ty * tw + tx) with (ty * (tw * 1) + (tx * 1 + 0)) by ring. rewrite H. reflexivity.
Qed.

(** blocks written one after the other *)
Lemma exec_app {A} tr tr' : forall (m : list (option A)), exec m (tr ++ tr') = bind (exec m tr) (fun m' => exec m' tr').
Proof.
  induction tr as [|[i [v| |]] tr IH]; intros m; cbn [app exec bind]; try reflexivity. destruct (store m i v); cbn [bind]; [apply IH|reflexivity|reflexivity].
Qed.
Lemma exec_within {A} (pre post : list (option A)) tr : forall m m', exec m tr = SOk m' ->
  exec (pre ++ m ++ post) (shift (Z.of_nat (length pre)) tr) = SOk (pre ++ m' ++ post).
Proof.
  induction tr as [|[i [v| |]] tr IH]; intros m m' H; cbn [exec shift map fst snd] in *; try discriminate.
  - injection H as ->. reflexivity.
  - destruct (store m i v) as [m1| |] eqn:E; try discriminate. rewrite (store_within pre m post i v m1 E). now apply IH.
Qed.
Lemma store_length {A} (m : list (option A)) i v m' : store m i v = SOk m' -> length m' = length m.
Proof. unfold store. destruct (_ || _); [discriminate|]. intros H. injection H as <-. apply set_nth_length. Qed.
Lemma exec_length {A} tr : forall (m m' : list (option A)), exec m tr = SOk m' -> length m' = length m.
Proof.
  induction tr as [|[i [v| |]] tr IH]; intros m m' H; cbn [exec] in H; try discriminate; [injection H as <-; reflexivity|].
  destruct (store m i v) as [m1| |] eqn:E; try discriminate. rewrite (IH _ _ H). exact (store_length _ _ _ _ E).
Qed.
Lemma shift_0 {A} (tr : list (event A)) : shift 0 tr = tr.
Proof. unfold shift. induction tr as [|[i v] tr IH]; [reflexivity|]. cbn [map fst snd]. now rewrite IH. Qed.

Lemma exec_blocks {A} S0 (blk : Z -> list (event A)) (Q : Z -> (Z -> sres A) -> Prop) n : 0 <= S0 -> 0 <= n ->
  (forall i (r r' : Z -> sres A), (forall p v, r p = SOk v -> r' p = SOk v) -> Q i r -> Q i r') ->
  (forall i, 0 <= i < n -> exists data, exec (fresh S0) (blk i) = SOk (map Some data) /\ Q i (read (map Some data))) ->
  exists all, exec (fresh (S0 * n)) (flat_map (fun i => shift (i * S0) (blk i)) (upto n)) = SOk (map Some all) /\
    forall i, 0 <= i < n -> Q i (fun p => read (map Some all) (i * S0 + p)).
Proof.
  intros HS Hn HQ. pattern n. apply natlike_ind; [| |exact Hn].
  - intros _. exists []. split; [|lia]. rewrite Z.mul_0_r. reflexivity.
  - intros k Hk IH H. destruct IH as (all & E & P); [intros i Hi; apply H; lia|].
    destruct (H k) as (data & Ed & Pd); [lia|].
    exists (all ++ data). unfold Z.succ. rewrite upto_S by exact Hk. rewrite flat_map_app. cbn [flat_map]. rewrite app_nil_r, exec_app.
    pose proof (exec_length _ _ _ E) as La. pose proof (exec_length _ _ _ Ed) as Ld. unfold fresh in La, Ld. rewrite repeat_length, map_length in La, Ld.
    rewrite Z.mul_add_distr_l, Z.mul_1_r, fresh_app by nia.
    pose proof (exec_within [] (fresh S0) _ _ _ E) as E'. cbn [length app] in E'. change (Z.of_nat 0) with 0 in E'. rewrite shift_0 in E'. rewrite E'. cbn [bind].
    pose proof (exec_within (map Some all) [] _ _ _ Ed) as E2. rewrite !app_nil_r in E2. rewrite map_length in E2.
    replace (Z.of_nat (length all)) with (k * S0) in E2 by nia. rewrite E2. rewrite map_app. split; [reflexivity|].
    intros i Hi. destruct (Z.eq_dec i k) as [->|Hne].
    + apply (HQ k (read (map Some data))); [|exact Pd]. intros p v Hr. apply read_load in Hr. unfold read.
      pose proof (load_within (map Some all) (map Some data) [] p _ Hr) as Hl. rewrite app_nil_r, map_length in Hl.
      replace (k * S0) with (Z.of_nat (length all)) by nia. now rewrite Hl.
    + apply (HQ i (fun p => read (map Some all) (i * S0 + p))); [|apply P; lia]. intros p v Hr. apply read_load in Hr. unfold read.
      pose proof (load_within [] (map Some all) (map Some data) _ _ Hr) as Hl. cbn [app length] in Hl. change (Z.of_nat 0) with 0 in Hl. rewrite Z.add_0_l in Hl. now rewrite Hl.
Qed.

Section Stages.
Context {R : Type} (rO rI : R) (radd rmul rsub rdiv : R -> R -> R) (ropp rinv : R -> R).
Hypothesis Fth : field_theory rO rI radd rmul rsub ropp rdiv rinv eq.
Local Notation "a *! b" := (rmul a b) (at level 40, left associativity).
Local Notation num := (num rI radd rmul).
Hypothesis nz2 : num 2 <> rO.
Hypothesis nz3 : num 3 <> rO.
Hypothesis nz5 : num 5 <> rO.
Variable near : R -> R -> bool.
Hypothesis near_refl : forall x, near x x = true.
Local Notation kernel_tile := (kernel_tile rO rI radd rmul rdiv ropp).
Local Notation input_tile := (input_tile rO rI radd rmul rsub rdiv).
Local Notation output_tile := (output_tile rO rI radd rmul rsub).
Local Notation sum_of := (sum_of rO radd).

Lemma Rth : semi_ring_theory rO rI radd rmul eq.
Proof using Fth. exact (ARth_SRth (Rth_ARth (Eqsth R) (Eq_ext radd rmul ropp) (F_R Fth))). Qed.

Lemma tile_pos m : 0 < tile m.
Proof. destruct m; reflexivity. Qed.

Lemma kernel_tile_ext m k k' i j : (forall p q, 0 <= p < 3 -> 0 <= q < 3 -> k p q = k' p q) -> kernel_tile m k i j = kernel_tile m k' i j.
Proof.
  intros H. destruct m; cbn [WinogradModel.kernel_tile]; [apply g23_ext|apply g63_ext]; intros p Hp; [apply g23_ext|apply g63_ext]; intros q Hq; now apply H.
Qed.
Lemma input_tile_ext m k k' i j : (forall p q, 0 <= p < tile m + 2 -> 0 <= q < tile m + 2 -> k p q = k' p q) -> input_tile m k i j = input_tile m k' i j.
Proof.
  intros H. destruct m; cbn [WinogradModel.input_tile tile] in *; [apply b23_ext|apply b63c_ext]; intros p Hp; [apply b23_ext|apply b63r_ext]; intros q Hq; apply H; lia.
Qed.
Lemma output_tile_ext m k k' i j : (forall p q, 0 <= p < tile m + 2 -> 0 <= q < tile m + 2 -> k p q = k' p q) -> output_tile m k i j = output_tile m k' i j.
Proof.
  intros H. destruct m; cbn [WinogradModel.output_tile tile] in *; [apply a23_ext|apply a63_ext]; intros p Hp; [apply a23_ext|apply a63_ext]; intros q Hq; apply H; lia.
Qed.

Lemma read_tile_ok a b rd (f : Z -> Z -> R) : (forall i j, 0 <= i < a -> 0 <= j < b -> rd i j = SOk (f i j)) ->
  exists g, read_tile rO a b rd = SOk g /\ forall i j, 0 <= i < a -> 0 <= j < b -> g i j = f i j.
Proof.
  intros H. unfold read_tile. rewrite (each_ok _ (fun c => f (nth 0 c 0) (nth 1 c 0))).
  2:{ intros c Hc. apply In_loops, inside_2 in Hc. destruct Hc as (i & j & -> & Hi & Hj). now apply H. }
  cbn [lift1]. eexists. split; [reflexivity|]. intros i j Hi Hj. cbn beta.
  pose proof (nth_loops [a; b] [i; j] (in_2 _ _ _ _ Hi Hj)) as N. cbn [position elements] in N.
  replace (i * (b * 1) + (j * 1 + 0)) with (i * b + j) in N by ring.
  apply nth_error_nth. rewrite nth_error_map, N. reflexivity.
Qed.

(** the kernel *)
Lemma kernel_trans_ok m w outs ins (K : Z -> Z -> Z -> Z -> R) : 0 <= outs -> 0 <= ins ->
  (forall p q i j, 0 <= p < outs -> 0 <= q < ins -> 0 <= i < 3 -> 0 <= j < 3 -> w (p * (ins * 9) + q * 9 + (3 * i + j)) = SOk (K p q i j)) ->
  let a := tile m + 2 in
  exists kt, exec (fresh (outs * ins * (a * a))) (kernel_trans rO rI radd rmul rdiv ropp m w outs ins) = SOk (map Some kt) /\
    forall ii o c, 0 <= ii < a * a -> 0 <= o < outs -> 0 <= c < ins ->
      read (map Some kt) (ii * (outs * ins) + (o * ins + c)) = SOk (kernel_tile m (K o c) (ii / a) (ii mod a)).
Proof.
  intros Ho Hi Hw a. pose proof (tile_pos m) as Ht. assert (Ha : 0 < a) by (unfold a; lia).
  destruct (grid (outs * ins * (a * a)) [a * a; outs; ins]
     (fun l => match l with [ii; o; c] => kernel_tile m (K o c) (ii / a) (ii mod a) | _ => rO end)
     (kernel_trans rO rI radd rmul rdiv ropp m w outs ins)) as (kt & E & L & P).
  - repeat constructor; nia.
  - cbn [elements]. ring.
  - intros d v Hin. unfold kernel_trans in Hin. fold a in Hin. apply in_flat_map in Hin. destruct Hin as (pq & Hpq & Hin).
    apply In_loops, inside_2 in Hpq. destruct Hpq as (p & q & -> & Hp & Hq). apply in_map_iff in Hin. destruct Hin as (ij & Eij & Hij).
    apply In_loops, inside_2 in Hij. destruct Hij as (i & j & -> & Hii & Hjj). apply pair_equal_spec in Eij. destruct Eij as [<- <-].
    destruct (join_index a a i j Hii Hjj) as (B & D & M).
    exists [i * a + j; p; q]. split; [now apply in_3|]. split; [cbn [position elements]; ring|].
    destruct (read_tile_ok 3 3 (fun i0 j0 => w (p * (ins * 9) + q * 9 + (3 * i0 + j0))) (K p q)) as (g & -> & Hg); [intros; now apply Hw|].
    cbn [lift1 at_]. f_equal. rewrite D, M. now apply kernel_tile_ext.
  - intros l Hl. apply inside_3 in Hl. destruct Hl as (ii & o & c & -> & Hii & Hoo & Hcc).
    destruct (split_index a a ii Hii) as (B1 & B2 & Eii); [lia|]. eexists. unfold kernel_trans. fold a. apply in_flat_map. exists [o; c].
    split; [apply In_loops; now apply in_2|]. apply in_map_iff. exists [ii / a; ii mod a]. split; [|apply In_loops; now apply in_2].
    f_equal. rewrite <- Eii. cbn [position elements]. ring.
  - exists kt. split; [exact E|]. intros ii o c Hii Hoo Hcc. destruct (P [ii; o; c]) as [_ P2]; [now apply in_3|].
    rewrite <- P2. f_equal. cbn [position elements]. ring.
Qed.

Lemma packed_rows_mono M K (r r' : Z -> sres R) f : (forall p v, r p = SOk v -> r' p = SOk v) -> packed_rows M K r f -> packed_rows M K r' f.
Proof. intros H [P1 P2]. split; intros; apply H; auto. Qed.

Lemma transform_kernel_ok m w outs ins (K : Z -> Z -> Z -> Z -> R) : 0 <= outs -> 0 <= ins ->
  (forall p q i j, 0 <= p < outs -> 0 <= q < ins -> 0 <= i < 3 -> 0 <= j < 3 -> w (p * (ins * 9) + q * 9 + (3 * i + j)) = SOk (K p q i j)) ->
  let a := tile m + 2 in
  exists kt, transform_kernel rO rI radd rmul rdiv ropp m w outs ins = SOk (map Some kt) /\
    forall ii, 0 <= ii < a * a ->
      packed_rows outs ins (fun p => read (map Some kt) (ii * (outs * ins) + p)) (fun o c => kernel_tile m (K o c) (ii / a) (ii mod a)).
Proof using Fth.
  intros Ho Hi Hw a. pose proof (tile_pos m) as Ht. assert (Ha : 0 < a) by (unfold a; lia).
  destruct (kernel_trans_ok m w outs ins K Ho Hi Hw) as (kt & E & P). fold a in E, P.
  unfold transform_kernel. fold a. rewrite E. cbn [bind]. unfold kernel_pack. fold a.
  destruct (exec_blocks (outs * ins) (fun i => pack8_A outs ins (fun p => read (map Some kt) (i * (outs * ins) + p)) ins)
     (fun ii r => packed_rows outs ins r (fun o c => kernel_tile m (K o c) (ii / a) (ii mod a))) (a * a)) as (all & Ea & Pa).
  - nia.
  - nia.
  - intros i r r' Hr. now apply packed_rows_mono.
  - intros ii Hii.
    destruct (pack_A_ok rO rI radd rmul Rth outs ins ins (fun p => read (map Some kt) (ii * (outs * ins) + p)) (fun o c => kernel_tile m (K o c) (ii / a) (ii mod a))) as (data & Ed & Pd);
      [exact Ho|exact Hi|intros; now apply P|]. now exists data.
  - exists all. split; [|exact Pa]. exact Ea.
Qed.

(** padding *)
Lemma In_fill (out_w r d : Z) (pv : R) v : In (d, v) (map (fun w => (r * out_w + w, SOk pv)) (range 0 out_w)) <-> exists j, 0 <= j < out_w /\ d = r * out_w + j /\ v = SOk pv.
Proof.
  rewrite in_map_iff. split.
  - intros (w & Ew & Hw). apply In_range in Hw. apply pair_equal_spec in Ew. destruct Ew as [<- <-]. now exists w.
  - intros (j & Hj & -> & ->). exists j. split; [reflexivity|]. now apply In_range.
Qed.

Lemma pad_row_spec x sw out_w left pv src dst (f : Z -> R) : 0 <= sw -> 0 <= left -> left + sw <= out_w ->
  (forall l, 0 <= l < sw -> x (src + l) = SOk (f l)) ->
  (forall d v, In (d, v) (pad_row x sw out_w left pv src dst) -> exists j, 0 <= j < out_w /\ d = dst + j /\
     v = SOk (if (0 <=? j - left) && (j - left <? sw) then f (j - left) else pv)) /\
  (forall j, 0 <= j < out_w -> exists v, In (dst + j, v) (pad_row x sw out_w left pv src dst)).
Proof.
  intros Hsw Hl Hw Hx. unfold pad_row. rewrite (Z.max_r 0 left) by lia. rewrite (Z.max_r left) by lia.
  assert (Hsame : (if sw <? 12 then left + sw else left + sw) = left + sw) by now destruct (sw <? 12).
  rewrite Hsame. split.
  - intros d v H. apply in_app_or in H. destruct H as [H|H]; [|apply in_app_or in H; destruct H as [H|H]].
    + apply in_map_iff in H. destruct H as (w & Ew & H). apply In_range in H. apply pair_equal_spec in Ew. destruct Ew as [<- <-]. exists w.
      split; [lia|]. split; [reflexivity|]. destruct (Z.leb_spec 0 (w - left)); [lia|]. reflexivity.
    + assert (H' : exists l, 0 <= l < sw /\ d = dst + left + l /\ v = x (src + l)).
      { destruct (sw <? 12); apply in_map_iff in H; destruct H as (w & Ew & H); apply pair_equal_spec in Ew; destruct Ew as [<- <-].
        - apply In_range in H. exists (w - left). split; [lia|]. split; [lia|reflexivity].
        - apply In_upto in H. exists w. now split. }
      clear H. destruct H' as (l & H & -> & ->). exists (left + l). split; [lia|]. split; [lia|]. rewrite Hx by exact H. f_equal.
      replace (left + l - left) with l by lia. destruct (Z.leb_spec 0 l); [|lia]. destruct (Z.ltb_spec l sw); [reflexivity|lia].
    + apply in_map_iff in H. destruct H as (w & Ew & H). apply In_range in H. apply pair_equal_spec in Ew. destruct Ew as [<- <-]. exists w.
      split; [lia|]. split; [reflexivity|]. destruct (Z.ltb_spec (w - left) sw); [lia|]. now rewrite andb_false_r.
  - intros j Hj. assert (C : j < left \/ left <= j < left + sw \/ left + sw <= j) by lia. destruct C as [C|[C|C]].
    + eexists. apply in_or_app. left. apply in_map_iff. exists j. split; [reflexivity|]. apply In_range. lia.
    + destruct (sw <? 12).
      * eexists. apply in_or_app. right. apply in_or_app. left. apply in_map_iff. exists j. split; [reflexivity|]. apply In_range. lia.
      * eexists. apply in_or_app. right. apply in_or_app. left. apply in_map_iff. exists (j - left). split; [f_equal; lia|]. apply In_upto. lia.
    + eexists. apply in_or_app. right. apply in_or_app. right. apply in_map_iff. exists j. split; [reflexivity|]. apply In_range. lia.
Qed.

Lemma pad_plane_spec x sh sw out_h out_w top left pv (f : Z -> Z -> R) : 0 <= sh -> 0 <= sw -> 0 <= top -> 0 <= left -> top + sh <= out_h -> left + sw <= out_w ->
  (forall i j, 0 <= i < sh -> 0 <= j < sw -> x (i * sw + j) = SOk (f i j)) ->
  (forall d v, In (d, v) (pad_plane x sh sw out_h out_w top left pv) -> exists i j, 0 <= i < out_h /\ 0 <= j < out_w /\ d = i * out_w + j /\
     v = SOk (padded pv sh sw f (i - top) (j - left))) /\
  (forall i j, 0 <= i < out_h -> 0 <= j < out_w -> exists v, In (i * out_w + j, v) (pad_plane x sh sw out_h out_w top left pv)).
Proof.
  intros Hsh Hsw Ht Hl Hh Hw Hx. unfold pad_plane. rewrite (Z.max_r 0 top) by lia. rewrite (Z.max_r top) by lia.
  assert (Hrow : forall r, top <= r < top + sh -> forall l, 0 <= l < sw -> x ((r - top) * sw + l) = SOk (f (r - top) l)) by (intros; apply Hx; lia).
  split.
  - intros d v H. apply in_app_or in H. destruct H as [H|H]; [|apply in_app_or in H; destruct H as [H|H]].
    + apply in_flat_map in H. destruct H as (r & Hr & H). apply In_range in Hr. apply In_fill in H. destruct H as (j & Hj & -> & ->). exists r, j.
      split; [lia|]. split; [exact Hj|]. split; [reflexivity|]. unfold padded. destruct (Z.leb_spec 0 (r - top)); [lia|]. reflexivity.
    + apply in_flat_map in H. destruct H as (r & Hr & H). apply In_range in Hr.
      destruct (pad_row_spec x sw out_w left pv ((r - top) * sw) (r * out_w) (f (r - top)) Hsw Hl Hw (Hrow r Hr)) as [S1 _].
      destruct (S1 d v H) as (j & Hj & -> & ->). exists r, j. split; [lia|]. split; [exact Hj|]. split; [reflexivity|]. f_equal. unfold padded.
      destruct (Z.leb_spec 0 (r - top)); [|lia]. destruct (Z.ltb_spec (r - top) sh); [|lia]. reflexivity.
    + apply in_flat_map in H. destruct H as (r & Hr & H). apply In_range in Hr. apply In_fill in H. destruct H as (j & Hj & -> & ->). exists r, j.
      split; [lia|]. split; [exact Hj|]. split; [reflexivity|]. unfold padded. destruct (Z.ltb_spec (r - top) sh); [lia|]. now rewrite andb_false_r.
  - intros i j Hi Hj. assert (C : i < top \/ top <= i < top + sh \/ top + sh <= i) by lia. destruct C as [C|[C|C]].
    + exists (SOk pv). apply in_or_app. left. apply in_flat_map. exists i. split; [apply In_range; lia|]. apply In_fill. now exists j.
    + destruct (pad_row_spec x sw out_w left pv ((i - top) * sw) (i * out_w) (f (i - top)) Hsw Hl Hw (Hrow i C)) as [_ S2].
      destruct (S2 j Hj) as (v & Hv). exists v. apply in_or_app. right. apply in_or_app. left. apply in_flat_map. exists i. split; [apply In_range; lia|exact Hv].
    + exists (SOk pv). apply in_or_app. right. apply in_or_app. right. apply in_flat_map. exists i. split; [apply In_range; lia|]. apply In_fill. now exists j.
Qed.

Lemma In_shift {A} k (tr : list (event A)) d v : In (d, v) (shift k tr) <-> In (d - k, v) tr.
Proof.
  unfold shift. rewrite in_map_iff. split.
  - intros ([e u] & E & H). cbn [fst snd] in E. apply pair_equal_spec in E. destruct E as [<- <-]. now replace (k + e - k) with e by lia.
  - intros H. exists (d - k, v). split; [cbn [fst snd]; f_equal; lia|exact H].
Qed.

Lemma pad2d_ok x n c h w pt pb pl pr pv (X : Z -> Z -> Z -> Z -> R) : 0 <= n -> 0 <= c -> 0 <= h -> 0 <= w -> 0 <= pt -> 0 <= pb -> 0 <= pl -> 0 <= pr ->
  (forall b ch i j, 0 <= b < n -> 0 <= ch < c -> 0 <= i < h -> 0 <= j < w -> x ((b * c + ch) * (h * w) + (i * w + j)) = SOk (X b ch i j)) ->
  let ih := h + pt + pb in let iw := w + pl + pr in
  exists p, exec (fresh (n * c * ih * iw)) (pad2d x n c h w pt pb pl pr pv) = SOk (map Some p) /\
    forall b ch i j, 0 <= b < n -> 0 <= ch < c -> 0 <= i < ih -> 0 <= j < iw ->
      read (map Some p) ((b * c + ch) * (ih * iw) + (i * iw + j)) = SOk (padded pv h w (X b ch) (i - pt) (j - pl)).
Proof.
  intros Hn Hc Hh Hw Ht Hb Hl Hr Hx ih iw.
  assert (S : forall b ch, 0 <= b < n -> 0 <= ch < c ->
     (forall d v, In (d, v) (pad_plane (fun p => x ((b * c + ch) * (h * w) + p)) h w ih iw pt pl pv) -> exists i j, 0 <= i < ih /\ 0 <= j < iw /\ d = i * iw + j /\
        v = SOk (padded pv h w (X b ch) (i - pt) (j - pl))) /\
     (forall i j, 0 <= i < ih -> 0 <= j < iw -> exists v, In (i * iw + j, v) (pad_plane (fun p => x ((b * c + ch) * (h * w) + p)) h w ih iw pt pl pv))).
  { intros b ch Hb' Hch. apply pad_plane_spec; try assumption; unfold ih, iw; try lia. intros. now apply Hx. }
  destruct (grid (n * c * ih * iw) [n; c; ih; iw] (fun l => match l with [b; ch; i; j] => padded pv h w (X b ch) (i - pt) (j - pl) | _ => pv end)
     (pad2d x n c h w pt pb pl pr pv)) as (p & E & L & P).
  - unfold ih, iw. repeat (constructor; [lia|]). constructor.
  - cbn [elements]. ring.
  - intros d v Hin. unfold pad2d in Hin. fold ih iw in Hin. apply in_flat_map in Hin. destruct Hin as (bc & Hbc & Hin).
    apply In_loops, inside_2 in Hbc. destruct Hbc as (b & ch & -> & Hb' & Hch). apply In_shift in Hin.
    destruct (S b ch Hb' Hch) as [S1 _]. destruct (S1 _ _ Hin) as (i & j & Hi & Hj & Ed & ->). exists [b; ch; i; j].
    split; [now apply in_4|]. split; [|reflexivity]. cbn [position elements]. lia.
  - intros l Hin. apply inside_4 in Hin. destruct Hin as (b & ch & i & j & -> & Hb' & Hch & Hi & Hj). destruct (S b ch Hb' Hch) as [_ S2].
    destruct (S2 i j Hi Hj) as (v & Hv). exists v. unfold pad2d. fold ih iw. apply in_flat_map. exists [b; ch]. split; [apply In_loops; now apply in_2|].
    apply In_shift. replace (position [n; c; ih; iw] [b; ch; i; j] - (b * c + ch) * (ih * iw)) with (i * iw + j) by (cbn [position elements]; ring). exact Hv.
  - exists p. split; [exact E|]. intros b ch i j Hb' Hch Hi Hj. destruct (P [b; ch; i; j]) as [_ P2]; [now apply in_4|]. rewrite <- P2. f_equal. cbn [position elements]. ring.
Qed.

(** the input *)
Lemma input_trans_ok m x n c th tw (P : Z -> Z -> Z -> Z -> R) : 0 <= n -> 0 <= c -> 0 <= th -> 0 <= tw ->
  let t := tile m in let a := t + 2 in let h := t * th + 2 in let w := t * tw + 2 in
  (forall b ch i j, 0 <= b < n -> 0 <= ch < c -> 0 <= i < h -> 0 <= j < w -> x ((b * c + ch) * (h * w) + (i * w + j)) = SOk (P b ch i j)) ->
  exists xt, exec (fresh (n * (a * a) * c * (th * tw))) (input_trans rO rI radd rmul rsub rdiv m x n c h w (th * tw)) = SOk (map Some xt) /\
    forall b ii ch k, 0 <= b < n -> 0 <= ii < a * a -> 0 <= ch < c -> 0 <= k < th * tw ->
      read (map Some xt) (b * (a * a * (c * (th * tw))) + ii * (c * (th * tw)) + (ch * (th * tw) + k)) =
      SOk (input_tile m (fun i j => P b ch (t * (k / tw) + i) (t * (k mod tw) + j)) (ii / a) (ii mod a)).
Proof.
  intros Hn Hc Hth Htw t a h w Hx. pose proof (tile_pos m) as Ht. fold t in Ht. assert (Ha : 0 < a) by (unfold a; lia).
  destruct (grid (n * (a * a) * c * (th * tw)) [n; a * a; c; th * tw]
     (fun l => match l with [b; ii; ch; k] => input_tile m (fun i j => P b ch (t * (k / tw) + i) (t * (k mod tw) + j)) (ii / a) (ii mod a) | _ => rO end)
     (input_trans rO rI radd rmul rsub rdiv m x n c h w (th * tw))) as (xt & E & L & Q).
  - constructor; [exact Hn|]. constructor; [nia|]. constructor; [exact Hc|]. constructor; [nia|constructor].
  - cbn [elements]. ring.
  - intros d v Hin. unfold input_trans in Hin. fold t a in Hin. apply in_flat_map in Hin. destruct Hin as (bc & Hbc & Hin).
    apply In_loops, inside_2 in Hbc. destruct Hbc as (b & ch & -> & Hb & Hch). apply in_flat_map in Hin. destruct Hin as ((k & y0 & x0) & Hk & Hin).
    apply (In_tiles t th tw) in Hk; [|lia|lia|lia|unfold h; lia|unfold w; lia]. destruct Hk as (ty & tx & Hy & Hx' & -> & -> & ->).
    apply in_map_iff in Hin. destruct Hin as (ij & Eij & Hij). apply In_loops, inside_2 in Hij. destruct Hij as (i & j & -> & Hi & Hj).
    apply pair_equal_spec in Eij. destruct Eij as [<- <-].
    destruct (join_index a a i j Hi Hj) as (B & D & M). destruct (join_index th tw ty tx Hy Hx') as (B' & D' & M').
    exists [b; i * a + j; ch; ty * tw + tx]. split; [now apply in_4|]. split; [cbn [position elements]; ring|].
    destruct (read_tile_ok a a (fun i0 j0 => x ((b * c + ch) * (h * w) + ((t * ty + i0) * w + (t * tx + j0)))) (fun i0 j0 => P b ch (t * ty + i0) (t * tx + j0))) as (g & -> & Hg).
    { intros i0 j0 Hi0 Hj0. apply Hx; [exact Hb|exact Hch|unfold h, a in *; nia|unfold w, a in *; nia]. }
    cbn [lift1 at_]. f_equal. rewrite D, M, D', M'. apply input_tile_ext. intros. now apply Hg.
  - intros l Hl. apply inside_4 in Hl. destruct Hl as (b & ii & ch & k & -> & Hb & Hii & Hch & Hk).
    destruct (split_index a a ii Hii) as (B1 & B2 & Eii); [lia|]. destruct (split_index th tw k Hk Htw) as (B3 & B4 & Ek).
    eexists. unfold input_trans. fold t a. apply in_flat_map. exists [b; ch]. split; [apply In_loops; now apply in_2|].
    apply in_flat_map. exists (k, (t * (k / tw), t * (k mod tw))). split.
    + apply (In_tiles t th tw); [lia|lia|lia|unfold h; lia|unfold w; lia|]. exists (k / tw), (k mod tw). auto.
    + apply in_map_iff. exists [ii / a; ii mod a]. split; [|apply In_loops; now apply in_2]. f_equal. rewrite <- Eii. cbn [position elements]. ring.
  - exists xt. split; [exact E|]. intros b ii ch k Hb Hii Hch Hk. destruct (Q [b; ii; ch; k]) as [_ Q2]; [now apply in_4|]. rewrite <- Q2. f_equal. cbn [position elements]. ring.
Qed.

(** the products *)
Lemma products_ok m kt xt n outs ins tiles (A : Z -> Z -> Z -> R) (B : Z -> Z -> Z -> Z -> R) : 0 <= n -> 0 <= outs -> 0 <= ins -> 0 <= tiles ->
  let a := tile m + 2 in
  (forall ii, 0 <= ii < a * a -> packed_rows outs ins (fun p => kt (ii * (outs * ins) + p)) (A ii)) ->
  (forall b ii c k, 0 <= b < n -> 0 <= ii < a * a -> 0 <= c < ins -> 0 <= k < tiles ->
     xt (b * (a * a * (ins * tiles)) + ii * (ins * tiles) + (c * tiles + k)) = SOk (B b ii c k)) ->
  exists stores ot, products rO rI radd rmul near m kt xt n outs ins tiles = SOk stores /\
    exec (fresh (n * (a * a) * outs * tiles)) stores = SOk (map Some ot) /\
    forall b ii o k, 0 <= b < n -> 0 <= ii < a * a -> 0 <= o < outs -> 0 <= k < tiles ->
      read (map Some ot) (b * (a * a * (outs * tiles)) + ii * (outs * tiles) + (o * tiles + k)) = SOk (sum_of ins (fun c => A ii o c *! B b ii c k)).
Proof using Fth near_refl.
  intros Hn Ho Hi Ht a HA HB. pose proof (tile_pos m) as Htp. assert (Ha : 0 < a) by (unfold a; lia).
  assert (One : forall b ii, 0 <= b < n -> 0 <= ii < a * a -> exists stores,
     packed_gemm rO rI radd rmul near true outs tiles ins rI (fun p => kt (ii * (outs * ins) + p)) (fun p => xt (b * (a * a * (ins * tiles)) + ii * (ins * tiles) + p)) rO false true = SOk stores /\
     (forall d v, In (d, v) stores -> exists i j, 0 <= i < outs /\ 0 <= j < tiles /\ d = i * tiles + j /\ v = SOk (sum_of ins (fun k => A ii i k *! B b ii k j))) /\
     (forall i j, 0 <= i < outs -> 0 <= j < tiles -> In (i * tiles + j) (map fst stores))).
  { intros b ii Hb Hii. apply (packed_stores rO rI radd rmul Rth near near_refl outs tiles ins _ _ (A ii) (B b ii) false); [exact Ho|exact Ht|exact Hi|exact (HA ii Hii)|].
    intros k j Hk Hj. now apply HB. }
  set (stores_of := fun c : list Z => match c with [b; ii] =>
     match packed_gemm rO rI radd rmul near true outs tiles ins rI (fun p => kt (ii * (outs * ins) + p)) (fun p => xt (b * (a * a * (ins * tiles)) + ii * (ins * tiles) + p)) rO false true with
     | SOk s => shift (b * (a * a * (outs * tiles)) + ii * (outs * tiles)) s | _ => [] end | _ => [] end).
  assert (E : products rO rI radd rmul near m kt xt n outs ins tiles = SOk (concat (map stores_of (loops [n; a * a])))).
  { unfold products. fold a. rewrite (each_ok _ stores_of); [reflexivity|]. intros c Hc. apply In_loops, inside_2 in Hc. destruct Hc as (b & ii & -> & Hb & Hii).
    cbn [stores_of]. destruct (One b ii Hb Hii) as (s & -> & _). reflexivity. }
  exists (concat (map stores_of (loops [n; a * a]))).
  destruct (grid (n * (a * a) * outs * tiles) [n; a * a; outs; tiles]
     (fun l => match l with [b; ii; o; k] => sum_of ins (fun c => A ii o c *! B b ii c k) | _ => rO end)
     (concat (map stores_of (loops [n; a * a])))) as (ot & Eo & L & Q).
  - constructor; [exact Hn|]. constructor; [nia|]. constructor; [exact Ho|]. constructor; [exact Ht|constructor].
  - cbn [elements]. ring.
  - intros d v Hin. rewrite <- flat_map_concat_map in Hin. apply in_flat_map in Hin. destruct Hin as (c & Hc & Hin). apply In_loops, inside_2 in Hc. destruct Hc as (b & ii & -> & Hb & Hii).
    cbn [stores_of] in Hin. destruct (One b ii Hb Hii) as (s & Es & S1 & _). rewrite Es in Hin. apply In_shift in Hin.
    destruct (S1 _ _ Hin) as (i & j & Hi' & Hj & Ed & ->). exists [b; ii; i; j]. split; [now apply in_4|]. split; [|reflexivity]. cbn [position elements]. lia.
  - intros l Hl. apply inside_4 in Hl. destruct Hl as (b & ii & o & k & -> & Hb & Hii & Ho' & Hk). destruct (One b ii Hb Hii) as (s & Es & _ & S2).
    specialize (S2 o k Ho' Hk). apply in_map_iff in S2. destruct S2 as ((d & v) & Ed & Hd). cbn [fst] in Ed. subst d. exists v.
    rewrite <- flat_map_concat_map. apply in_flat_map. exists [b; ii]. split; [apply In_loops; now apply in_2|]. cbn [stores_of]. rewrite Es. apply In_shift.
    replace (position [n; a * a; outs; tiles] [b; ii; o; k] - (b * (a * a * (outs * tiles)) + ii * (outs * tiles))) with (o * tiles + k) by (cbn [position elements]; ring). exact Hd.
  - exists ot. split; [exact E|]. split; [exact Eo|]. intros b ii o k Hb Hii Ho' Hk. destruct (Q [b; ii; o; k]) as [_ Q2]; [now apply in_4|]. rewrite <- Q2. f_equal. cbn [position elements]. ring.
Qed.

(** the output *)
Lemma output_trans_ok m o n outs th tw (O : Z -> Z -> Z -> Z -> R) : 0 <= n -> 0 <= outs -> 0 <= th -> 0 <= tw ->
  let t := tile m in let a := t + 2 in
  (forall b ii c k, 0 <= b < n -> 0 <= ii < a * a -> 0 <= c < outs -> 0 <= k < th * tw ->
     o (b * (a * a * (outs * (th * tw))) + ii * (outs * (th * tw)) + (c * (th * tw) + k)) = SOk (O b ii c k)) ->
  exists out, exec (fresh (n * outs * (t * th) * (t * tw))) (output_trans rO rI radd rmul rsub m o n outs (t * th) (t * tw) (th * tw)) = SOk (map Some out) /\
    Z.of_nat (length out) = elements [n; outs; t * th; t * tw] /\
    forall b c y x, 0 <= b < n -> 0 <= c < outs -> 0 <= y < t * th -> 0 <= x < t * tw ->
      nth_error out (Z.to_nat (position [n; outs; t * th; t * tw] [b; c; y; x])) =
        Some (output_tile m (fun i j => O b (i * a + j) c (y / t * tw + x / t)) (y mod t) (x mod t)).
Proof.
  intros Hn Ho Hth Htw t a Hx. pose proof (tile_pos m) as Ht. fold t in Ht. assert (Ha : 0 < a) by (unfold a; lia).
  destruct (grid (n * outs * (t * th) * (t * tw)) [n; outs; t * th; t * tw]
     (fun l => match l with [b; c; y; x] => output_tile m (fun i j => O b (i * a + j) c (y / t * tw + x / t)) (y mod t) (x mod t) | _ => rO end)
     (output_trans rO rI radd rmul rsub m o n outs (t * th) (t * tw) (th * tw))) as (out & E & L & Q).
  - constructor; [exact Hn|]. constructor; [exact Ho|]. constructor; [nia|]. constructor; [nia|constructor].
  - cbn [elements]. ring.
  - intros d v Hin. unfold output_trans in Hin. fold t a in Hin. apply in_flat_map in Hin. destruct Hin as (bc & Hbc & Hin).
    apply In_loops, inside_2 in Hbc. destruct Hbc as (b & c & -> & Hb & Hc). apply in_flat_map in Hin. destruct Hin as ((k & y0 & x0) & Hk & Hin).
    apply (In_tiles t th tw) in Hk; [|lia..]. destruct Hk as (ty & tx & Hy & Hx' & -> & -> & ->).
    apply in_map_iff in Hin. destruct Hin as (ij & Eij & Hij). apply In_loops, inside_2 in Hij. destruct Hij as (i & j & -> & Hi & Hj).
    apply pair_equal_spec in Eij. destruct Eij as [<- <-].
    destruct (join_index th t ty i Hy Hi) as (B1 & D1 & M1). destruct (join_index tw t tx j Hx' Hj) as (B2 & D2 & M2).
    replace (ty * t + i) with (t * ty + i) in B1, D1, M1 by ring. replace (tx * t + j) with (t * tx + j) in B2, D2, M2 by ring.
    exists [b; c; t * ty + i; t * tx + j]. split; [apply in_4; lia|]. split; [cbn [position elements]; ring|].
    destruct (read_tile_ok a a (fun i0 j0 => o (b * (a * a * (outs * (th * tw))) + c * (th * tw) + (ty * tw + tx) + (i0 * a + j0) * (outs * (th * tw))))
       (fun i0 j0 => O b (i0 * a + j0) c (ty * tw + tx))) as (g & -> & Hg).
    { intros i0 j0 Hi0 Hj0. rewrite <- Hx; [f_equal; ring|exact Hb|now apply join_index|exact Hc|now apply join_index]. }
    cbn [lift1 at_]. f_equal. rewrite D1, M1, D2, M2. apply output_tile_ext. intros. now apply Hg.
  - intros l Hl. apply inside_4 in Hl. destruct Hl as (b & c & y & x & -> & Hb & Hc & Hy & Hx').
    destruct (split_index th t y) as (B1 & B2 & Ey); [lia|lia|]. destruct (split_index tw t x) as (B3 & B4 & Ex); [lia|lia|].
    eexists. unfold output_trans. fold t a. apply in_flat_map. exists [b; c]. split; [apply In_loops; now apply in_2|].
    apply in_flat_map. exists (y / t * tw + x / t, (t * (y / t), t * (x / t))). split.
    + apply (In_tiles t th tw); [lia..|]. exists (y / t), (x / t). auto.
    + apply in_map_iff. exists [y mod t; x mod t]. split; [|apply In_loops; now apply in_2]. f_equal.
      replace (t * (y / t) + y mod t) with y by lia. replace (t * (x / t) + x mod t) with x by lia. cbn [position elements]. ring.
  - exists out. split; [exact E|]. split; [exact L|]. intros b c y x Hb Hc Hy Hx'. destruct (Q [b; c; y; x]) as [Q2 _]; [now apply in_4|exact Q2].
Qed.

Lemma cut2d_ok x n c sh sw oh ow (X : Z -> Z -> Z -> Z -> R) : 0 <= n -> 0 <= c -> 0 <= oh <= sh -> 0 <= ow <= sw ->
  (forall b ch i j, 0 <= b < n -> 0 <= ch < c -> 0 <= i < sh -> 0 <= j < sw -> x ((b * c + ch) * (sh * sw) + (i * sw + j)) = SOk (X b ch i j)) ->
  exists out, exec (fresh (n * c * oh * ow)) (cut2d x n c sh sw oh ow) = SOk (map Some out) /\ Z.of_nat (length out) = elements [n; c; oh; ow] /\
    forall b ch i j, 0 <= b < n -> 0 <= ch < c -> 0 <= i < oh -> 0 <= j < ow -> nth_error out (Z.to_nat (position [n; c; oh; ow] [b; ch; i; j])) = Some (X b ch i j).
Proof.
  intros Hn Hc Hh Hw Hx.
  destruct (grid (n * c * oh * ow) [n; c; oh; ow] (fun l => match l with [b; ch; i; j] => X b ch i j | _ => rO end) (cut2d x n c sh sw oh ow)) as (out & E & L & Q).
  - constructor; [exact Hn|]. constructor; [exact Hc|]. constructor; [lia|]. constructor; [lia|constructor].
  - cbn [elements]. ring.
  - intros d v Hin. unfold cut2d in Hin. apply in_map_iff in Hin. destruct Hin as ((k & l) & El & Hin). apply In_counted_loops in Hin. destruct Hin as [I ->].
    cbn [fst snd] in El. apply pair_equal_spec in El. destruct El as [<- <-]. exists l. split; [exact I|]. split; [reflexivity|].
    apply inside_4 in I. destruct I as (b & ch & i & j & -> & Hb & Hch & Hi & Hj). apply Hx; lia.
  - intros l Hl. eexists. unfold cut2d. apply in_map_iff. exists (position [n; c; oh; ow] l, l). split; [reflexivity|]. now apply In_counted_loops.
  - exists out. split; [exact E|]. split; [exact L|]. intros b ch i j Hb Hch Hi Hj. destruct (Q [b; ch; i; j]) as [Q2 _]; [now apply in_4|exact Q2].
Qed.

Lemma round_up_ok x t : 0 < t -> exists k, round_up x t = t * k /\ x <= t * k /\ (0 <= x -> 0 <= k).
Proof. intros Ht. exists ((x + t - 1) / t). unfold round_up. Z.to_euclidean_division_equations. nia. Qed.

(** all stages *)
Lemma winograd_ok m x kt n ins h w outs oh ow pt pb pl pr pv (X : Z -> Z -> Z -> Z -> R) (K : Z -> Z -> Z -> Z -> R) :
  0 <= n -> 0 <= ins -> 0 <= h -> 0 <= w -> 0 <= outs -> 0 <= pt -> 0 <= pb -> 0 <= pl -> 0 <= pr ->
  oh = h + pt + pb - 2 -> ow = w + pl + pr - 2 -> 0 <= oh -> 0 <= ow ->
  (forall b c i j, 0 <= b < n -> 0 <= c < ins -> 0 <= i < h -> 0 <= j < w -> x ((b * ins + c) * (h * w) + (i * w + j)) = SOk (X b c i j)) ->
  let a := tile m + 2 in
  (forall ii, 0 <= ii < a * a -> packed_rows outs ins (fun p => kt (ii * (outs * ins) + p)) (fun o c => kernel_tile m (K o c) (ii / a) (ii mod a))) ->
  exists out, winograd rO rI radd rmul rsub rdiv near m x kt n ins h w outs oh ow pt pb pl pr pv = SOk (map Some out) /\
    Z.of_nat (length out) = elements [n; outs; oh; ow] /\
    forall b o i j, 0 <= b < n -> 0 <= o < outs -> 0 <= i < oh -> 0 <= j < ow ->
      nth_error out (Z.to_nat (position [n; outs; oh; ow] [b; o; i; j])) =
      Some (sum_of ins (fun c => sum_of 3 (fun p => sum_of 3 (fun q => K o c p q *! padded pv h w (X b c) (i + p - pt) (j + q - pl))))).
Proof using Fth nz2 nz3 nz5 near_refl.
  intros Hn Hi Hh Hw Ho Hpt Hpb Hpl Hpr Eoh Eow Hoh How Hx a Hk. pose proof (tile_pos m) as Ht. assert (Ha : 0 < a) by (unfold a; lia).
  unfold winograd. fold a.
  destruct (round_up_ok oh (tile m) Ht) as (th & -> & Bh & Hth). specialize (Hth Hoh).
  destruct (round_up_ok ow (tile m) Ht) as (tw & -> & Bw & Htw). specialize (Htw How).
  set (t := tile m) in *.
  rewrite (Z.max_r (h + pt + pb)) by lia. rewrite (Z.max_r (w + pl + pr)) by lia.
  replace (t * th - 1 + 3) with (t * th + 2) by lia. replace (t * tw - 1 + 3) with (t * tw + 2) by lia.
  set (ih := t * th + 2). set (iw := t * tw + 2).
  replace (Z.quot (t * th) t) with th by (rewrite Z.mul_comm; symmetry; apply Z.quot_mul; lia).
  replace (Z.quot (t * tw) t) with tw by (rewrite Z.mul_comm; symmetry; apply Z.quot_mul; lia).
  set (P := fun b c i j => padded pv h w (X b c) (i - pt) (j - pl)).
  assert (S1 : exists x', (if negb (ih =? h) || negb (iw =? w) then
      bind (exec (fresh (n * ins * ih * iw)) (pad2d x n ins h w pt (ih - h - pt) pl (iw - w - pl) pv)) (fun p => SOk (read p)) else SOk x) = SOk x' /\
      forall b c i j, 0 <= b < n -> 0 <= c < ins -> 0 <= i < ih -> 0 <= j < iw -> x' ((b * ins + c) * (ih * iw) + (i * iw + j)) = SOk (P b c i j)).
  { destruct (negb (ih =? h) || negb (iw =? w)) eqn:Eneed.
    - destruct (pad2d_ok x n ins h w pt (ih - h - pt) pl (iw - w - pl) pv X) as (p & Ep & Pp); try assumption; try (unfold ih, iw; lia).
      replace (h + pt + (ih - h - pt)) with ih in Ep, Pp by lia. replace (w + pl + (iw - w - pl)) with iw in Ep, Pp by lia.
      rewrite Ep. cbn [bind]. eexists. split; [reflexivity|]. exact Pp.
    - apply orb_false_elim in Eneed. destruct Eneed as [E1 E2]. apply negb_false_iff, Z.eqb_eq in E1. apply negb_false_iff, Z.eqb_eq in E2.
      exists x. split; [reflexivity|]. intros b c i j Hb Hc Hi' Hj. rewrite E1, E2 in *. rewrite Hx by assumption. f_equal. unfold P, padded.
      assert (pt = 0) by (unfold ih in *; lia). assert (pl = 0) by (unfold iw in *; lia). subst pt pl. rewrite !Z.sub_0_r.
      destruct (Z.leb_spec 0 i); [|lia]. destruct (Z.ltb_spec i h); [|lia]. destruct (Z.leb_spec 0 j); [|lia]. destruct (Z.ltb_spec j w); [|lia]. reflexivity. }
  destruct S1 as (x' & -> & Hx'). cbn [bind].
  destruct (input_trans_ok m x' n ins th tw P) as (xt & Ext & Pxt); try assumption.
  fold t a ih iw in Ext, Pxt. rewrite Ext. cbn [bind].
  destruct (products_ok m kt (read (map Some xt)) n outs ins (th * tw) (fun ii o c => kernel_tile m (K o c) (ii / a) (ii mod a))
     (fun b ii c k => input_tile m (fun i j => P b c (t * (k / tw) + i) (t * (k mod tw) + j)) (ii / a) (ii mod a))) as (stores & ot & Est & Eot & Pot); try assumption; [nia|].
  fold t a in Eot, Pot. rewrite Est. cbn [bind]. rewrite Eot. cbn [bind].
  destruct (output_trans_ok m (read (map Some ot)) n outs th tw (fun b ii o k => sum_of ins (fun c => kernel_tile m (K o c) (ii / a) (ii mod a) *!
     input_tile m (fun i j => P b c (t * (k / tw) + i) (t * (k mod tw) + j)) (ii / a) (ii mod a)))) as (out & Eout & Lout & Pout); try assumption.
  fold t a in Eout, Lout, Pout. rewrite Eout. cbn [bind].
  assert (V : forall b o y xx, 0 <= b < n -> 0 <= o < outs -> 0 <= y < t * th -> 0 <= xx < t * tw ->
     nth_error out (Z.to_nat (position [n; outs; t * th; t * tw] [b; o; y; xx])) =
     Some (sum_of ins (fun c => sum_of 3 (fun p => sum_of 3 (fun q => K o c p q *! padded pv h w (X b c) (y + p - pt) (xx + q - pl)))))).
  { intros b o y xx Hb Ho' Hy Hxx. rewrite Pout by assumption. f_equal.
    destruct (split_index th t y) as (B1 & B2 & Ey); [lia|lia|]. destruct (split_index tw t xx) as (B3 & B4 & Ex); [lia|lia|].
    destruct (join_index th tw (y / t) (xx / t) B1 B3) as (_ & D & M). rewrite D, M.
    rewrite (output_tile_ext m _ (fun i j => sum_of ins (fun c => kernel_tile m (K o c) i j *! input_tile m (fun i0 j0 => P b c (t * (y / t) + i0) (t * (xx / t) + j0)) i j))).
    2:{ intros i j Hi' Hj. destruct (join_index a a i j Hi' Hj) as (_ & Dij & Mij). now rewrite Dij, Mij. }
    rewrite (tiles rO rI radd rmul rsub rdiv ropp rinv Fth nz2 nz3 nz5 m ins (K o) (fun c i0 j0 => P b c (t * (y / t) + i0) (t * (xx / t) + j0)) (y mod t) (xx mod t)); [|exact B2|exact B4].
    apply sum_ext. intros c Hc. apply sum_ext. intros p Hp. apply sum_ext. intros q Hq. unfold P. do 2 f_equal; lia. }
  destruct (negb (t * th =? oh) || negb (t * tw =? ow)) eqn:Ecut.
  - destruct (cut2d_ok (read (map Some out)) n outs (t * th) (t * tw) oh ow
       (fun b o y xx => sum_of ins (fun c => sum_of 3 (fun p => sum_of 3 (fun q => K o c p q *! padded pv h w (X b c) (y + p - pt) (xx + q - pl)))))) as (res & Er & Lr & Pr); [assumption|assumption|lia|lia| |].
    + intros b o y xx Hb Ho' Hy Hxx. apply read_some; [nia|]. rewrite <- V by assumption. f_equal. f_equal. cbn [position elements]. ring.
    + exists res. split; [exact Er|]. split; [exact Lr|exact Pr].
  - apply orb_false_elim in Ecut. destruct Ecut as [E1 E2]. apply negb_false_iff, Z.eqb_eq in E1. apply negb_false_iff, Z.eqb_eq in E2.
    exists out. split; [reflexivity|]. rewrite <- E1, <- E2. split; [exact Lout|exact V].
Qed.
End Stages.
