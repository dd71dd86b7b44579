From Coq Require Import List ZArith Bool Lia Permutation FinFun.
From Verif Require Import ShapeModel ShapeSpec ShapeProofs KernelBase KernelSpec KernelProofs TransposeModel TransposeSpec.
Import ListNotations.
Local Open Scope Z_scope.

(** * Permutations *)
Lemma perm_range perm p : is_permutation perm -> In p perm -> 0 <= p < Z.of_nat (length perm).
Proof.
  intros H Hin. apply (Permutation_in _ H) in Hin. apply in_map_iff in Hin. destruct Hin as (k & <- & Hk).
  apply in_seq in Hk. lia.
Qed.

Lemma perm_all perm i : is_permutation perm -> (i < length perm)%nat -> In (Z.of_nat i) perm.
Proof.
  intros H Hi. apply (Permutation_in _ (Permutation_sym H)). apply in_map. apply in_seq. lia.
Qed.

Lemma permuted_length perm l : length (permuted perm l) = length perm.
Proof. unfold permuted. apply map_length. Qed.

Lemma permuted_inside perm s c : is_permutation perm -> length s = length perm -> inside s c ->
  inside (permuted perm s) (permuted perm c).
Proof.
  intros H L I. pose proof (inside_length _ _ I) as Lc.
  assert (R : forall p, In p perm -> 0 <= nth (Z.to_nat p) c 0 < nth (Z.to_nat p) s 0).
  { intros p Hp. pose proof (perm_range _ _ H Hp).
    assert (G : forall (s c : list Z), inside s c -> forall k, (k < length s)%nat -> 0 <= nth k c 0 < nth k s 0).
    { intros s' c' F. induction F; intros [|k] Hk; cbn in *; try lia. apply IHF. lia. }
    apply G; [exact I|]. lia. }
  unfold permuted, inside. clear - R. induction perm as [|p perm IH]; [constructor|]. cbn [map]. constructor.
  - apply R. now left.
  - apply IH. intros; apply R; now right.
Qed.

Lemma permuted_inj perm c c' : is_permutation perm -> length c = length perm -> length c' = length perm ->
  permuted perm c = permuted perm c' -> c = c'.
Proof.
  intros H L L' E. unfold permuted in E. rewrite <- map_ext_in_iff in E || idtac.
  apply (nth_ext _ _ 0 0); [congruence|]. intros i Hi.
  assert (Hin : In (Z.of_nat i) perm) by (apply perm_all; [exact H|lia]).
  assert (G : forall (l : list Z) (f g : Z -> Z), map f l = map g l -> forall a, In a l -> f a = g a).
  { intros l f g. induction l as [|b l IH]; intros Em a Ha; [destruct Ha|]. cbn in Em. injection Em as E1 E2.
    destruct Ha as [<-|Ha]; auto. }
  specialize (G _ _ _ E _ Hin). cbn in G. rewrite Nat2Z.id in G. exact G.
Qed.

Lemma elements_permutation a b : Permutation a b -> elements a = elements b.
Proof. induction 1; cbn [elements]; lia. Qed.

Lemma permuted_elements perm s : is_permutation perm -> length s = length perm ->
  elements (permuted perm s) = elements s.
Proof.
  intros H L. apply elements_permutation. unfold permuted.
  transitivity (map (fun p => nth (Z.to_nat p) s 0) (map Z.of_nat (seq 0 (length perm)))).
  - now apply Permutation_map.
  - rewrite map_map. rewrite (map_ext _ (fun x => nth x s 0)) by (intros; now rewrite Nat2Z.id). rewrite <- L.
    replace (map (fun x => nth x s 0) (seq 0 (length s))) with s; [reflexivity|].
    clear. induction s as [|a s IH]; [reflexivity|]. cbn [length seq map nth]. f_equal.
    rewrite <- seq_shift, map_map. exact IH.
Qed.

(** * The check *)
Lemma mark_length perm n : forall flag, length (mark perm n flag) = length flag.
Proof. induction perm as [|p perm IH]; intros flag; [reflexivity|]. cbn. destruct (_ || _); [reflexivity|]. rewrite IH. apply set_nth_length. Qed.

Lemma nth_error_set_nth {A} n (a : A) l k : nth_error (set_nth n a l) k = Some a \/ nth_error (set_nth n a l) k = nth_error l k.
Proof.
  revert n k. induction l as [|x l IH]; intros [|n] [|k]; cbn; auto.
Qed.

Lemma mark_sound perm n : forall flag i, nth_error (mark perm n flag) i = Some true ->
  nth_error flag i = Some true \/ In (Z.of_nat i) perm.
Proof.
  induction perm as [|p perm IH]; intros flag i H; [now left|]. cbn in H. destruct (_ || _) eqn:E; [now left|].
  apply orb_false_iff in E as [E1 E2]. apply Z.ltb_ge in E1.
  apply IH in H. destruct H as [H|H]; [|right; now right].
  destruct (Nat.eq_dec (Z.to_nat p) i) as [Hi|Hi].
  - right. left. lia.
  - rewrite set_nth_other in H by exact Hi. now left.
Qed.

Lemma mark_keeps perm n : forall flag i, nth_error flag i = Some true -> nth_error (mark perm n flag) i = Some true.
Proof.
  induction perm as [|p perm IH]; intros flag i H; [exact H|]. cbn. destruct (_ || _); [exact H|].
  apply IH. destruct (nth_error_set_nth (Z.to_nat p) true flag i) as [->| ->]; auto.
Qed.

Lemma mark_complete perm n : forall flag i, length flag = n -> (forall p, In p perm -> 0 <= p < Z.of_nat n) ->
  In (Z.of_nat i) perm -> nth_error (mark perm n flag) i = Some true.
Proof.
  induction perm as [|p perm IH]; intros flag i L R H; [destruct H|]. cbn.
  pose proof (R p (or_introl eq_refl)) as Rp.
  destruct (Z.ltb_spec p 0); [lia|]. destruct (Z.leb_spec (Z.of_nat n) p); [lia|]. cbn [orb].
  destruct H as [->|H].
  - apply mark_keeps. rewrite Nat2Z.id. apply set_nth_same. lia.
  - apply IH; auto. now rewrite set_nth_length. intros; apply R; now right.
Qed.

Lemma existsb_negb l : existsb negb l = false <-> forall i, (i < length l)%nat -> nth_error l i = Some true.
Proof.
  induction l as [|b l IH]; cbn; [split; [lia|reflexivity]|]. rewrite orb_false_iff, IH. split.
  - intros [H1 H2] [|i] Hi; cbn; [destruct b; [reflexivity|discriminate]|]. apply H2. lia.
  - intros H. split.
    + specialize (H 0%nat ltac:(lia)). cbn in H. injection H as ->. reflexivity.
    + intros i Hi. apply (H (S i)). lia.
Qed.

Theorem transpose_init_ok perm : transpose_init (Some perm) = SOk perm /\ is_permutation perm \/
  transpose_init (Some perm) = SErr /\ ~ is_permutation perm.
Proof.
  cbn. destruct (existsb negb _) eqn:E.
  - right. split; [reflexivity|]. intros H.
    assert (existsb negb (mark perm (length perm) (repeat false (length perm))) = false); [|congruence].
    apply existsb_negb. intros i Hi. rewrite mark_length, repeat_length in Hi.
    apply mark_complete; [apply repeat_length| |].
    + intros p Hp. now apply perm_range.
    + now apply perm_all.
  - left. split; [reflexivity|]. rewrite existsb_negb in E. rewrite mark_length, repeat_length in E.
    unfold is_permutation. apply Permutation_sym. apply NoDup_Permutation_bis.
    + apply Injective_map_NoDup; [intros ? ?; lia|apply seq_NoDup].
    + now rewrite map_length, seq_length.
    + intros p Hp. apply in_map_iff in Hp. destruct Hp as (i & <- & Hi). apply in_seq in Hi.
      specialize (E i ltac:(lia)). apply mark_sound in E. destruct E as [E|E]; [|exact E].
      exfalso. rewrite nth_error_repeat in E by lia. discriminate.
Qed.

(** * A list of stores that moves every element to its place *)
Section Moves.
  Context {A : Type} (perm s : list Z) (data : list A).
  Hypothesis HP : is_permutation perm.
  Hypothesis HL : length s = length perm.
  Hypothesis Hs : positive_shape s.
  Hypothesis Hd : Z.of_nat (length data) = elements s.

  Definition move (c : list Z) : event A :=
    (position (permuted perm s) (permuted perm c), load data (position s c)).

  Lemma moves_cover d : 0 <= d < elements s -> exists c, inside s c /\ position (permuted perm s) (permuted perm c) = d.
  Proof using A HL HP Hs data perm s.
    intros H. pose proof (elements_pos _ Hs) as He.
    set (co := fun k => times k (increase s) (start s)).
    set (L := map (fun k => position (permuted perm s) (permuted perm (co k))) (seq 0 (Z.to_nat (elements s)))).
    assert (HI : forall k, inside s (co k)) by (intros k; apply (iterate_ok s k Hs)).
    assert (Hpos : forall k, (k < Z.to_nat (elements s))%nat -> position s (co k) = Z.of_nat k).
    { intros k Hk. unfold co. rewrite (proj2 (iterate_ok s k Hs)). apply Z.mod_small. lia. }
    assert (Hlen : forall k, length (co k) = length perm).
    { intros k. rewrite <- HL. symmetry. apply (inside_length _ _ (HI k)). }
    assert (ND : NoDup L).
    { unfold L. assert (G : forall l, NoDup l -> (forall k, In k l -> (k < Z.to_nat (elements s))%nat) ->
        NoDup (map (fun k => position (permuted perm s) (permuted perm (co k))) l)).
      { intros l ND. induction ND as [|a l Hn ND IH]; intros Hr; [constructor|]. cbn [map]. constructor.
        - intros Hin. apply in_map_iff in Hin. destruct Hin as (b & Eb & Hb). apply Hn.
          assert (b = a); [|subst; assumption].
          assert (co b = co a).
          { apply (permuted_inj perm); auto. apply (position_inj (permuted perm s)); auto; apply permuted_inside; auto. }
          assert (Z.of_nat b = Z.of_nat a); [|lia].
          rewrite <- (Hpos b), <- (Hpos a) by (apply Hr; auto with datatypes). congruence.
        - apply IH. intros; apply Hr; now right. }
      apply G; [apply seq_NoDup|]. intros k Hk. apply in_seq in Hk. lia. }
    assert (Hin : In d L).
    { apply (NoDup_length_incl ND (l' := upto (elements s))).
      - unfold L. rewrite length_upto, map_length, seq_length. lia.
      - intros e He'. unfold L in He'. apply in_map_iff in He'. destruct He' as (k & <- & _). apply In_upto.
        rewrite <- (permuted_elements perm s HP HL). apply position_bound. now apply permuted_inside.
      - now apply In_upto. }
    unfold L in Hin. apply in_map_iff in Hin. destruct Hin as (k & E & _). exists (co k). split; [apply HI|exact E].
  Qed.

  Theorem moves_exec (tr : list (event A)) :
    length tr = Z.to_nat (elements s) ->
    (forall ev, In ev tr -> exists c, inside s c /\ ev = move c) ->
    (forall c, inside s c -> In (move c) tr) ->
    NoDup (map fst tr) /\
    exists out, exec (fresh (elements (permuted perm s))) tr = SOk (map Some out) /\
      Z.of_nat (length out) = elements (permuted perm s) /\
      forall c, inside s c ->
        nth_error out (Z.to_nat (position (permuted perm s) (permuted perm c))) = nth_error data (Z.to_nat (position s c)).
  Proof.
    intros L S C. pose proof (permuted_elements perm s HP HL) as Ee. rewrite Ee.
    pose proof (elements_pos _ Hs) as He.
    assert (Hld : forall c, inside s c -> exists a, load data (position s c) = SOk a /\
        nth_error data (Z.to_nat (position s c)) = Some a).
    { intros c Hc. apply load_ok. rewrite Hd. now apply position_bound. }
    destruct (exec_once (elements s) tr) as (ND & out & E & Lo & H).
    - exact L.
    - intros d v Hin. destruct (S _ Hin) as (c & Hc & [= -> ->]). split.
      + rewrite <- Ee. apply position_bound. now apply permuted_inside.
      + destruct (Hld c Hc) as (a & Ha & _). eauto.
    - intros d Hdr. destruct (moves_cover d Hdr) as (c & Hc & <-). apply in_map_iff. exists (move c).
      split; [reflexivity|]. now apply C.
    - split; [exact ND|]. exists out. split; [exact E|]. split; [lia|].
      intros c Hc. destruct (Hld c Hc) as (a & Ha & ->). apply H. rewrite <- Ha. now apply C.
  Qed.
End Moves.

(** * The generic loop *)
Lemma generic_stores_ok {A} (data : list A) perm s : is_permutation perm -> length s = length perm -> positive_shape s ->
  forall n k, (k + n <= Z.to_nat (elements s))%nat ->
  generic_stores data perm s (permuted perm s) n (Z.of_nat k) (times k (increase s) (start s))
  = map (fun j => move perm s data (times j (increase s) (start s))) (seq k n).
Proof.
  intros HP HL Hs. induction n as [|n IH]; intros k Hk; [reflexivity|].
  cbn [generic_stores seq map]. f_equal.
  - destruct (iterate_ok s k Hs) as [I Pk]. 
    change (map (fun p => nth (Z.to_nat p) (times k (increase s) (start s)) 0) perm)
      with (permuted perm (times k (increase s) (start s))).
    pose proof (inside_length _ _ I) as Lc.
    rewrite to_index_ok by (rewrite !permuted_length; lia).
    rewrite !permuted_length, Nat.sub_diag. cbn [skipn]. unfold move. f_equal. rewrite Pk.
    rewrite Z.mod_small by lia. reflexivity.
  - replace (Z.of_nat k + 1) with (Z.of_nat (S k)) by lia. apply (IH (S k)). lia.
Qed.

Lemma generic_moves {A} (data : list A) perm s : is_permutation perm -> length s = length perm -> positive_shape s ->
  let tr := generic_stores data perm s (permuted perm s) (Z.to_nat (prod s)) 0 (start s) in
  length tr = Z.to_nat (elements s) /\
  (forall ev, In ev tr -> exists c, inside s c /\ ev = move perm s data c) /\
  (forall c, inside s c -> In (move perm s data c) tr).
Proof.
  intros HP HL Hs tr. unfold tr. rewrite prod_elements.
  pose proof (generic_stores_ok data perm s HP HL Hs (Z.to_nat (elements s)) 0 ltac:(lia)) as E.
  cbn [times Z.of_nat] in E. rewrite E. split; [|split].
  - now rewrite map_length, seq_length.
  - intros ev Hin. apply in_map_iff in Hin. destruct Hin as (k & <- & _).
    exists (times k (increase s) (start s)). split; [apply (iterate_ok s k Hs)|reflexivity].
  - intros c Hc. pose proof (position_bound _ _ Hc) as B. apply in_map_iff.
    exists (Z.to_nat (position s c)). rewrite in_seq. split; [|lia].
    f_equal. destruct (iterate_ok s (Z.to_nat (position s c)) Hs) as [I P1].
    apply (position_inj s); auto. rewrite P1, Z2Nat.id by lia. apply Z.mod_small. lia.
Qed.

(** * The specialised loops *)
Lemma In_plain_row W C w c : In (w, c) (plain_row W C) <-> 0 <= w < W /\ 0 <= c < C.
Proof.
  unfold plain_row. rewrite in_flat_map. split.
  - intros (w' & H1 & H2). apply in_map_iff in H2. destruct H2 as (c' & [= <- <-] & H2).
    rewrite In_upto in *. auto.
  - intros [H1 H2]. exists w. rewrite In_upto. split; [exact H1|]. apply in_map. now apply In_upto.
Qed.

Lemma length_plain_row W C : 0 <= W -> 0 <= C -> Z.of_nat (length (plain_row W C)) = W * C.
Proof.
  intros H1 H2. unfold plain_row. rewrite (length_flat_map_const _ _ (Z.to_nat C)).
  - rewrite length_upto. nia.
  - intros a _. now rewrite map_length, length_upto.
Qed.

Definition good_block (block : Z -> list (Z * Z)) : Prop :=
  forall w, length (block w) = 12%nat /\ forall w' c, In (w', c) (block w) <-> w <= w' < w + 4 /\ 0 <= c < 3.

Lemma block_by_column_good : good_block block_by_column.
Proof.
  intros w. split; [reflexivity|]. intros w' c. unfold block_by_column. rewrite in_flat_map. split.
  - intros (k & Hk & H). apply in_map_iff in H. destruct H as (c' & [= <- <-] & Hc).
    cbn in Hk, Hc. lia.
  - intros [H1 H2]. exists (w' - w). split.
    + assert (w' - w = 0 \/ w' - w = 1 \/ w' - w = 2 \/ w' - w = 3) by lia. cbn. intuition lia.
    + apply in_map_iff. exists c. split; [f_equal; lia|].
      assert (c = 0 \/ c = 1 \/ c = 2) by lia. cbn. intuition lia.
Qed.

Lemma block_by_channel_good : good_block block_by_channel.
Proof.
  intros w. split; [reflexivity|]. intros w' c. unfold block_by_channel. rewrite in_flat_map. split.
  - intros (k & Hk & H). apply in_map_iff in H. destruct H as (c' & [= <- <-] & Hc).
    cbn in Hk, Hc. lia.
  - intros [H1 H2]. exists c. split.
    + assert (c = 0 \/ c = 1 \/ c = 2) by lia. cbn. intuition lia.
    + apply in_map_iff. exists (w' - w). split; [f_equal; lia|].
      assert (w' - w = 0 \/ w' - w = 1 \/ w' - w = 2 \/ w' - w = 3) by lia. cbn. intuition lia.
Qed.

Lemma simd_row_ok block : good_block block -> forall fuel w W, 0 <= w <= W -> W - w < Z.of_nat fuel ->
  Z.of_nat (length (simd_row fuel block w W 3)) = (W - w) * 3 /\
  forall w' c, In (w', c) (simd_row fuel block w W 3) <-> w <= w' < W /\ 0 <= c < 3.
Proof.
  intros G. induction fuel as [|fuel IH]; intros w W Hw Hf; [lia|].
  cbn [simd_row]. destruct (Z.ltb_spec (w + 3) W) as [Hb|Hb].
  - destruct (IH (w + 4) W ltac:(lia) ltac:(lia)) as [L I]. destruct (G w) as [G1 G2]. split.
    + rewrite app_length, Nat2Z.inj_add, L, G1. lia.
    + intros w' c. rewrite in_app_iff, G2, I. lia.
  - split.
    + rewrite (length_flat_map_const _ _ 3%nat); [rewrite length_upto; lia|].
      intros a _. reflexivity.
    + intros w' c. rewrite in_flat_map. split.
      * intros (j & Hj & H). apply in_map_iff in H. destruct H as (c' & [= <- <-] & Hc).
        rewrite In_upto in *. lia.
      * intros [H1 H2]. exists (w' - w). rewrite In_upto. split; [lia|].
        apply in_map_iff. exists c. split; [f_equal; lia|]. now apply In_upto.
Qed.

Lemma inside4 a b c d x : inside [a; b; c; d] x <->
  exists i j k l, x = [i; j; k; l] /\ 0 <= i < a /\ 0 <= j < b /\ 0 <= k < c /\ 0 <= l < d.
Proof.
  split.
  - intros H. inversion H as [|? i ? x1 Hi H1]; subst. inversion H1 as [|? j ? x2 Hj H2]; subst.
    inversion H2 as [|? k ? x3 Hk H3]; subst. inversion H3 as [|? l ? x4 Hl H4]; subst. inversion H4; subst.
    exists i, j, k, l. auto.
  - intros (i & j & k & l & -> & ? & ? & ? & ?). repeat constructor; lia.
Qed.

Lemma row_ok (is_float : bool) block W : good_block block -> 0 <= W ->
  let row := if is_float then simd_row (S (Z.to_nat W)) block 0 W 3 else plain_row W 3 in
  Z.of_nat (length row) = W * 3 /\ forall w c, In (w, c) row <-> 0 <= w < W /\ 0 <= c < 3.
Proof.
  intros G HW row. unfold row. destruct is_float.
  - destruct (simd_row_ok block G (S (Z.to_nat W)) 0 W) as [L I]; try lia.
    rewrite L. split; [lia|]. intros w c. rewrite I. lia.
  - split; [apply length_plain_row; lia|]. intros w c. apply In_plain_row.
Qed.

Lemma length_nest {B} N H (f : Z -> Z -> list B) m : 0 <= N -> 0 <= H ->
  (forall n h, length (f n h) = m) ->
  length (flat_map (fun n => flat_map (fun h => f n h) (upto H)) (upto N)) = (Z.to_nat N * (Z.to_nat H * m))%nat.
Proof.
  intros H1 H2 Hm. rewrite (length_flat_map_const _ _ (Z.to_nat H * m)%nat).
  - now rewrite length_upto.
  - intros n _. rewrite (length_flat_map_const _ _ m); [now rewrite length_upto|]. intros; apply Hm.
Qed.

Lemma nhwc_moves {A} (is_float : bool) (data : list A) N H W : positive_shape [N; H; W; 3] ->
  let s := [N; H; W; 3] in let perm := [0; 3; 1; 2] in
  let tr := nhwc3_to_nc3hw is_float data N H W 3 in
  length tr = Z.to_nat (elements s) /\
  (forall ev, In ev tr -> exists c, inside s c /\ ev = move perm s data c) /\
  (forall c, inside s c -> In (move perm s data c) tr).
Proof.
  intros HS s perm tr.
  assert (0 < N /\ 0 < H /\ 0 < W) as (HN & HH & HW).
  { inversion HS as [|? ? H1 H2]; subst. inversion H2 as [|? ? H3 H4]; subst. inversion H4; subst. auto. }
  destruct (row_ok is_float block_by_channel W block_by_channel_good ltac:(lia)) as [Lr Ir].
  unfold tr, nhwc3_to_nc3hw. set (row := if is_float then _ else _) in *.
  assert (Em : forall n h w c, (n * (H * (W * 3)) + h * W + c * (H * W) + w, load data (n * (H * (W * 3)) + h * (W * 3) + w * 3 + c))
      = move perm s data [n; h; w; c]).
  { intros n h w c. unfold move, s, perm.
    change (permuted [0; 3; 1; 2] [N; H; W; 3]) with [N; 3; H; W].
    change (permuted [0; 3; 1; 2] [n; h; w; c]) with [n; c; h; w].
    cbn [position elements]. f_equal; [ring|]. f_equal. ring. }
  split; [|split].
  - rewrite length_nest with (m := length row); try lia; [|intros; apply map_length].
    unfold s. cbn [elements]. nia.
  - intros ev Hin. apply in_flat_map in Hin. destruct Hin as (n & Hn & Hin).
    apply in_flat_map in Hin. destruct Hin as (h & Hh & Hin). apply in_map_iff in Hin.
    destruct Hin as ([w c] & <- & Hwc). apply Ir in Hwc. rewrite In_upto in Hn, Hh. cbn [fst snd].
    exists [n; h; w; c]. split; [|apply Em]. apply inside4. exists n, h, w, c. intuition lia.
  - intros c0 Hc. apply inside4 in Hc. destruct Hc as (n & h & w & c & -> & Hn & Hh & Hw & Hc).
    rewrite <- Em. apply in_flat_map. exists n. rewrite In_upto. split; [exact Hn|].
    apply in_flat_map. exists h. rewrite In_upto. split; [exact Hh|].
    apply in_map_iff. exists (w, c). split; [reflexivity|]. now apply Ir.
Qed.

Lemma nchw_moves {A} (is_float : bool) (data : list A) N H W : positive_shape [N; 3; H; W] ->
  let s := [N; 3; H; W] in let perm := [0; 2; 3; 1] in
  let tr := nc3hw_to_nhwc3 is_float data N 3 H W in
  length tr = Z.to_nat (elements s) /\
  (forall ev, In ev tr -> exists c, inside s c /\ ev = move perm s data c) /\
  (forall c, inside s c -> In (move perm s data c) tr).
Proof.
  intros HS s perm tr.
  assert (0 < N /\ 0 < H /\ 0 < W) as (HN & HH & HW).
  { inversion HS as [|? ? H1 H2]; subst. inversion H2 as [|? ? H3 H4]; subst. inversion H4 as [|? ? H5 H6]; subst.
    inversion H6; subst. auto. }
  destruct (row_ok is_float block_by_column W block_by_column_good ltac:(lia)) as [Lr Ir].
  unfold tr, nc3hw_to_nhwc3. set (row := if is_float then _ else _) in *.
  assert (Em : forall n h w c, (n * (3 * (H * W)) + h * 3 * W + w * 3 + c, load data (n * (3 * (H * W)) + h * W + c * (H * W) + w))
      = move perm s data [n; c; h; w]).
  { intros n h w c. unfold move, s, perm.
    change (permuted [0; 2; 3; 1] [N; 3; H; W]) with [N; H; W; 3].
    change (permuted [0; 2; 3; 1] [n; c; h; w]) with [n; h; w; c].
    cbn [position elements]. f_equal; [ring|]. f_equal. ring. }
  split; [|split].
  - rewrite length_nest with (m := length row); try lia; [|intros; apply map_length].
    unfold s. cbn [elements]. nia.
  - intros ev Hin. apply in_flat_map in Hin. destruct Hin as (n & Hn & Hin).
    apply in_flat_map in Hin. destruct Hin as (h & Hh & Hin). apply in_map_iff in Hin.
    destruct Hin as ([w c] & <- & Hwc). apply Ir in Hwc. rewrite In_upto in Hn, Hh. cbn [fst snd].
    exists [n; c; h; w]. split; [|apply Em]. apply inside4. exists n, c, h, w. intuition lia.
  - intros c0 Hc. apply inside4 in Hc. destruct Hc as (n & c & h & w & -> & Hn & Hc & Hh & Hw).
    rewrite <- Em. apply in_flat_map. exists n. rewrite In_upto. split; [exact Hn|].
    apply in_flat_map. exists h. rewrite In_upto. split; [exact Hh|].
    apply in_map_iff. exists (w, c). split; [reflexivity|]. now apply Ir.
Qed.

Theorem kernel_moves {A} is_float (data : list A) perm s : is_permutation perm -> length s = length perm -> positive_shape s ->
  let tr := transpose_kernel is_float data s perm (permuted perm s) in
  length tr = Z.to_nat (elements s) /\
  (forall ev, In ev tr -> exists c, inside s c /\ ev = move perm s data c) /\
  (forall c, inside s c -> In (move perm s data c) tr).
Proof.
  intros HP HL Hs. unfold transpose_kernel.
  pose proof (generic_moves data perm s HP HL Hs) as G. cbn zeta in G |- *.
  set (gen := generic_stores _ _ _ _ _ _ _) in *. clearbody gen.
  repeat first [exact G | exact (nhwc_moves is_float data _ _ _ Hs) | exact (nchw_moves is_float data _ _ _ Hs) |
    match goal with |- context [match ?e with _ => _ end] => is_var e; destruct e end ].
Qed.

(** * The operator *)
Lemma lead_ones_length s n : (length s <= n)%nat -> length (lead_ones s n) = n.
Proof. intros H. unfold lead_ones. rewrite app_length, repeat_length. lia. Qed.

Lemma elements_lead s n : elements (lead_ones s n) = elements s.
Proof. unfold lead_ones. rewrite elements_app, elements_ones. lia. Qed.

Lemma lead_ones_positive s n : positive_shape s <-> positive_shape (lead_ones s n).
Proof.
  unfold lead_ones, positive_shape. rewrite Forall_app. split; [|tauto]. intros H. split; [|exact H].
  apply Forall_forall. intros d Hd. apply repeat_spec in Hd. lia.
Qed.

Lemma forallb_positive l : forallb (fun d => 0 <? d) l = true <-> positive_shape l.
Proof.
  rewrite forallb_forall. unfold positive_shape. rewrite Forall_forall. split; intros H d Hd; specialize (H d Hd).
  - now apply Z.ltb_lt. 
  - now apply Z.ltb_lt.
Qed.

Lemma permuted_positive perm s : is_permutation perm -> length s = length perm ->
  (positive_shape (permuted perm s) <-> positive_shape s).
Proof.
  intros HP HL. unfold positive_shape. rewrite !Forall_forall. split; intros H d Hd.
  - destruct (In_nth _ _ 0 Hd) as (i & Hi & <-). apply H. unfold permuted. apply in_map_iff.
    exists (Z.of_nat i). split; [now rewrite Nat2Z.id|]. apply perm_all; [exact HP|lia].
  - unfold permuted in Hd. apply in_map_iff in Hd. destruct Hd as (p & <- & Hp). apply H.
    apply nth_In. pose proof (perm_range _ _ HP Hp). lia.
Qed.

Lemma transpose_core {A} is_float perm (x : tensor A) : wf x -> is_permutation perm ->
  length (t_shape x) = length perm -> positive_shape (t_shape x) ->
  exists out, exec (fresh (prod (permuted perm (t_shape x))))
      (transpose_kernel is_float (t_data x) (t_shape x) perm (permuted perm (t_shape x))) = SOk (map Some out) /\
    wf (Tn (t_dtype x) (permuted perm (t_shape x)) out) /\
    transposed perm x (Tn (t_dtype x) (permuted perm (t_shape x)) out).
Proof.
  intros [W1 W2] HP HL Hs. destruct (kernel_moves is_float (t_data x) perm (t_shape x) HP HL Hs) as (K1 & K2 & K3).
  destruct (moves_exec perm (t_shape x) (t_data x) HP HL Hs W2 _ K1 K2 K3) as (_ & out & E & L & H).
  exists out. rewrite prod_elements. split; [exact E|]. split.
  - split; cbn [t_shape t_data]; [|exact L].
    apply Forall_impl with (P := fun d => 0 < d); [intros; lia|]. now apply permuted_positive.
  - split; [reflexivity|]. split; [reflexivity|]. intros c Hc. unfold elt. cbn [t_shape t_data]. now apply H.
Qed.

Theorem transpose_spec {A} is_float perm (x : tensor A) : wf x -> perm <> [] ->
  match transpose_run is_float (Some perm) x with
  | SOk r => exists out, r = filled out /\ wf out /\ transposed perm (with_rank (length perm) x) out /\
      is_permutation perm /\ (length (t_shape x) <= length perm)%nat /\ positive_shape (t_shape x)
  | SErr => ~ (is_permutation perm /\ (length (t_shape x) <= length perm)%nat /\ positive_shape (t_shape x))
  | SUndef => False
  end.
Proof.
  intros Hwf NE. unfold transpose_run.
  destruct (transpose_init_ok perm) as [[-> HP]|[-> HP]]; [|tauto].
  unfold get_permute. destruct perm as [|p0 perm'] eqn:Ep; [contradiction|]. rewrite <- Ep in *.
  destruct (Nat.ltb_spec (length perm) (length (t_shape x))) as [Hl|Hl].
  { intros (_ & H & _). lia. }
  assert (HL : length (lead_ones (t_shape x) (length perm)) = length perm) by now apply lead_ones_length.
  unfold permuted_shape.
  assert (El : lead_ones (lead_ones (t_shape x) (length perm)) (length perm) = lead_ones (t_shape x) (length perm)).
  { unfold lead_ones at 1. rewrite HL, Nat.sub_diag. reflexivity. }
  rewrite El. set (s := lead_ones (t_shape x) (length perm)) in *.
  change (map (fun p => nth (Z.to_nat p) s 0) perm) with (permuted perm s).
  destruct (forallb (fun d => 0 <? d) (permuted perm s)) eqn:F.
  - apply forallb_positive in F. apply permuted_positive in F; [|exact HP|exact HL].
    set (y := Tn (t_dtype x) s (t_data x)).
    assert (Wy : wf y).
    { split; cbn [y t_shape t_data].
      - apply Forall_impl with (P := fun d => 0 < d); [intros; lia|exact F].
      - unfold s. rewrite elements_lead. apply Hwf. }
    destruct (transpose_core is_float perm y Wy HP HL F) as (out & E & Wo & To). cbn [y t_shape t_data t_dtype] in E, Wo, To.
    rewrite E. exists (Tn (t_dtype x) (permuted perm s) out). split; [reflexivity|]. split; [exact Wo|]. split; [exact To|].
    split; [exact HP|]. split; [exact Hl|]. eapply lead_ones_positive. exact F.
  - intros (_ & _ & H). assert (forallb (fun d => 0 <? d) (permuted perm s) = true); [|congruence].
    apply forallb_positive. apply permuted_positive; auto. unfold s. now apply lead_ones_positive.
Qed.

(** [transposed] determines the result *)
Theorem transposed_unique {A} perm (x o o' : tensor A) : is_permutation perm -> length (t_shape x) = length perm ->
  positive_shape (t_shape x) -> wf o -> wf o' -> transposed perm x o -> transposed perm x o' -> o = o'.
Proof.
  intros HP HL Hs W W' (D & S & E) (D' & S' & E'). apply tensor_ext; auto; try congruence.
  intros c' Hc'. rewrite S in Hc'.
  destruct (moves_cover perm (t_shape x) (t_data x) HP HL Hs (position (permuted perm (t_shape x)) c')) as (c & Hc & Ec).
  { rewrite <- (permuted_elements perm (t_shape x) HP HL). now apply position_bound. }
  apply position_inj in Ec; [|now apply permuted_inside|exact Hc']. subst c'. rewrite (E c Hc), (E' c Hc). reflexivity.
Qed.

Theorem transpose_back {A} f g perm inv (x : tensor A) r : wf x -> length (t_shape x) = length perm -> perm <> [] ->
  is_permutation inv -> length inv = length perm ->
  (forall l, length l = length perm -> permuted inv (permuted perm l) = l) ->
  transpose_run f (Some perm) x = SOk r ->
  exists out, r = filled out /\ transpose_run g (Some inv) out = SOk (filled x).
Proof.
  intros Hwf HL NE HI Li Hinv E. pose proof (transpose_spec f perm x Hwf NE) as T. rewrite E in T.
  destruct T as (out & -> & Wo & (D & S & El) & HP & _ & Hs). exists out. split; [reflexivity|].
  assert (Ex : with_rank (length perm) x = x).
  { unfold with_rank. rewrite HL, Nat.sub_diag. destruct x; reflexivity. }
  rewrite Ex in D, S, El.
  assert (Lo : length (t_shape out) = length inv) by (rewrite S, permuted_length; auto).
  assert (NI : inv <> []) by (intros ->; destruct perm; [contradiction|discriminate]).
  assert (Po : positive_shape (t_shape out)) by (rewrite S; apply permuted_positive; auto).
  pose proof (transpose_spec g inv out Wo NI) as T2.
  destruct (transpose_run g (Some inv) out) as [r2| |].
  - destruct T2 as (o2 & -> & W2 & (D2 & S2 & E2) & _). f_equal. f_equal.
    assert (Eo : with_rank (length inv) out = out).
    { unfold with_rank. rewrite Lo, Nat.sub_diag. destruct out; reflexivity. }
    rewrite Eo in D2, S2, E2.
    assert (Es : t_shape o2 = t_shape x) by (rewrite S2, S; apply Hinv; exact HL).
    apply tensor_ext; auto; [congruence|]. intros c Hc. rewrite Es in Hc.
    rewrite <- (Hinv c) at 1 by (rewrite <- HL; symmetry; eapply inside_length; eauto).
    rewrite E2; [now apply El|]. rewrite S. apply permuted_inside; auto.
  - exfalso. apply T2. split; [exact HI|]. split; [lia|exact Po].
  - destruct T2.
Qed.

(** exactly once *)
Theorem transpose_once {A} is_float (data : list A) perm s : is_permutation perm -> length s = length perm ->
  positive_shape s -> Z.of_nat (length data) = elements s ->
  NoDup (map fst (transpose_kernel is_float data s perm (permuted perm s))).
Proof.
  intros HP HL Hs Hd. destruct (kernel_moves is_float data perm s HP HL Hs) as (K1 & K2 & K3).
  apply (moves_exec perm s data HP HL Hs Hd _ K1 K2 K3).
Qed.
