(** Proofs about space-to-batch and batch-to-space. *)
From Coq Require Import List ZArith Lia Bool.
From Verif Require Import ShapeModel ShapeSpec ShapeProofs KernelBase KernelSpec KernelProofs TileModel LoopModel LoopProofs BatchModel BatchSpec.
Import ListNotations.
Local Open Scope Z_scope.

Lemma map_counted {A B} (F : Z * A -> B) (G : A -> B) (l : list A) :
  (forall k a, In (k, a) (counted l) -> F (k, a) = G a) -> map F (counted l) = map G l.
Proof.
  unfold counted, upto. rewrite Nat2Z.id. generalize 0%nat. induction l as [|b l IH]; intros s H; [reflexivity|].
  cbn [length seq map combine]. f_equal; [apply H; now left|]. apply IH. intros k a Hk. apply H. now right.
Qed.

Lemma inside4 a b c d e : inside [a; b; c; d] e <-> exists n k h w, e = [n; k; h; w] /\ 0 <= n < a /\ 0 <= k < b /\ 0 <= h < c /\ 0 <= w < d.
Proof.
  split.
  - intros H. inversion H as [|? n ? e1 Hn T1]; subst. inversion T1 as [|? k ? e2 Hk T2]; subst.
    inversion T2 as [|? h ? e3 Hh T3]; subst. inversion T3 as [|? w ? e4 Hw T4]; subst. inversion T4; subst.
    exists n, k, h, w. auto.
  - intros (n & k & h & w & -> & H). repeat constructor; lia.
Qed.

Lemma digits q n q' n' N : 0 <= n < N -> 0 <= n' < N -> q * N + n = q' * N + n' -> q = q' /\ n = n'.
Proof. intros H1 H2 H. assert (q = q') by nia. subst. split; [reflexivity|lia]. Qed.

Lemma quot_rem h p b : 0 <= h + p -> 0 < b ->
  exists q r, Z.quot (h + p) b = q /\ Z.rem (h + p) b = r /\ h + p = q * b + r /\ 0 <= r < b /\ 0 <= q.
Proof.
  intros H1 H2. exists (Z.quot (h + p) b), (Z.rem (h + p) b). split; [reflexivity|]. split; [reflexivity|].
  rewrite Z.quot_div_nonneg, Z.rem_mod_nonneg by lia. split; [rewrite Z.mul_comm; apply Z.div_mod; lia|].
  split; [apply Z.mod_pos_bound; lia|]. apply Z.div_pos; lia.
Qed.

Lemma quot_rem_of a q r b : 0 <= q -> 0 <= r < b -> a = q * b + r -> Z.quot a b = q /\ Z.rem a b = r.
Proof.
  intros H1 H2 ->. rewrite Z.quot_div_nonneg, Z.rem_mod_nonneg by nia.
  rewrite (Z.add_comm (q * b) r), Z.div_add, Z.mod_add by lia. rewrite Z.div_small, Z.mod_small by lia. lia.
Qed.

Section S2B.
Variables (N C H W pt pb pl pr bh bw oH oW : Z).
Hypotheses (HN : 0 <= N) (HC : 0 <= C) (HH : 0 <= H) (HW : 0 <= W) (Hpt : 0 <= pt) (Hpb : 0 <= pb) (Hpl : 0 <= pl) (Hpr : 0 <= pr)
  (Hbh : 1 <= bh) (Hbw : 1 <= bw) (EH : H + pt + pb = oH * bh) (EW : W + pl + pr = oW * bw).

Let o := [N * bh * bw; C; oH; oW].
Let s := [N; C; H; W].

Definition dst (c : list Z) : Z :=
  match c with
  | [n; c; h; w] => ((Z.rem (h + pt) bh * bw + Z.rem (w + pl) bw) * N + n) * (C * oH * oW) + c * (oH * oW) + Z.quot (h + pt) bh * oW + Z.quot (w + pl) bw
  | _ => -1
  end.

Definition target (c : list Z) : list Z :=
  match c with
  | [n; c; h; w] => [(Z.rem (h + pt) bh * bw + Z.rem (w + pl) bw) * N + n; c; Z.quot (h + pt) bh; Z.quot (w + pl) bw]
  | _ => []
  end.

Lemma dst_target c : inside s c -> inside o (target c) /\ dst c = position o (target c).
Proof using All.
  intros Hc. apply inside4 in Hc. destruct Hc as (n & k & h & w & -> & Hn & Hk & Hh & Hw).
  destruct (quot_rem h pt bh) as (q & r & E1 & E2 & E3 & Hr & Hq); [lia..|].
  destruct (quot_rem w pl bw) as (q' & r' & E1' & E2' & E3' & Hr' & Hq'); [lia..|].
  cbn [target dst]. rewrite E1, E2, E1', E2'. split.
  - apply inside4. eexists _, _, _, _. split; [reflexivity|].
    assert (0 <= r * bw + r' < bh * bw) by nia. split; [|split; [exact Hk|split; nia]].
    split; nia.
  - unfold o. cbn [position elements]. ring.
Qed.

Lemma target_inj c c' : inside s c -> inside s c' -> target c = target c' -> c = c'.
Proof using All.
  intros Hc Hc'. apply inside4 in Hc, Hc'. destruct Hc as (n & k & h & w & -> & Hn & Hk & Hh & Hw).
  destruct Hc' as (n' & k' & h' & w' & -> & Hn' & Hk' & Hh' & Hw').
  destruct (quot_rem h pt bh) as (q & r & E1 & E2 & E3 & Hr & Hq); [lia..|].
  destruct (quot_rem w pl bw) as (q' & r' & E1' & E2' & E3' & Hr' & Hq'); [lia..|].
  destruct (quot_rem h' pt bh) as (u & v & F1 & F2 & F3 & Hv & Hu); [lia..|].
  destruct (quot_rem w' pl bw) as (u' & v' & F1' & F2' & F3' & Hv' & Hu'); [lia..|].
  cbn [target]. rewrite E1, E2, E1', E2', F1, F2, F1', F2'. intros [= A1 A2 A3 A4]. subst u u' k'.
  destruct (digits _ _ _ _ N Hn Hn' A1) as [A5 ->]. destruct (digits _ _ _ _ bw Hr' Hv' A5) as [-> ->].
  assert (h = h') by lia. assert (w = w') by lia. now subst.
Qed.

Lemma s2b_exec {A} (zero : A) (data : list A) : Z.of_nat (length data) = elements s ->
  exists out, exec (map Some (repeat zero (Z.to_nat (prod o)))) (s2b_stores data N C H W C oH oW pt pl bh bw) = SOk (map Some out) /\
    Z.of_nat (length out) = elements o /\
    (forall c, inside s c -> nth_error out (Z.to_nat (position o (target c))) = nth_error data (Z.to_nat (position s c))) /\
    (forall c, inside o c -> (forall c', inside s c' -> target c' <> c) -> nth_error out (Z.to_nat (position o c)) = Some zero).
Proof using All.
  intros Hd. rewrite prod_elements.
  assert (No : Forall (fun d => 0 <= d) o) by (unfold o; repeat constructor; nia).
  destruct (scatter_exec o s zero dst (fun c => load data (position s c)) No) as (out & E & L & P1 & P2).
  - intros c Hc. destruct (dst_target c Hc) as [T1 T2]. rewrite T2. split; [now apply position_bound|].
    destruct (load_ok data (position s c)) as (a & Ha & _); [rewrite Hd; now apply position_bound|]. eauto.
  - intros c c' Hc Hc' Ed. destruct (dst_target c Hc) as [T1 T2], (dst_target c' Hc') as [T1' T2'].
    apply (target_inj c c' Hc Hc'). apply (position_inj o); auto. congruence.
  - exists out. split; [|split; [exact L|split]].
    + rewrite <- E. f_equal. unfold s2b_stores. cbv zeta. apply map_counted.
      intros k c Hk. apply In_counted_loops in Hk. destruct Hk as [Hc ->]. apply inside4 in Hc.
      destruct Hc as (n & c' & h & w & -> & _). reflexivity.
    + intros c Hc. destruct (dst_target c Hc) as [T1 T2].
      destruct (load_ok data (position s c)) as (a & Ha & Hn); [rewrite Hd; now apply position_bound|].
      rewrite Hn, <- T2. now apply P1.
    + intros c Hc Hnone. apply P2; [now apply position_bound|]. intros c' Hc' Ec. destruct (dst_target c' Hc') as [T1 T2].
      apply (Hnone c' Hc'). apply (position_inj o); auto. congruence.
Qed.
End S2B.

Theorem s2b_ok {A} (zero : A) pt pb pl pr bh bw N C H W (x : tensor A) : wf x -> t_shape x = [N; C; H; W] ->
  tile_supports (t_dtype x) = true ->
  1 <= bh -> 1 <= bw -> 0 <= pt -> 0 <= pb -> 0 <= pl -> 0 <= pr ->
  (bh | H + pt + pb) -> (bw | W + pl + pr) ->
  exists y, s2b_run zero pt pb pl pr bh bw x = SOk (filled y) /\ wf y /\ batched zero pt pb pl pr bh bw x y.
Proof.
  intros [Wn Wd] Es Hs Hbh Hbw Hpt Hpb Hpl Hpr [oH EH] [oW EW]. unfold s2b_run.
  assert (B : block_ok bh bw = true) by (unfold block_ok; apply andb_true_iff; split; apply Z.leb_le; lia).
  rewrite B, Es. cbn [negb]. rewrite Es in Wn, Wd.
  inversion Wn as [|? ? HN Wn1]; subst. inversion Wn1 as [|? ? HC Wn2]; subst. inversion Wn2 as [|? ? HH Wn3]; subst. inversion Wn3 as [|? ? HW _]; subst.
  rewrite EH, EW, !Z.rem_mul, !Z.quot_mul, !Z.eqb_refl, Hs by lia. cbn [andb negb].
  destruct (s2b_exec N C H W pt pb pl pr bh bw oH oW HN HC HH HW Hpt Hpb Hpl Hpr Hbh Hbw EH EW zero (t_data x) Wd) as (out & E & L & P1 & P2).
  rewrite E. exists (Tn (t_dtype x) [N * bh * bw; C; oH; oW] out). split; [reflexivity|]. split.
  { split; [|exact L]. cbn [t_shape]. repeat constructor; nia. }
  exists N, C, H, W, oH, oW. split; [exact Es|]. split; [exact EH|]. split; [exact EW|]. split; [reflexivity|].
  split; [cbn [t_shape]; f_equal; ring|]. intros dh dw n c i j Hdh Hdw Hn Hc Hi Hj. cbv zeta. unfold elt. rewrite Es. cbn [t_shape t_data].
  assert (Qh : Z.quot (i * bh + dh - pt + pt) bh = i /\ Z.rem (i * bh + dh - pt + pt) bh = dh) by (apply quot_rem_of; lia).
  assert (Qw : Z.quot (j * bw + dw - pl + pl) bw = j /\ Z.rem (j * bw + dw - pl + pl) bw = dw) by (apply quot_rem_of; lia).
  assert (Et : target N pt pl bh bw [n; c; i * bh + dh - pt; j * bw + dw - pl] = [(dh * bw + dw) * N + n; c; i; j]).
  { cbn [target]. destruct Qh as [-> ->], Qw as [-> ->]. reflexivity. }
  split.
  - intros I. rewrite <- (P1 _ I). now rewrite Et.
  - intros I. apply P2.
    + apply inside4. eexists _, _, _, _. split; [reflexivity|]. assert (0 <= dh * bw + dw < bh * bw) by nia.
      split; [split; nia|]. auto.
    + intros c' Hc' E'. apply I. apply inside4 in Hc'. destruct Hc' as (n' & k' & h & w & -> & Hn' & Hk' & Hh & Hw).
      destruct (quot_rem h pt bh) as (q & r & E1 & E2 & E3 & Hr & Hq); [lia..|].
      destruct (quot_rem w pl bw) as (q' & r' & E1' & E2' & E3' & Hr' & Hq'); [lia..|].
      cbn [target] in E'. rewrite E1, E2, E1', E2' in E'. injection E' as A1 A2 A3 A4. subst q q' k'.
      destruct (digits _ _ _ _ N Hn' Hn A1) as [A5 ->]. destruct (digits _ _ _ _ bw Hr' Hdw A5) as [-> ->].
      apply inside4. eexists _, _, _, _. split; [reflexivity|]. repeat split; lia.
Qed.

Theorem b2s_ok {A} ct cb cl cr bh bw N C H W (x : tensor A) : wf x -> t_shape x = [bh * bw * N; C; H; W] ->
  tile_supports (t_dtype x) = true -> 0 < N ->
  1 <= bh -> 1 <= bw -> 0 <= ct -> 0 <= cb -> 0 <= cl -> 0 <= cr ->
  ct + cb <= H * bh -> cl + cr <= W * bw ->
  exists y, b2s_run ct cb cl cr bh bw x = SOk (filled y) /\ wf y /\ spaced ct cb cl cr bh bw x y.
Proof.
  intros [Wn Wd] Es Hs HN Hbh Hbw Hct Hcb Hcl Hcr Hh Hw. unfold b2s_run.
  assert (B : block_ok bh bw = true) by (unfold block_ok; apply andb_true_iff; split; apply Z.leb_le; lia).
  rewrite B, Es. cbn [negb]. rewrite Es in Wn, Wd.
  inversion Wn as [|? ? _ Wn1]; subst. inversion Wn1 as [|? ? HC Wn2]; subst. inversion Wn2 as [|? ? HH Wn3]; subst. inversion Wn3 as [|? ? HW _]; subst.
  assert (0 < bh * bw) by nia.
  replace (0 <? bh * bw * N) with true by (symmetry; apply Z.ltb_lt; nia).
  rewrite (Z.mul_comm (bh * bw) N), Z.rem_mul, Z.quot_mul, Z.eqb_refl, Hs by lia. cbn [andb negb].
  set (o := [N; C; H * bh - ct - cb; W * bw - cl - cr]). rewrite prod_elements.
  assert (No : Forall (fun d => 0 <= d) o) by (unfold o; repeat constructor; lia).
  set (g := fun c : list Z => match c with
     | [n; c; h; w] => load (t_data x) (((Z.rem (h + ct) bh * bw + Z.rem (w + cl) bw) * N + n) * (C * H * W) + c * (H * W) + Z.quot (h + ct) bh * W + Z.quot (w + cl) bw)
     | _ => SUndef end).
  assert (Hg : forall c, inside o c -> exists n k h w i dh j dw, c = [n; k; h; w] /\ h = i * bh + dh - ct /\ w = j * bw + dw - cl /\
     0 <= dh < bh /\ 0 <= dw < bw /\ inside [bh * bw * N; C; H; W] [(dh * bw + dw) * N + n; k; i; j] /\
     g c = load (t_data x) (position [bh * bw * N; C; H; W] [(dh * bw + dw) * N + n; k; i; j])).
  { intros c Hc. apply inside4 in Hc. destruct Hc as (n & k & h & w & -> & Hn & Hk & Hh' & Hw').
    destruct (quot_rem h ct bh) as (q & r & E1 & E2 & E3 & Hr & Hq); [lia..|].
    destruct (quot_rem w cl bw) as (q' & r' & E1' & E2' & E3' & Hr' & Hq'); [lia..|].
    exists n, k, h, w, q, r, q', r'. split; [reflexivity|]. split; [lia|]. split; [lia|]. split; [exact Hr|]. split; [exact Hr'|].
    assert (0 <= r * bw + r' < bh * bw) by nia. split.
    - apply inside4. eexists _, _, _, _. split; [reflexivity|]. split; [split; nia|]. split; [exact Hk|]. split; nia.
    - cbn [g]. rewrite E1, E2, E1', E2'. f_equal. cbn [position elements]. ring. }
  destruct (counted_exec o g No) as (out & E & L & P).
  { intros c Hc. destruct (Hg c Hc) as (n & k & h & w & i & dh & j & dw & _ & _ & _ & _ & _ & I & ->).
    destruct (load_ok (t_data x) (position [bh * bw * N; C; H; W] [(dh * bw + dw) * N + n; k; i; j])) as (a & Ha & _);
      [rewrite Wd; now apply position_bound|]. eauto. }
  change (b2s_stores (t_data x) C H W N C (H * bh - ct - cb) (W * bw - cl - cr) ct cl bh bw) with (map (fun kc => (fst kc, g (snd kc))) (counted (loops o))).
  rewrite E. exists (Tn (t_dtype x) o out). split; [reflexivity|]. split; [split; assumption|].
  exists N, C, H, W. split; [rewrite Es; f_equal; ring|]. split; [reflexivity|]. split; [reflexivity|]. cbn [t_shape].
  intros dh dw n c i j Hdh Hdw Hin. unfold elt. rewrite Es. cbn [t_shape t_data].
  destruct (Hg _ Hin) as (n0 & k0 & h0 & w0 & i0 & dh0 & j0 & dw0 & [= <- <- <- <-] & E1 & E2 & Hdh0 & Hdw0 & I & Eg).
  assert (i * bh + dh = i0 * bh + dh0) as Q by lia. destruct (digits _ _ _ _ bh Hdh Hdh0 Q) as [<- <-].
  assert (j * bw + dw = j0 * bw + dw0) as Q' by lia. destruct (digits _ _ _ _ bw Hdw Hdw0 Q') as [<- <-].
  destruct (load_ok (t_data x) (position [bh * bw * N; C; H; W] [(dh * bw + dw) * N + n; c; i; j])) as (a & Ha & Hna);
    [rewrite Wd; now apply position_bound|]. rewrite Hna. apply P; [exact Hin|]. now rewrite Eg.
Qed.
