(** C93: pooling, C94: global pooling. *)
From Coq Require Import List ZArith Bool Lia.
From Verif Require Import ShapeModel ShapeSpec ShapeProofs KernelBase KernelSpec KernelProofs LoopModel LoopProofs CoordProofs
  ConvModel ConvSpec ConvProofs PoolingModel PoolingSpec PoolingProofs.
Import ListNotations.
Local Open Scope Z_scope.

Section Props.
Context {T : Type} (ltb : T -> T -> bool) (zero : T) (add : T -> T -> T) (div : T -> Z -> T).

(** the image values a window covers, row by row *)
Definition window_values (x : tensor T) (h w : Z) (b ch a1 a2 kh kw : Z) : list T :=
  map (fun p => value zero x [b; ch; fst p; snd p]) (cells h w a1 a2 kh kw).

Lemma pv_load (t : tensor T) c : wf t -> inside (t_shape t) c -> load (t_data t) (position (t_shape t) c) = SOk (value zero t c).
Proof.
  intros W H. destruct (elt_some t c W H) as (v & E). unfold value. rewrite E. apply load_inv. split; [now apply position_bound|exact E].
Qed.

(** a channel is read with rows of [w] elements *)
Lemma pv_channel (x : tensor T) n c h w b ch : wf x -> t_shape x = [n; c; h; w] -> 0 <= b < n -> 0 <= ch < c ->
  exists val, (forall y z, 0 <= y < h -> 0 <= z < w -> load (t_data x) ((b * c + ch) * (h * w) + (y * w + z)) = SOk (val (y * w + z))) /\
    (forall y z, 0 <= y < h -> 0 <= z < w -> val (y * w + z) = value zero x [b; ch; y; z]).
Proof.
  intros W Sx Hb Hc. exists (fun p => value zero x [b; ch; p / w; p mod w]).
  assert (E : forall y z, 0 <= y < h -> 0 <= z < w -> (y * w + z) / w = y /\ (y * w + z) mod w = z).
  { intros y z Hy Hz. split; [rewrite Z.add_comm, Z.div_add, Z.div_small by lia; lia|rewrite Z.add_comm, Z.mod_add, Z.mod_small by lia; lia]. }
  split; intros y z Hy Hz; destruct (E y z Hy Hz) as [-> ->]; [|reflexivity].
  rewrite <- (pv_load x [b; ch; y; z] W) by (rewrite Sx; repeat (constructor; [lia|]); constructor). f_equal. rewrite Sx. cbn [position elements]. ring.
Qed.

Lemma inside4 a b c d s : inside [a; b; c; d] s -> exists i j k l, s = [i; j; k; l] /\ 0 <= i < a /\ 0 <= j < b /\ 0 <= k < c /\ 0 <= l < d.
Proof.
  intros H. inversion H as [|? i ? s1 H1 Hs1]; subst. inversion Hs1 as [|? j ? s2 H2 Hs2]; subst. inversion Hs2 as [|? k ? s3 H3 Hs3]; subst.
  inversion Hs3 as [|? l ? s4 H4 Hs4]; subst. inversion Hs4; subst. exists i, j, k, l. auto.
Qed.

Definition got (v : sres T) : T := match v with SOk v => v | _ => zero end.

(** the plain loops run a cell for every output element *)
Lemma plain_ok cell (x : list T) win n c h w oh ow : 0 <= n -> 0 <= c -> 0 <= oh -> 0 <= ow ->
  (forall b ch i j, 0 <= b < n -> 0 <= ch < c -> 0 <= i < oh -> 0 <= j < ow ->
    exists v, cell (fun p => load x ((b * c + ch) * (h * w) + p)) h w win i j = SOk v) ->
  exists out, exec (fresh (n * c * oh * ow)) (plain cell x win n c h w oh ow) = SOk (map Some out) /\ Z.of_nat (length out) = elements [n; c; oh; ow] /\
    forall b ch i j, 0 <= b < n -> 0 <= ch < c -> 0 <= i < oh -> 0 <= j < ow ->
      exists v, nth_error out (Z.to_nat (position [n; c; oh; ow] [b; ch; i; j])) = Some v /\
        cell (fun p => load x ((b * c + ch) * (h * w) + p)) h w win i j = SOk v.
Proof.
  intros Hn Hc Hoh How H.
  destruct (exec_grid [n; c; oh; ow] (fun k => match k with [b; ch; i; j] => got (cell (fun p => load x ((b * c + ch) * (h * w) + p)) h w win i j) | _ => zero end)
    (plain cell x win n c h w oh ow) (fresh (n * c * oh * ow))) as (out & E & L & P).
  - repeat constructor; assumption.
  - unfold fresh. rewrite repeat_length. cbn [elements]. rewrite Z2Nat.id by (repeat apply Z.mul_nonneg_nonneg; assumption). ring.
  - intros d v Hin. unfold plain in Hin. apply in_map_iff in Hin. destruct Hin as ((k & cs) & Ek & Hin). apply In_counted_loops in Hin. destruct Hin as [Hi ->].
    exists cs. split; [exact Hi|]. cbn [fst snd] in Ek. apply pair_equal_spec in Ek. destruct Ek as [<- <-]. split; [reflexivity|].
    destruct (inside4 _ _ _ _ _ Hi) as (b & ch & i & j & -> & Hb & Hch & Hi' & Hj). destruct (H b ch i j Hb Hch Hi' Hj) as (v & Ev). rewrite Ev. reflexivity.
  - intros cs Hi. unfold plain. rewrite map_map. cbn [fst]. apply in_map_iff. exists (position [n; c; oh; ow] cs, cs). split; [reflexivity|].
    apply In_counted_loops. auto.
  - exists out. split; [exact E|]. split; [exact L|]. intros b ch i j Hb Hch Hi Hj. destruct (H b ch i j Hb Hch Hi Hj) as (v & Ev). exists v.
    split; [|exact Ev]. rewrite P by (repeat (constructor; [lia|]); constructor). now rewrite Ev.
Qed.

(** and so do the kernels for stride two *)
Lemma special_ok (x : list T) k win n c h w oh ow : 0 <= n -> 0 <= c -> 0 <= oh -> 0 <= ow ->
  axis w (p_left win) k ow (2 * ow + (k - 2) - w - p_left win) (if 0 <? 2 * ow + (k - 2) - w - p_left win then ow - 1 else ow) ->
  axis h (p_top win) k oh (2 * oh + (k - 2) - h - p_top win) (if 0 <? 2 * oh + (k - 2) - h - p_top win then oh - 1 else oh) ->
  let cell rd i j := block_max ltb rd w (from (p_top win) i * w + from (p_left win) j) (span h (p_top win) k i) (span w (p_left win) k j) in
  (forall b ch i j, 0 <= b < n -> 0 <= ch < c -> 0 <= i < oh -> 0 <= j < ow ->
    exists v, cell (fun p => load x ((b * c + ch) * (h * w) + p)) i j = SOk v) ->
  exists out, exec (fresh (n * c * oh * ow)) (special ltb k x win n c h w oh ow) = SOk (map Some out) /\ Z.of_nat (length out) = elements [n; c; oh; ow] /\
    forall b ch i j, 0 <= b < n -> 0 <= ch < c -> 0 <= i < oh -> 0 <= j < ow ->
      exists v, nth_error out (Z.to_nat (position [n; c; oh; ow] [b; ch; i; j])) = Some v /\
        cell (fun p => load x ((b * c + ch) * (h * w) + p)) i j = SOk v.
Proof.
  intros Hn Hc Hoh How X Y cell H.
  destruct (exec_grid [n; c; oh; ow] (fun k => match k with [b; ch; i; j] => got (cell (fun p => load x ((b * c + ch) * (h * w) + p)) i j) | _ => zero end)
    (special ltb k x win n c h w oh ow) (fresh (n * c * oh * ow))) as (out & E & L & P).
  - repeat constructor; assumption.
  - unfold fresh. rewrite repeat_length. cbn [elements]. rewrite Z2Nat.id by (repeat apply Z.mul_nonneg_nonneg; assumption). ring.
  - intros d v Hin. unfold special in Hin. apply in_flat_map in Hin. destruct Hin as (bc & Hbc & Hin). apply In_loops in Hbc.
    inversion Hbc as [|? b ? s1 Hb Hs1]; subst. inversion Hs1 as [|? ch ? s2 Hch Hs2]; subst. inversion Hs2; subst.
    unfold shift in Hin. apply in_map_iff in Hin. destruct Hin as ([e v'] & Ed & Hin). cbn [fst snd] in Ed. apply pair_equal_spec in Ed. destruct Ed as [<- <-].
    destruct (channel_ok ltb (fun p => load x ((b * c + ch) * (h * w) + p)) k win h w oh ow X Y) as [C1 _].
    destruct (C1 e v' Hin) as (i & j & Hi & Hj & -> & ->). exists [b; ch; i; j]. split; [repeat (constructor; [lia|]); constructor|].
    split; [cbn [position elements]; ring|]. destruct (H b ch i j Hb Hch Hi Hj) as (v & Ev). fold (cell (fun p => load x ((b * c + ch) * (h * w) + p)) i j). rewrite Ev. reflexivity.
  - intros cs Hi. destruct (inside4 _ _ _ _ _ Hi) as (b & ch & i & j & -> & Hb & Hch & Hi' & Hj).
    destruct (channel_ok ltb (fun p => load x ((b * c + ch) * (h * w) + p)) k win h w oh ow X Y) as [_ C2].
    specialize (C2 i j Hi' Hj). apply in_map_iff in C2. destruct C2 as ([e v] & Ee & Hin). cbn [fst] in Ee. subst e.
    apply in_map_iff. exists ((b * c + ch) * (oh * ow) + (i * ow + j), v). split; [cbn [fst position elements]; ring|].
    unfold special. apply in_flat_map. exists [b; ch]. split; [apply In_loops; repeat (constructor; [lia|]); constructor|].
    unfold shift. apply in_map_iff. exists (i * ow + j, v). split; [reflexivity|exact Hin].
  - exists out. split; [exact E|]. split; [exact L|]. intros b ch i j Hb Hch Hi Hj. destruct (H b ch i j Hb Hch Hi Hj) as (v & Ev). exists v.
    split; [|exact Ev]. rewrite P by (repeat (constructor; [lia|]); constructor). now rewrite Ev.
Qed.

(** axes of the stride two kernels *)
Lemma meet_axis x before after k n : k = 2 \/ k = 3 -> before = 0 \/ before = 1 -> after = 0 \/ after = 1 -> 0 <= x ->
  covering (x + before + after) k 2 n -> all_meet x before k 2 n -> (k = 3 -> before = 1 -> 2 <= x) ->
  axis x before k n (2 * n + (k - 2) - x - before) (if 0 <? 2 * n + (k - 2) - x - before then n - 1 else n).
Proof.
  intros K B A Hx (C1 & C2 & C3) M D.
  destruct (M (n - 1) ltac:(lia)) as (y & Hy1 & Hy2). destruct (M 0 ltac:(lia)) as (z & Hz1 & Hz2).
  constructor; auto; try lia. destruct (Z.ltb_spec 0 (2 * n + (k - 2) - x - before)); lia.
Qed.

Lemma pool_main nchw ty pad padding ksize stride (x : tensor T) n c h w pt pb pl pr kh kw sh sw oh ow :
  wf x -> t_shape x = [n; c; h; w] -> padding = [0; 0; 0; 0; pt; pb; pl; pr] -> ksize = [1; 1; kh; kw] -> stride = [1; 1; sh; sw] ->
  1 <= sh -> 1 <= sw -> kh <= h + pt + pb -> kw <= w + pl + pr -> covering (h + pt + pb) kh sh oh -> covering (w + pl + pr) kw sw ow ->
  nchw = true ->
  pooling2d ltb zero add div nchw ty pad padding ksize stride x = pool_run ltb zero add div true ty pad (PW pt pb pl pr kh kw sh sw) x oh ow.
Proof.
  intros W Sx -> -> -> Hsh Hsw Hkh Hkw Ch Cw ->. unfold pooling2d, pool_init. cbn [length Nat.eqb andb negb nth Z.eqb Pos.eqb]. rewrite Sx.
  cbn [p_top p_bottom p_left p_right k_h k_w s_h s_w]. rewrite (covering_size h pt pb kh sh oh) by assumption. rewrite (covering_size w pl pr kw sw ow) by assumption.
  cbn [bind]. destruct Ch as [Ch _], Cw as [Cw _]. destruct (Z.ltb_spec oh 0); [lia|]. destruct (Z.ltb_spec ow 0); [lia|]. reflexivity.
Qed.

Lemma special_inv pt pb pl pr kh kw sh sw k : special_kernel (PW pt pb pl pr kh kw sh sw) MaxPool = Some k ->
  (k = 2 \/ k = 3) /\ kh = k /\ kw = k /\ sh = 2 /\ sw = 2 /\ (pt = 0 \/ pt = 1) /\ (pb = 0 \/ pb = 1) /\ (pl = 0 \/ pl = 1) /\ (pr = 0 \/ pr = 1).
Proof.
  intros Esp. unfold special_kernel in Esp. cbn [p_top p_bottom p_left p_right k_h k_w s_h s_w] in Esp.
      destruct (Z.eqb_spec sh 2); [|discriminate]. destruct (Z.eqb_spec sw 2); [|discriminate].
      destruct (Z.eqb_spec pt 0); destruct (Z.eqb_spec pt 1); cbn [andb orb] in Esp; try discriminate;
      destruct (Z.eqb_spec pb 0); destruct (Z.eqb_spec pb 1); cbn [andb orb] in Esp; try discriminate;
      destruct (Z.eqb_spec pl 0); destruct (Z.eqb_spec pl 1); cbn [andb orb] in Esp; try discriminate;
      destruct (Z.eqb_spec pr 0); destruct (Z.eqb_spec pr 1); cbn [andb orb] in Esp; try discriminate;
      (destruct (Z.eqb_spec kw 3); destruct (Z.eqb_spec kh 3); cbn [andb] in Esp; [injection Esp as <-; lia| | | ];
       destruct (Z.eqb_spec kw 2); destruct (Z.eqb_spec kh 2); cbn [andb] in Esp; try discriminate; injection Esp as <-; lia).
Qed.

(** C93, maximum: for every padding, kernel and stride for which all windows
    meet the image, an output element is a greatest of the image elements in
    its window.  Missing: the cases that C93_one_refuted and
    C93_double_refuted show to fail. *)
Theorem C93_max_partial : weak_order ltb -> forall pad padding ksize stride (x : tensor T) n c h w pt pb pl pr kh kw sh sw oh ow,
  wf x -> t_dtype x = 10 \/ (t_dtype x = 11 /\ ~ (sh = 2 /\ sw = 2 /\ kh = kw /\ (kh = 2 \/ kh = 3))) ->
  t_shape x = [n; c; h; w] -> pad = Black \/ pad = White ->
  padding = [0; 0; 0; 0; pt; pb; pl; pr] -> ksize = [1; 1; kh; kw] -> stride = [1; 1; sh; sw] ->
  1 <= sh -> 1 <= sw -> 0 <= kh <= h + pt + pb -> 0 <= kw <= w + pl + pr -> covering (h + pt + pb) kh sh oh -> covering (w + pl + pr) kw sw ow ->
  all_meet h pt kh sh oh -> all_meet w pl kw sw ow ->
  (kh = 3 -> kw = 3 -> sh = 2 -> sw = 2 -> (pt = 1 -> 2 <= h) /\ (pl = 1 -> 2 <= w)) ->
  exists out, pooling2d ltb zero add div true MaxPool pad padding ksize stride x = SOk (filled out) /\ wf out /\ t_dtype out = t_dtype x /\
    t_shape out = [n; c; oh; ow] /\
    forall b ch i j, 0 <= b < n -> 0 <= ch < c -> 0 <= i < oh -> 0 <= j < ow -> exists v, elt out [b; ch; i; j] = Some v /\
      greatest ltb v (window_values x h w b ch (i * sh - pt) (j * sw - pl) kh kw).
Proof.
  intros wo pad padding ksize stride x n c h w pt pb pl pr kh kw sh sw oh ow W Tx Sx Pd Ep Ek Es Hsh Hsw Hkh Hkw Ch Cw Mh Mw Hone.
  rewrite (pool_main true MaxPool pad padding ksize stride x n c h w pt pb pl pr kh kw sh sw oh ow W Sx Ep Ek Es) by (assumption || lia || reflexivity).
  clear padding ksize stride Ep Ek Es.
  assert (Nx : 0 <= n /\ 0 <= c /\ 0 <= h /\ 0 <= w).
  { destruct W as [F _]. rewrite Sx in F. inversion F as [|? ? F1 Fa]; subst. inversion Fa as [|? ? F2 Fb]; subst. inversion Fb as [|? ? F3 Fc]; subst. inversion Fc; subst. auto. }
  destruct Nx as (Hn & Hc & Hh & Hw). pose proof Ch as [Hoh _]. pose proof Cw as [How _].
  set (win := PW pt pb pl pr kh kw sh sw).
  assert (Ty : (t_dtype x =? 10) || (t_dtype x =? 11) = true) by (destruct Tx as [E|[E _]]; rewrite E; reflexivity).
  assert (Hne : forall i j, 0 <= i < oh -> 0 <= j < ow -> cells h w (i * sh - pt) (j * sw - pl) kh kw <> []).
  { intros i j Hi Hj E. destruct (Mh i Hi) as (y & Hy1 & Hy2). destruct (Mw j Hj) as (z & Hz1 & Hz2).
    assert (Hin : In (y, z) (cells h w (i * sh - pt) (j * sw - pl) kh kw)) by (apply In_cells; lia). rewrite E in Hin. destruct Hin. }
  assert (Fin : forall stores cell, pool_core ltb zero add div (t_dtype x =? 10) MaxPool pad (t_data x) win n c h w oh ow = SOk stores ->
    (exists out, exec (fresh (n * c * oh * ow)) stores = SOk (map Some out) /\ Z.of_nat (length out) = elements [n; c; oh; ow] /\
     forall b ch i j, 0 <= b < n -> 0 <= ch < c -> 0 <= i < oh -> 0 <= j < ow ->
       exists v, nth_error out (Z.to_nat (position [n; c; oh; ow] [b; ch; i; j])) = Some v /\
         cell (fun p => load (t_data x) ((b * c + ch) * (h * w) + p)) i j = SOk v) ->
    (forall b ch i j, 0 <= b < n -> 0 <= ch < c -> 0 <= i < oh -> 0 <= j < ow -> exists v,
       cell (fun p => load (t_data x) ((b * c + ch) * (h * w) + p)) i j = SOk v /\ greatest ltb v (window_values x h w b ch (i * sh - pt) (j * sw - pl) kh kw)) ->
    exists out, pool_run ltb zero add div true MaxPool pad win x oh ow = SOk (filled out) /\ wf out /\ t_dtype out = t_dtype x /\
      t_shape out = [n; c; oh; ow] /\
      forall b ch i j, 0 <= b < n -> 0 <= ch < c -> 0 <= i < oh -> 0 <= j < ow -> exists v, elt out [b; ch; i; j] = Some v /\
        greatest ltb v (window_values x h w b ch (i * sh - pt) (j * sw - pl) kh kw)).
  { intros stores cell Es (out & Ex & L & P) Hv. exists (Tn (t_dtype x) [n; c; oh; ow] out).
    split; [|split; [split; [repeat constructor; (assumption || lia)|exact L]|split; [reflexivity|split; [reflexivity|]]]].
    - unfold pool_run. rewrite Sx, Ty. cbn [negb]. rewrite Es. cbn [bind]. rewrite Ex. reflexivity.
    - intros b ch i j Hb Hch Hi Hj. destruct (P b ch i j Hb Hch Hi Hj) as (v & Ev & Ec). destruct (Hv b ch i j Hb Hch Hi Hj) as (v' & Ec' & G).
      rewrite Ec in Ec'. injection Ec' as <-. exists v. split; [exact Ev|exact G]. }
  assert (Vals : forall b ch i j (val : Z -> T), (forall y z, 0 <= y < h -> 0 <= z < w -> val (y * w + z) = value zero x [b; ch; y; z]) ->
    map (fun p => val (fst p * w + snd p)) (cells h w (i * sh - pt) (j * sw - pl) kh kw) = window_values x h w b ch (i * sh - pt) (j * sw - pl) kh kw).
  { intros b ch i j val Hv. unfold window_values. apply map_ext_in. intros [y z] Hin. apply In_cells in Hin. cbn [fst snd]. apply Hv; lia. }
  assert (Ecore : pool_core ltb zero add div (t_dtype x =? 10) MaxPool pad (t_data x) win n c h w oh ow =
    SOk (match special_kernel win MaxPool with Some k => if t_dtype x =? 10 then special ltb k (t_data x) win n c h w oh ow else [] | None => plain (max_cell ltb) (t_data x) win n c h w oh ow end)).
  { unfold pool_core. destruct Pd as [-> | ->]; destruct (special_kernel win MaxPool); reflexivity. }
  destruct (special_kernel win MaxPool) as [k|] eqn:Esp.
  - assert (Hk : (k = 2 \/ k = 3) /\ kh = k /\ kw = k /\ sh = 2 /\ sw = 2 /\ (pt = 0 \/ pt = 1) /\ (pb = 0 \/ pb = 1) /\ (pl = 0 \/ pl = 1) /\ (pr = 0 \/ pr = 1)).
    { exact (special_inv _ _ _ _ _ _ _ _ _ Esp). }
    destruct Hk as (K & -> & -> & -> & -> & Bt & Bb & Bl & Br).
    assert (E10 : t_dtype x = 10) by (destruct Tx as [E|[_ H]]; [exact E|exfalso; apply H; auto]).
    replace (t_dtype x =? 10) with true in Ecore, Fin by (rewrite E10; reflexivity). cbv iota in Ecore.
    assert (Cell : forall b ch i j, 0 <= b < n -> 0 <= ch < c -> 0 <= i < oh -> 0 <= j < ow -> exists v,
       block_max ltb (fun p => load (t_data x) ((b * c + ch) * (h * w) + p)) w (from pt i * w + from pl j) (span h pt k i) (span w pl k j) = SOk v /\
       greatest ltb v (window_values x h w b ch (i * 2 - pt) (j * 2 - pl) k k)).
    { intros b ch i j Hb Hch Hi Hj. destruct (pv_channel x n c h w b ch W Sx Hb Hch) as (val & V1 & V2).
      destruct (block_max_ok ltb wo (fun p => load (t_data x) ((b * c + ch) * (h * w) + p)) val w win h i j) with (k := k) as (v & Ev & G); cbn [win k_h k_w s_h s_w p_top p_left]; try lia; auto.
      - intros y z Hin. apply In_cells in Hin. apply V1; lia.
      - exists v. split; [exact Ev|]. cbn [win k_h k_w s_h s_w p_top p_left] in G. rewrite (Vals b ch i j val V2) in G. exact G. }
    apply (Fin _ (fun rd i j => block_max ltb rd w (from pt i * w + from pl j) (span h pt k i) (span w pl k j)) Ecore); [|exact Cell].
    apply (special_ok (t_data x) k win n c h w oh ow Hn Hc); [lia|lia| | |].
    + cbn [win p_left]. apply (meet_axis w pl pr k ow); auto. intros -> Hp. destruct (Hone eq_refl eq_refl eq_refl eq_refl) as [_ H]. now apply H.
    + cbn [win p_top]. apply (meet_axis h pt pb k oh); auto. intros -> Hp. destruct (Hone eq_refl eq_refl eq_refl eq_refl) as [H _]. now apply H.
    + intros b ch i j Hb Hch Hi Hj. destruct (Cell b ch i j Hb Hch Hi Hj) as (v & Ev & _). exists v. exact Ev.
  - assert (Cell : forall b ch i j, 0 <= b < n -> 0 <= ch < c -> 0 <= i < oh -> 0 <= j < ow -> exists v,
       max_cell ltb (fun p => load (t_data x) ((b * c + ch) * (h * w) + p)) h w win i j = SOk v /\
       greatest ltb v (window_values x h w b ch (i * sh - pt) (j * sw - pl) kh kw)).
    { intros b ch i j Hb Hch Hi Hj. destruct (pv_channel x n c h w b ch W Sx Hb Hch) as (val & V1 & V2).
      destruct (max_cell_ok ltb wo (fun p => load (t_data x) ((b * c + ch) * (h * w) + p)) val w win h i j) as (v & Ev & G); cbn [win k_h k_w s_h s_w p_top p_left]; try lia; auto.
      - intros y z Hin. apply In_cells in Hin. apply V1; lia.
      - exists v. split; [exact Ev|]. cbn [win k_h k_w s_h s_w p_top p_left] in G. rewrite (Vals b ch i j val V2) in G. exact G. }
    apply (Fin _ (fun rd i j => max_cell ltb rd h w win i j) Ecore); [|exact Cell].
    apply (plain_ok (max_cell ltb) (t_data x) win n c h w oh ow Hn Hc); [lia|lia|].
    intros b ch i j Hb Hch Hi Hj. destruct (Cell b ch i j Hb Hch Hi Hj) as (v & Ev & _). exists v. exact Ev.
Qed.

(** C93, average: the sum of the image elements in the window, row by row,
    divided by their number (black padding) or by the size of the kernel
    (white padding); in the arithmetic of the element type. *)
Theorem C93_average : forall pad padding ksize stride (x : tensor T) n c h w pt pb pl pr kh kw sh sw oh ow,
  wf x -> t_dtype x = 10 \/ t_dtype x = 11 -> t_shape x = [n; c; h; w] -> pad = Black \/ pad = White ->
  padding = [0; 0; 0; 0; pt; pb; pl; pr] -> ksize = [1; 1; kh; kw] -> stride = [1; 1; sh; sw] ->
  1 <= sh -> 1 <= sw -> 0 <= kh <= h + pt + pb -> 0 <= kw <= w + pl + pr -> covering (h + pt + pb) kh sh oh -> covering (w + pl + pr) kw sw ow ->
  exists out, pooling2d ltb zero add div true AvgPool pad padding ksize stride x = SOk (filled out) /\ wf out /\ t_dtype out = t_dtype x /\
    t_shape out = [n; c; oh; ow] /\
    forall b ch i j, 0 <= b < n -> 0 <= ch < c -> 0 <= i < oh -> 0 <= j < ow ->
      let vs := window_values x h w b ch (i * sh - pt) (j * sw - pl) kh kw in
      elt out [b; ch; i; j] = Some (match pad with
        | White => div (fold_left add vs zero) (kh * kw)
        | _ => match vs with [] => zero | _ => div (fold_left add vs zero) (Z.of_nat (length vs)) end
        end).
Proof.
  intros pad padding ksize stride x n c h w pt pb pl pr kh kw sh sw oh ow W Tx Sx Pd Ep Ek Es Hsh Hsw Hkh Hkw Ch Cw.
  rewrite (pool_main true AvgPool pad padding ksize stride x n c h w pt pb pl pr kh kw sh sw oh ow W Sx Ep Ek Es) by (assumption || lia || reflexivity).
  clear padding ksize stride Ep Ek Es.
  assert (Nx : 0 <= n /\ 0 <= c /\ 0 <= h /\ 0 <= w).
  { destruct W as [F _]. rewrite Sx in F. inversion F as [|? ? F1 Fa]; subst. inversion Fa as [|? ? F2 Fb]; subst. inversion Fb as [|? ? F3 Fc]; subst. inversion Fc; subst. auto. }
  destruct Nx as (Hn & Hc & Hh & Hw). pose proof Ch as [Hoh _]. pose proof Cw as [How _].
  set (win := PW pt pb pl pr kh kw sh sw).
  assert (Ty : (t_dtype x =? 10) || (t_dtype x =? 11) = true) by (destruct Tx as [E|E]; rewrite E; reflexivity).
  set (cell := match pad with White => avg_white_cell zero add div | _ => avg_cell zero add div end).
  assert (Ecore : pool_core ltb zero add div (t_dtype x =? 10) AvgPool pad (t_data x) win n c h w oh ow = SOk (plain cell (t_data x) win n c h w oh ow)).
  { unfold pool_core, cell. destruct Pd as [-> | ->]; reflexivity. }
  assert (Cell : forall b ch i j, 0 <= b < n -> 0 <= ch < c -> 0 <= i < oh -> 0 <= j < ow ->
    cell (fun p => load (t_data x) ((b * c + ch) * (h * w) + p)) h w win i j =
    SOk (let vs := window_values x h w b ch (i * sh - pt) (j * sw - pl) kh kw in match pad with
        | White => div (fold_left add vs zero) (kh * kw)
        | _ => match vs with [] => zero | _ => div (fold_left add vs zero) (Z.of_nat (length vs)) end
        end)).
  { intros b ch i j Hb Hch Hi Hj. destruct (pv_channel x n c h w b ch W Sx Hb Hch) as (val & V1 & V2).
    assert (Ev : map (fun p => val (fst p * w + snd p)) (cells h w (i * sh - pt) (j * sw - pl) kh kw) = window_values x h w b ch (i * sh - pt) (j * sw - pl) kh kw).
    { unfold window_values. apply map_ext_in. intros [y z] Hin. apply In_cells in Hin. cbn [fst snd]. apply V2; lia. }
    assert (R : forall y z, In (y, z) (cells h w (i * s_h win - p_top win) (j * s_w win - p_left win) (k_h win) (k_w win)) ->
       load (t_data x) ((b * c + ch) * (h * w) + (y * w + z)) = SOk (val (y * w + z))).
    { intros y z Hin. apply In_cells in Hin. apply V1; lia. }
    unfold cell. cbv zeta. destruct Pd as [-> | ->].
    - rewrite (avg_cell_ok zero add div _ val w win h i j) by (cbn [win k_h k_w]; (lia || exact R)).
      cbn [win k_h k_w s_h s_w p_top p_left]. rewrite Ev. f_equal.
      assert (El : length (cells h w (i * sh - pt) (j * sw - pl) kh kw) = length (window_values x h w b ch (i * sh - pt) (j * sw - pl) kh kw)) by (unfold window_values; now rewrite map_length).
      rewrite El. destruct (window_values x h w b ch (i * sh - pt) (j * sw - pl) kh kw); reflexivity.
    - rewrite (avg_white_cell_ok zero add div _ val w win h i j) by (cbn [win k_h k_w]; (lia || exact R)).
      cbn [win k_h k_w s_h s_w p_top p_left]. rewrite Ev. reflexivity. }
  destruct (plain_ok cell (t_data x) win n c h w oh ow Hn Hc) as (out & Ex & L & P); [lia|lia| |].
  { intros b ch i j Hb Hch Hi Hj. eexists. now apply Cell. }
  exists (Tn (t_dtype x) [n; c; oh; ow] out).
  split; [|split; [split; [repeat constructor; (assumption || lia)|exact L]|split; [reflexivity|split; [reflexivity|]]]].
  - unfold pool_run. rewrite Sx, Ty. cbn [negb]. rewrite Ecore. cbn [bind]. rewrite Ex. reflexivity.
  - intros b ch i j Hb Hch Hi Hj. cbv zeta. destruct (P b ch i j Hb Hch Hi Hj) as (v & Ev & Ec). rewrite Cell in Ec by assumption. injection Ec as <-. exact Ev.
Qed.

(** When the windows overlap or touch and the padding is smaller than the
    kernel, all windows meet the image. *)
Theorem C93_windows_meet : forall x before after k s n, 1 <= x -> 0 <= before < k -> 1 <= s -> 0 <= after -> after + s <= k ->
  k <= x + before + after -> covering (x + before + after) k s n -> all_meet x before k s n.
Proof.
  intros x before after k s n Hx Hb Hs Ha Hk Hf (C1 & C2 & C3) i Hi.
  assert (i * s - before < x).
  { destruct (Z.eq_dec i 0) as [->|Hi0]; [lia|]. specialize (C3 ltac:(lia)). nia. }
  exists (Z.max 0 (i * s - before)). nia.
Qed.

(** Attributes on the batch or the channel axis, other ranks and other
    element types are refused. *)
Theorem C93_refused : forall ty pad padding ksize stride (x : tensor T),
  (exists i, (i < 4)%nat /\ nth i padding 0 <> 0) \/ nth 0 ksize 1 <> 1 \/ nth 1 ksize 1 <> 1 \/ nth 0 stride 1 <> 1 \/ nth 1 stride 1 <> 1 \/
  length (t_shape x) <> 4%nat ->
  pooling2d ltb zero add div true ty pad padding ksize stride x = SErr.
Proof.
  intros ty pad padding ksize stride x H. unfold pooling2d. destruct (pool_init true padding ksize stride) as [win|] eqn:E; [|reflexivity].
  unfold pool_init in E. destruct (Nat.eqb_spec (length padding) 8) as [L1|]; [|discriminate]. destruct (Nat.eqb_spec (length ksize) 4) as [L2|]; [|discriminate].
  destruct (Nat.eqb_spec (length stride) 4) as [L3|]; [|discriminate]. cbn [andb negb] in E.
  destruct (_ && _ && _ && _) eqn:E1 in E; [|discriminate]. cbn [negb] in E. destruct (_ && _) eqn:E2 in E; [|discriminate]. cbn [negb] in E.
  destruct (_ && _) eqn:E3 in E; [|discriminate]. rewrite !andb_true_iff, !Z.eqb_eq in *. destruct E1 as (((A0 & A1) & A2) & A3), E2 as (B0 & B1), E3 as (D0 & D1).
  destruct H as [(i & Hi & H)|[H|[H|[H|[H|H]]]]].
  - destruct i as [|[|[|[|]]]]; try contradiction; lia.
  - exfalso. apply H. rewrite <- B0 at 2. apply nth_indep. lia.
  - exfalso. apply H. rewrite <- B1 at 2. apply nth_indep. lia.
  - exfalso. apply H. rewrite <- D0 at 2. apply nth_indep. lia.
  - exfalso. apply H. rewrite <- D1 at 2. apply nth_indep. lia.
  - destruct (t_shape x) as [|? [|? [|? [|? [|]]]]]; try reflexivity. cbn in H. lia.
Qed.

(** C94: global pooling is pooling over the whole image. *)
Lemma cells_all h w : 0 <= h -> 0 <= w -> cells h w 0 0 h w = list_prod (upto h) (upto w).
Proof.
  intros Hh Hw. unfold cells. rewrite (filter_list_prod (fun y => (0 <=? y) && (y <? h)) (fun y => (0 <=? y) && (y <? w))).
  assert (E : forall n, 0 <= n -> filter (fun y => (0 <=? y) && (y <? n)) (map (Z.add 0) (upto n)) = upto n).
  { intros n Hn. assert (E0 : range 0 n = upto n) by (unfold range; replace (n - 0) with n by lia; rewrite (map_ext (Z.add 0) (fun x => x)) by (intros; lia); apply map_id).
    replace (map (Z.add 0) (upto n)) with (range 0 n) by (unfold range; do 2 f_equal; lia).
    rewrite (filter_range 0 n _ 0 n eq_refl). rewrite <- E0. f_equal; lia. }
  now rewrite !E.
Qed.

Lemma global_is ty (x : tensor T) n c h w : t_shape x = [n; c; h; w] -> wf x ->
  global_pooling2d ltb zero add div true ty x = pooling2d ltb zero add div true ty Black [0; 0; 0; 0; 0; 0; 0; 0] [1; 1; h; w] [1; 1; 1; 1] x.
Proof.
  intros Sx W. rewrite (pool_main true ty Black [0; 0; 0; 0; 0; 0; 0; 0] [1; 1; h; w] [1; 1; 1; 1] x n c h w 0 0 0 0 h w 1 1 1 1); auto; try lia.
  - unfold global_pooling2d. rewrite Sx. reflexivity.
  - repeat split; lia.
  - repeat split; lia.
Qed.

Theorem C94_global : forall (x : tensor T) n c h w, wf x -> t_dtype x = 10 \/ t_dtype x = 11 -> t_shape x = [n; c; h; w] -> 1 <= h -> 1 <= w ->
  let image b ch := map (fun p => value zero x [b; ch; fst p; snd p]) (list_prod (upto h) (upto w)) in
  (weak_order ltb -> exists out, global_pooling2d ltb zero add div true MaxPool x = SOk (filled out) /\ wf out /\ t_dtype out = t_dtype x /\ t_shape out = [n; c; 1; 1] /\
    forall b ch, 0 <= b < n -> 0 <= ch < c -> exists v, elt out [b; ch; 0; 0] = Some v /\ greatest ltb v (image b ch)) /\
  exists out, global_pooling2d ltb zero add div true AvgPool x = SOk (filled out) /\ wf out /\ t_dtype out = t_dtype x /\ t_shape out = [n; c; 1; 1] /\
    forall b ch, 0 <= b < n -> 0 <= ch < c -> elt out [b; ch; 0; 0] = Some (div (fold_left add (image b ch) zero) (h * w)).
Proof.
  intros x n c h w W Tx Sx Hh Hw image.
  assert (Cv : forall k, 1 <= k -> covering (k + 0 + 0) k 1 1) by (intros k Hk; repeat split; lia).
  assert (Im : forall b ch, window_values x h w b ch (0 * 1 - 0) (0 * 1 - 0) h w = image b ch).
  { intros b ch. unfold window_values. change (0 * 1 - 0) with 0. rewrite cells_all by lia. reflexivity. }
  split.
  - intros wo. rewrite (global_is MaxPool x n c h w Sx W).
    destruct (C93_max_partial wo Black [0; 0; 0; 0; 0; 0; 0; 0] [1; 1; h; w] [1; 1; 1; 1] x n c h w 0 0 0 0 h w 1 1 1 1) as (out & E & Wo & To & So & P); auto; try lia.
    + intros i Hi. exists 0. lia.
    + intros i Hi. exists 0. lia.
    + exists out. split; [exact E|]. split; [exact Wo|]. split; [exact To|]. split; [exact So|]. intros b ch Hb Hch.
      destruct (P b ch 0 0 Hb Hch ltac:(lia) ltac:(lia)) as (v & Ev & G). exists v. split; [exact Ev|]. now rewrite Im in G.
  - rewrite (global_is AvgPool x n c h w Sx W).
    destruct (C93_average Black [0; 0; 0; 0; 0; 0; 0; 0] [1; 1; h; w] [1; 1; 1; 1] x n c h w 0 0 0 0 h w 1 1 1 1) as (out & E & Wo & To & So & P); auto; try lia.
    exists out. split; [exact E|]. split; [exact Wo|]. split; [exact To|]. split; [exact So|]. intros b ch Hb Hch.
    pose proof (P b ch 0 0 Hb Hch ltac:(lia) ltac:(lia)) as Ev. cbv zeta in Ev. rewrite Im in Ev. rewrite Ev. f_equal.
    assert (L : Z.of_nat (length (image b ch)) = h * w).
    { unfold image. rewrite map_length, prod_length, !length_upto. lia. }
    destruct (image b ch) as [|v l] eqn:Ei; [cbn in L; nia|]. now rewrite L.
Qed.
End Props.

(** C93 fails when a window lies outside the image: 1x1 windows every second
    element of a row of four give three, and the last is read behind the
    image. *)
Theorem C93_outside_refuted :
  pooling2d Z.ltb 0 Z.add Z.div true MaxPool Black [0; 0; 0; 0; 0; 0; 0; 0] [1; 1; 1; 1] [1; 1; 1; 2] (Tn 10 [1; 1; 1; 4] [1; 2; 3; 4]) = SUndef.
Proof. vm_compute. reflexivity. Qed.
(** C93 fails for 3x3 windows of stride two on an image of one row and one
    column with padding one: the kernel reads past the image. *)
Theorem C93_one_refuted :
  pooling2d Z.ltb 0 Z.add Z.div true MaxPool Black [0; 0; 0; 0; 1; 1; 1; 1] [1; 1; 3; 3] [1; 1; 2; 2] (Tn 10 [1; 1; 1; 1] [5]) = SUndef.
Proof. vm_compute. reflexivity. Qed.
(** C93 fails for double and 2x2 windows of stride two: the output is not
    written. *)
Theorem C93_double_refuted :
  pooling2d Z.ltb 0 Z.add Z.div true MaxPool Black [0; 0; 0; 0; 0; 0; 0; 0] [1; 1; 2; 2] [1; 1; 2; 2] (Tn 11 [1; 1; 2; 2] [1; 2; 3; 4])
  = SOk (Tn 11 [1; 1; 1; 1] [None]).
Proof. vm_compute. reflexivity. Qed.

(** 3x3 windows, stride two, padding one before and none after, 3 x 11 *)
Theorem C93_example :
  pooling2d Z.ltb 0 Z.add Z.div true MaxPool Black [0; 0; 0; 0; 1; 0; 1; 0] [1; 1; 3; 3] [1; 1; 2; 2]
    (Tn 10 [1; 1; 3; 11] [1; 9; 2; 8; 3; 7; 4; 6; 5; 0; 1;  4; 4; 4; 4; 4; 4; 4; 4; 4; 4; 4;  0; 0; 30; 0; 0; 0; 0; 0; 0; 0; 20])
  = SOk (Tn 10 [1; 1; 2; 6] (map Some [9; 9; 8; 7; 6; 4; 4; 30; 4; 4; 4; 20])) /\
  pooling2d Z.ltb 0 Z.add Z.div true AvgPool Black [0; 0; 0; 0; 1; 1; 1; 1] [1; 1; 2; 2] [1; 1; 2; 2] (Tn 11 [1; 1; 2; 2] [10; 20; 30; 41])
  = SOk (Tn 11 [1; 1; 2; 2] (map Some [10; 20; 30; 41])).
Proof. vm_compute. split; reflexivity. Qed.

Print Assumptions C93_max_partial.
Print Assumptions C93_average.
Print Assumptions C93_windows_meet.
Print Assumptions C93_refused.
Print Assumptions C94_global.
Print Assumptions C93_outside_refuted.
Print Assumptions C93_one_refuted.
Print Assumptions C93_double_refuted.
Print Assumptions C93_example.
