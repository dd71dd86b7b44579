(** C117-C120: resizing images. *)
From Coq Require Import List ZArith QArith Qabs Qround Bool Lia Lqa.
From Verif Require Import ShapeModel ShapeSpec ShapeProofs KernelBase KernelSpec KernelProofs LoopModel LoopProofs ConvProofs WinogradProofs TileModel ResizeModel ResizeSpec ResizeProofs.
Import ListNotations.
Local Open Scope Z_scope.

(** ** Which axes *)
(** an entry that leaves its axis alone *)
Definition same_axis (a b : Z) : Prop := b < 0 \/ (b = a /\ b <> 0).
Lemma kept_spec : forall shape size, length shape = length size -> kept shape size = true <-> Forall2 (fun a b => b < 0 \/ b = a) shape size.
Proof.
  induction shape as [|a shape IH]; intros [|b size] L; try discriminate; cbn [kept]; [split; constructor|].
  rewrite andb_true_iff, orb_true_iff, Z.eqb_eq, Z.ltb_lt, IH by (injection L; auto). split.
  - intros [H1 H2]. constructor; [lia|exact H2].
  - intros H. inversion H as [|? ? ? ? H1 H2]; subst. split; [lia|exact H2].
Qed.
Lemma rest_kept_spec : forall shape size, length shape = length size -> rest_kept shape size = true <-> Forall2 same_axis shape size.
Proof.
  induction shape as [|a shape IH]; intros [|b size] L; try discriminate; cbn [rest_kept]; [split; constructor|].
  rewrite !andb_true_iff, orb_true_iff, negb_true_iff, Z.eqb_neq, Z.eqb_eq, Z.ltb_lt, IH by (injection L; auto). unfold same_axis. split.
  - intros [H1 H2]. constructor; [lia|exact H2].
  - intros H. inversion H as [|? ? ? ? H1 H2]; subst. split; [lia|exact H2].
Qed.
Lemma asked_same : forall shape size, Forall2 (fun a b => b < 0 \/ b = a) shape size -> asked shape size = shape.
Proof.
  induction 1 as [|a b shape size H F IH]; [reflexivity|]. unfold asked in *. cbn [combine map fst snd]. rewrite IH. f_equal.
  destruct (Z.ltb_spec b 0); [reflexivity|]. destruct H as [H|H]; [lia|exact H].
Qed.
Lemma asked_app : forall a c b d, length a = length c -> asked (a ++ b) (c ++ d) = asked a c ++ asked b d.
Proof.
  unfold asked. induction a as [|x a IH]; intros [|y c] b d L; try discriminate; [reflexivity|]. cbn [app combine map fst snd]. rewrite IH by now injection L. reflexivity.
Qed.

Lemma set_two (lead : list Z) h w tail h' w' : set_nth (S (length lead)) w' (set_nth (length lead) h' (lead ++ h :: w :: tail)) = lead ++ h' :: w' :: tail.
Proof. induction lead as [|a lead IH]; [reflexivity|]. change (a :: set_nth (S (length lead)) w' (set_nth (length lead) h' (lead ++ h :: w :: tail)) = a :: (lead ++ h' :: w' :: tail)). now rewrite IH. Qed.
Lemma nth_mid (lead : list Z) a tail : nth (length lead) (lead ++ a :: tail) 0 = a.
Proof. rewrite app_nth2, Nat.sub_diag by lia. reflexivity. Qed.
Lemma nth_mid2 (lead : list Z) a b tail : nth (S (length lead)) (lead ++ a :: b :: tail) 0 = b.
Proof. rewrite app_nth2 by lia. replace (S (length lead) - length lead)%nat with 1%nat by lia. reflexivity. Qed.
Lemma skip_two (lead : list Z) a b tail : skipn (length lead + 2) (lead ++ a :: b :: tail) = tail.
Proof. induction lead as [|x lead IH]; [reflexivity|exact IH]. Qed.
Lemma first_lead (lead : list Z) t : firstn (length lead) (lead ++ t) = lead.
Proof. induction lead as [|x lead IH]; [now destruct t|]. cbn. now rewrite IH. Qed.

Lemma find_height_inv : forall shape size i0 i, length shape = length size -> find_height i0 shape size = Some i ->
  exists lead h rest ls h' srest, shape = lead ++ h :: rest /\ size = ls ++ h' :: srest /\ length lead = length ls /\ i = (i0 + length lead)%nat /\ 0 < h' /\
    Forall2 (fun a b => b < 0 \/ b = a) lead ls.
Proof.
  induction shape as [|a shape IH]; intros [|b size] i0 i L H; try discriminate. cbn [find_height] in H. injection L as L.
  destruct (Z.eqb_spec b 0) as [|N0]; [discriminate|]. destruct (Z.ltb_spec b 0) as [Hb|Hb].
  - apply IH in H; [|exact L]. destruct H as (lead & h & rest & ls & h' & srest & -> & -> & El & -> & P & F).
    exists (a :: lead), h, rest, (b :: ls), h', srest. cbn [length app]. split; [reflexivity|]. split; [reflexivity|]. split; [lia|]. split; [lia|]. split; [exact P|]. constructor; [lia|exact F].
  - destruct ((a =? b) && negb _) eqn:E.
    + apply andb_true_iff in E. destruct E as [E _]. apply Z.eqb_eq in E. apply IH in H; [|exact L]. destruct H as (lead & h & rest & ls & h' & srest & -> & -> & El & -> & P & F).
      exists (a :: lead), h, rest, (b :: ls), h', srest. cbn [length app]. split; [reflexivity|]. split; [reflexivity|]. split; [lia|]. split; [lia|]. split; [exact P|]. constructor; [lia|exact F].
    + injection H as <-. exists [], a, shape, [], b, size. cbn. split; [reflexivity|]. split; [reflexivity|]. split; [reflexivity|]. split; [lia|]. split; [lia|constructor].
Qed.
Lemma check_outputs_inv shape size i ready out : check_outputs shape size = SOk (i, ready, out) ->
  exists lead h w tail h' w', shape = lead ++ h :: w :: tail /\ length size = length shape /\ asked shape size = lead ++ h' :: w' :: tail /\ 0 < h' /\ 0 < w' /\
    i = length lead /\ out = lead ++ h' :: w' :: tail /\ ready = (h =? h') && (w =? w').
Proof.
  unfold check_outputs. destruct (Nat.eqb_spec (length shape) (length size)) as [L|]; cbn [andb negb]; [|discriminate].
  destruct (Nat.leb_spec 2 (length size)) as [_|]; cbn [negb]; [|discriminate].
  unfold find_resized_height_dim. destruct (find_height 0 shape size) as [j|] eqn:Ef; [|discriminate].
  apply find_height_inv in Ef; [|exact L]. destruct Ef as (lead & h & rest & ls & h' & srest & -> & -> & El & -> & P & F). cbn [Nat.add].
  destruct rest as [|w tail].
  { rewrite !app_length in L. cbn [length] in L. assert (srest = []) by (destruct srest; [reflexivity|cbn in L; lia]). subst srest.
    rewrite app_length. cbn [length]. rewrite (proj2 (Nat.leb_le _ _)) by lia. discriminate. }
  destruct srest as [|w' stail]. { rewrite !app_length in L. cbn [length] in L. lia. }
  assert (Lt : length tail = length stail) by (rewrite !app_length in L; cbn [length] in L; lia).
  rewrite El, nth_mid2, skip_two, <- El, skip_two. rewrite (proj2 (Nat.leb_gt _ _)) by (rewrite app_length; cbn [length]; lia). cbn [orb].
  destruct (Z.leb_spec w' 0) as [|Hw]; [discriminate|]. destruct (rest_kept tail stail) eqn:R; [|discriminate].
  apply rest_kept_spec in R; [|exact Lt]. intros H. rewrite nth_mid, nth_mid2, set_two in H. rewrite El, nth_mid, nth_mid2 in H. rewrite <- El in H.
  apply (f_equal (fun r => match r with SOk p => p | _ => (0%nat, false, []) end)) in H. apply pair_equal_spec in H. destruct H as [H <-]. apply pair_equal_spec in H. destruct H as [<- <-].
  exists lead, h, w, tail, h', w'. split; [reflexivity|]. split; [now symmetry|]. split.
  { rewrite asked_app by exact El. rewrite (asked_same lead ls F). f_equal. unfold asked. cbn [combine map fst snd]. rewrite !(proj2 (Z.ltb_ge _ _)) by lia. do 2 f_equal.
    apply asked_same. clear - R. induction R; constructor; auto. destruct H as [|[-> _]]; auto. }
  split; [lia|]. split; [lia|]. split; [lia|]. auto.
Qed.

(** the request names one pair of neighbouring axes: all other entries are
    negative, or they repeat the size and both named axes change *)
Definition names_axes (lead : list Z) (h w : Z) (tail ls : list Z) (h' w' : Z) (ts : list Z) : Prop :=
  0 < h' /\ 0 < w' /\ Forall2 same_axis lead ls /\ Forall2 same_axis tail ts /\
  ((Forall (fun b => b < 0) ls /\ Forall (fun b => b < 0) ts) \/ (h <> h' /\ w <> w')).
Lemma kept_false l1 l2 w w' t t' : length l1 = length l2 -> length t = length t' -> w <> w' -> 0 < w' -> kept (l1 ++ w :: t) (l2 ++ w' :: t') = false.
Proof.
  intros L1 L2 N P. destruct (kept (l1 ++ w :: t) (l2 ++ w' :: t')) eqn:E; [|reflexivity]. exfalso. apply kept_spec in E; [|rewrite !app_length; cbn [length]; lia].
  apply Forall2_app_inv_l in E. destruct E as (a & b & E1 & E2 & E). inversion E2 as [|? y ? b' Hy F]; subst.
  assert (La : length l2 = length a) by (rewrite <- L1; clear - E1; induction E1; cbn; auto).
  assert (w' = y). { clear - E La. revert a La E. induction l2 as [|x l2 IH]; intros [|z a] La E; try discriminate; [now injection E|]. apply (IH a); [now injection La|now injection E]. }
  subst y. lia.
Qed.
Lemma F2_length {B C} (R : B -> C -> Prop) a b : Forall2 R a b -> length a = length b.
Proof. induction 1; cbn; auto. Qed.
Lemma check_outputs_ok lead h w tail ls h' w' ts : names_axes lead h w tail ls h' w' ts ->
  check_outputs (lead ++ h :: w :: tail) (ls ++ h' :: w' :: ts) = SOk (length lead, (h =? h') && (w =? w'), lead ++ h' :: w' :: tail).
Proof.
  intros (Hh & Hw & Fl & Ft & C). pose proof (F2_length _ _ _ Fl) as Ll. pose proof (F2_length _ _ _ Ft) as Lt.
  assert (Fh : forall i, find_height i (lead ++ h :: w :: tail) (ls ++ h' :: w' :: ts) = Some (i + length lead)%nat).
  { assert (Cl : Forall (fun b => b < 0) ls \/ (h <> h' /\ w <> w')) by tauto.
    assert (Ct : Forall (fun b => b < 0) ts \/ h <> h') by tauto. clear C. induction Fl as [|a b lead ls Hab Fl IH]; intros i.
    - cbn [app find_height length]. rewrite (proj2 (Z.eqb_neq _ _)), (proj2 (Z.ltb_ge _ _)) by lia. rewrite Nat.add_0_r. cbn [tl].
      destruct Ct as [Ct|Ct]; [|now rewrite (proj2 (Z.eqb_neq _ _) Ct)].
      assert (K : kept tail ts = true).
      { apply kept_spec; [exact Lt|]. clear - Ct Ft. induction Ft; constructor; inversion Ct; subst; auto. }
      now rewrite K, andb_false_r.
    - cbn [app find_height length]. cbn [length] in Ll. rewrite Nat.add_succ_r, <- Nat.add_succ_l. assert (Nb : b <> 0) by (destruct Hab; lia). rewrite (proj2 (Z.eqb_neq _ _) Nb).
      assert (Cl' : Forall (fun b => b < 0) ls \/ (h <> h' /\ w <> w')) by (destruct Cl as [Cl|Cl]; [left; now inversion Cl|now right]).
      specialize (IH ltac:(lia) Cl' (S i)). destruct (Z.ltb_spec b 0) as [|Hb]; [exact IH|].
      destruct Cl as [Cl|[Ch Cw]]; [inversion Cl; lia|].
      assert (E : a = b) by (destruct Hab as [|[]]; lia). rewrite E, Z.eqb_refl. cbn [andb].
      assert (K : kept (tl (lead ++ h :: w :: tail)) (tl (ls ++ h' :: w' :: ts)) = false).
      { destruct lead as [|a0 lead]; destruct ls as [|b0 ls]; cbn [length] in Ll; try lia; cbn [app tl]; [now apply (kept_false [] [])|].
        change (lead ++ h :: w :: tail) with (lead ++ [h] ++ w :: tail). change (ls ++ h' :: w' :: ts) with (ls ++ [h'] ++ w' :: ts). rewrite !app_assoc. apply kept_false; auto. rewrite !app_length. cbn [length]. lia. }
      rewrite K. exact IH. }
  unfold check_outputs. rewrite !app_length. cbn [length]. rewrite Ll, Lt, Nat.eqb_refl, (proj2 (Nat.leb_le _ _)) by lia. cbn [andb negb].
  unfold find_resized_height_dim. rewrite Fh. cbn [Nat.add]. rewrite Ll, nth_mid2, skip_two, <- Ll, skip_two.
  rewrite (proj2 (Nat.leb_gt _ _)), (proj2 (Z.leb_gt _ _)) by (rewrite ?app_length; cbn [length]; lia). cbn [orb].
  rewrite (proj2 (rest_kept_spec tail ts Lt) Ft). rewrite nth_mid, nth_mid2. rewrite Ll, nth_mid, nth_mid2, <- Ll, set_two. reflexivity.
Qed.

(** ** C117: a resize changes two neighbouring axes to the sizes asked for. *)
(** Whatever the kernel and the request: an output has the shape asked for, which
    differs from that of the input on two neighbouring axes at most. *)
Theorem C117_shape {A} (to_q : A -> Q) cast type size (x : tensor A) out : resize2d to_q cast type size x = SOk out ->
  t_dtype out = t_dtype x /\ length size = length (t_shape x) /\ t_shape out = asked (t_shape x) size /\
  exists lead h w tail h' w', t_shape x = lead ++ h :: w :: tail /\ t_shape out = lead ++ h' :: w' :: tail /\ 0 < h' /\ 0 < w'.
Proof.
  unfold resize2d. destruct (check_outputs (t_shape x) size) as [[[i ready] o]| |] eqn:E; try discriminate.
  apply check_outputs_inv in E. destruct E as (lead & h & w & tail & h' & w' & Es & Ls & Ea & Hh & Hw & -> & -> & ->).
  destruct ((h =? h') && (w =? w')) eqn:R.
  - apply andb_true_iff in R. destruct R as [R1 R2]. apply Z.eqb_eq in R1, R2. subst h' w'. intros H. injection H as <-. cbn [t_dtype t_shape].
    split; [reflexivity|]. split; [exact Ls|]. split; [congruence|]. exists lead, h, w, tail, h, w. rewrite <- Es. auto.
  - destruct (negb (tile_supports (t_dtype x))); [discriminate|]. destruct (exec _ _); try discriminate. intros H. injection H as <-. cbn [t_dtype t_shape].
    split; [reflexivity|]. split; [exact Ls|]. split; [congruence|]. exists lead, h, w, tail, h', w'. auto.
Qed.
(** Sizes already as asked: the input is the output. *)
Theorem C117_unchanged {A} (to_q : A -> Q) cast type dt data lead h w tail ls ts : names_axes lead h w tail ls h w ts ->
  resize2d to_q cast type (ls ++ h :: w :: ts) (Tn dt (lead ++ h :: w :: tail) data) = SOk (filled (Tn dt (lead ++ h :: w :: tail) data)).
Proof. intros N. unfold resize2d. cbn [t_shape]. rewrite (check_outputs_ok _ _ _ _ _ _ _ _ N), !Z.eqb_refl. reflexivity. Qed.
(** A zero, a wrong number of entries, or changes on axes that are not two neighbours are refused. *)
Theorem C117_refused {A} (to_q : A -> Q) cast type size (x : tensor A) :
  (length size <> length (t_shape x) \/
   ~ exists lead h w tail h' w', t_shape x = lead ++ h :: w :: tail /\ asked (t_shape x) size = lead ++ h' :: w' :: tail /\ 0 < h' /\ 0 < w') ->
  resize2d to_q cast type size x = SErr.
Proof.
  intros H. unfold resize2d. destruct (check_outputs (t_shape x) size) as [[[i ready] o]| |] eqn:E; [|reflexivity|].
  - exfalso. apply check_outputs_inv in E. destruct E as (lead & h & w & tail & h' & w' & Es & Ls & Ea & Hh & Hw & _).
    destruct H as [H|H]; [contradiction|]. apply H. exists lead, h, w, tail, h', w'. auto.
  - exfalso. unfold check_outputs in E. destruct (negb _); [discriminate|]. destruct (find_resized_height_dim _ _); discriminate.
Qed.
Print Assumptions C117_shape.
Print Assumptions C117_unchanged.
Print Assumptions C117_refused.

(** ** The kernels *)
Lemma pixel_place lead h w tail r y x t : length lead = length r -> length tail = length t ->
  position (lead ++ h :: w :: tail) (r ++ y :: x :: t) = position lead r * (elements tail * h * w) + ((y * w + x) * elements tail + position tail t).
Proof. intros L1 L2. rewrite position_app by exact L1. cbn [position elements]. ring. Qed.
Lemma pixel_inside lead h w tail c : inside (lead ++ h :: w :: tail) c -> exists r y x t, c = r ++ y :: x :: t /\ inside lead r /\ 0 <= y < h /\ 0 <= x < w /\ inside tail t.
Proof.
  intros H. apply inside_app_inv in H. destruct H as (r & z & -> & H1 & H2). inversion H2 as [|? y ? z' Hy H3]; subst. inversion H3 as [|? x ? t Hx H4]; subst. exists r, y, x, t. auto.
Qed.
Lemma in_pixel lead h w tail r y x t : inside lead r -> 0 <= y < h -> 0 <= x < w -> inside tail t -> inside (lead ++ h :: w :: tail) (r ++ y :: x :: t).
Proof. intros. apply inside_app; [assumption|]. constructor; [assumption|]. constructor; assumption. Qed.

Section Kernel.
Context {A : Type}.
Variable to_q : A -> Q.
Variable cast : Q -> A.
Lemma resize_elements type (x : tensor A) lead h w tail ls h' w' ts : wf x -> t_shape x = lead ++ h :: w :: tail -> names_axes lead h w tail ls h' w' ts ->
  h <> h' \/ w <> w' -> tile_supports (t_dtype x) = true ->
  (forall at_ v y x0, (forall sy sx, 0 <= sy < h -> 0 <= sx < w -> at_ sy sx = SOk (v sy sx)) -> 0 <= y < h' -> 0 <= x0 < w' -> exists a : A, pixel to_q cast type h w h' w' at_ y x0 = SOk a) ->
  exists out, resize2d to_q cast type (ls ++ h' :: w' :: ts) x = SOk (filled out) /\ wf out /\ t_dtype out = t_dtype x /\ t_shape out = lead ++ h' :: w' :: tail /\
    forall r y x0 t, inside lead r -> 0 <= y < h' -> 0 <= x0 < w' -> inside tail t ->
      exists at_, (forall sy sx a, 0 <= sy < h -> 0 <= sx < w -> at_ sy sx = SOk a <-> elt x (r ++ sy :: sx :: t) = Some a) /\
        (forall sy sx, 0 <= sy < h -> 0 <= sx < w -> exists a, at_ sy sx = SOk a) /\
        forall a, pixel to_q cast type h w h' w' at_ y x0 = SOk a -> elt out (r ++ y :: x0 :: t) = Some a.
Proof.
  intros [Nx Lx] Es Na Ch Sup Px. pose proof Na as (Hh & Hw & _). rewrite Es in Nx, Lx. apply Forall_app in Nx. destruct Nx as [Nl Nt]. inversion Nt as [|? ? H0 Nt1]; subst. inversion Nt1 as [|? ? H1 Nt2]; subst. clear Nt Nt1.
  set (ch := elements tail) in *. set (num := elements lead).
  assert (Hc : 0 <= ch) by now apply elements_nonneg. assert (Hn : 0 <= num) by now apply elements_nonneg.
  assert (El : elements (lead ++ h :: w :: tail) = elements [num; h; w; ch]) by (rewrite elements_app; cbn [elements]; fold ch num; ring).
  assert (Rd : forall k sy sx c, 0 <= k < num -> 0 <= sy < h -> 0 <= sx < w -> 0 <= c < ch ->
            0 <= k * (ch * h * w) + ((sy * w + sx) * ch + c) < Z.of_nat (length (t_data x))).
  { intros k sy sx c Hk Hsy Hsx Hcc. rewrite Lx, El. pose proof (position_bound _ _ (in_4 num h w ch k sy sx c Hk Hsy Hsx Hcc)) as B. cbn [position elements] in B |- *.
    replace (k * (ch * h * w) + ((sy * w + sx) * ch + c)) with (k * (h * (w * (ch * 1))) + (sy * (w * (ch * 1)) + (sx * (ch * 1) + (c * 1 + 0)))) by ring. exact B. }
  set (rd k c := fun sy sx => load (t_data x) (k * (ch * h * w) + ((sy * w + sx) * ch + c))).
  assert (Dx : forall k y x0 c, 0 <= k < num -> 0 <= y < h' -> 0 <= x0 < w' -> 0 <= c < ch -> exists a, pixel to_q cast type h w h' w' (rd k c) y x0 = SOk a).
  { intros k y x0 c Hk Hy Hx Hcc. apply (Px (rd k c) (fun sy sx => match rd k c sy sx with SOk a => a | _ => cast 0%Q end)); auto.
    intros sy sx Hsy Hsx. unfold rd. destruct (load_ok (t_data x) _ (Rd k sy sx c Hk Hsy Hsx Hcc)) as (a & -> & _). reflexivity. }
  set (P i := match i with [k; y; x0; c] => pixel to_q cast type h w h' w' (rd k c) y x0 | _ => SUndef end).
  set (g i := match P i with SOk a => a | _ => cast 0%Q end).
  assert (Eo : elements (lead ++ h' :: w' :: tail) = elements [num; h'; w'; ch]) by (rewrite elements_app; cbn [elements]; fold ch num; ring).
  destruct (grid (elements (lead ++ h' :: w' :: tail)) [num; h'; w'; ch] g (resize_events to_q cast type (t_data x) num h w h' w' ch)) as (o & Ex & Lo & Go).
  - repeat (constructor; [lia|]). constructor.
  - exact Eo.
  - intros d v Hd. unfold resize_events in Hd. apply in_map_iff in Hd. destruct Hd as (i & E & Hi). apply In_loops in Hi. pose proof Hi as Hi'. apply inside_4 in Hi'. destruct Hi' as (k & y & x0 & c & -> & Hk & Hy & Hx & Hcc).
    apply pair_equal_spec in E. destruct E as [<- <-]. exists [k; y; x0; c]. split; [exact Hi|]. split; [cbn [position elements]; ring|]. unfold g, P.
    destruct (Dx k y x0 c Hk Hy Hx Hcc) as [a Ea]. rewrite Ea. unfold rd in Ea. exact Ea.
  - intros i Hi. pose proof Hi as Hi'. apply inside_4 in Hi'. destruct Hi' as (k & y & x0 & c & -> & Hk & Hy & Hx & Hcc). eexists. unfold resize_events. apply in_map_iff. exists [k; y; x0; c]. split; [|now apply In_loops].
    apply pair_equal_spec. split; [cbn [position elements]; ring|reflexivity].
  - exists (Tn (t_dtype x) (lead ++ h' :: w' :: tail) o). split; [|split; [|split; [reflexivity|split; [reflexivity|]]]].
    + unfold resize2d. rewrite Es, (check_outputs_ok _ _ _ _ _ _ _ _ Na).
      assert (Er : (h =? h') && (w =? w') = false) by (destruct (Z.eqb_spec h h'), (Z.eqb_spec w w'); cbn; auto; lia). rewrite Er, Sup. cbn [negb].
      rewrite !prod_elements, first_lead, skip_two, !nth_mid, !nth_mid2. fold ch num. rewrite Ex. reflexivity.
    + split; cbn [t_shape t_data]; [apply Forall_app; split; [exact Nl|]; constructor; [lia|]; constructor; [lia|exact Nt2]|]. rewrite Lo. now symmetry.
    + intros r y x0 t Hr Hy Hx Ht. pose proof (inside_length _ _ Hr) as Lr. pose proof (inside_length _ _ Ht) as Ltt. pose proof (position_bound _ _ Hr) as Br. pose proof (position_bound _ _ Ht) as Bt. fold num in Br. fold ch in Bt.
      exists (rd (position lead r) (position tail t)). split; [|split].
      * intros sy sx a Hsy Hsx. unfold rd, elt. rewrite Es, pixel_place by auto. fold ch. destruct (load_ok (t_data x) _ (Rd _ _ _ _ Br Hsy Hsx Bt)) as (b & -> & ->). split; congruence.
      * intros sy sx Hsy Hsx. unfold rd. destruct (load_ok (t_data x) _ (Rd _ _ _ _ Br Hsy Hsx Bt)) as (b & -> & _). eauto.
      * intros a Ea. destruct (Go [position lead r; y; x0; position tail t] (in_4 _ _ _ _ _ _ _ _ Br Hy Hx Bt)) as [G _]. unfold elt. cbn [t_shape t_data]. rewrite pixel_place by auto. fold ch.
        cbn [position elements] in G. unfold g, P in G. rewrite Ea in G. rewrite <- G. f_equal. f_equal. ring.
Qed.
End Kernel.

(** ** C118: nearest and hard resizing copy pixels. *)
Theorem C118_nearest {A} (to_q : A -> Q) cast type (x : tensor A) lead h w tail ls h' w' ts : type <> 0 -> type <> 1 -> type <> 3 ->
  wf x -> t_shape x = lead ++ h :: w :: tail -> 0 < h -> 0 < w -> names_axes lead h w tail ls h' w' ts -> h <> h' \/ w <> w' -> tile_supports (t_dtype x) = true ->
  exists out, resize2d to_q cast type (ls ++ h' :: w' :: ts) x = SOk (filled out) /\ wf out /\ t_dtype out = t_dtype x /\ t_shape out = lead ++ h' :: w' :: tail /\
    forall r y x0 t, inside lead r -> 0 <= y < h' -> 0 <= x0 < w' -> inside tail t ->
      exists sy sx, nearest_to h (source_position h h' y) sy /\ nearest_to w (source_position w w' x0) sx /\ elt out (r ++ y :: x0 :: t) = elt x (r ++ sy :: sx :: t).
Proof.
  intros T0 T1 T3 W Es Hh Hw Na Ch Sup. pose proof Na as (Hh' & Hw' & _).
  assert (Ep : forall at_ y x0, pixel to_q cast type h w h' w' at_ y x0 = at_ (nearest_index h h' y) (nearest_index w w' x0)).
  { intros. unfold pixel. rewrite (proj2 (Z.eqb_neq _ _) T0), (proj2 (Z.eqb_neq _ _) T1), (proj2 (Z.eqb_neq _ _) T3). reflexivity. }
  assert (Iy : forall y, 0 <= nearest_index h h' y < h) by (intros; now apply clamp_bounds). assert (Ix : forall y, 0 <= nearest_index w w' y < w) by (intros; now apply clamp_bounds).
  destruct (resize_elements to_q cast type x lead h w tail ls h' w' ts W Es Na Ch Sup) as (out & E & Wo & Do & So & P).
  { intros at_ v y x0 H _ _. rewrite Ep, H; eauto. }
  exists out. split; [exact E|]. split; [exact Wo|]. split; [exact Do|]. split; [exact So|]. intros r y x0 t Hr Hy Hx Ht.
  exists (nearest_index h h' y), (nearest_index w w' x0). split; [now apply nearest_index_ok|]. split; [now apply nearest_index_ok|].
  destruct (P r y x0 t Hr Hy Hx Ht) as (at_ & Q1 & Q2 & Q3). destruct (Q2 _ _ (Iy y) (Ix x0)) as (a & Ea).
  rewrite (Q3 a) by now rewrite Ep. symmetry. now apply Q1.
Qed.
Theorem C118_hard {A} (to_q : A -> Q) cast (x : tensor A) lead h w tail ls h' w' ts :
  wf x -> t_shape x = lead ++ h :: w :: tail -> 0 < h -> 0 < w -> names_axes lead h w tail ls h' w' ts -> h <> h' \/ w <> w' -> tile_supports (t_dtype x) = true ->
  exists out, resize2d to_q cast 3 (ls ++ h' :: w' :: ts) x = SOk (filled out) /\ wf out /\ t_dtype out = t_dtype x /\ t_shape out = lead ++ h' :: w' :: tail /\
    forall r y x0 t, inside lead r -> 0 <= y < h' -> 0 <= x0 < w' -> inside tail t ->
      elt out (r ++ y :: x0 :: t) = elt x (r ++ (y * h / h') :: (x0 * w / w') :: t).
Proof.
  intros W Es Hh Hw Na Ch Sup. pose proof Na as (Hh' & Hw' & _).
  assert (Ep : forall at_ y x0, pixel to_q cast 3 h w h' w' at_ y x0 = at_ (hard_index h h' y) (hard_index w w' x0)) by reflexivity.
  assert (Iy : forall y, 0 <= hard_index h h' y < h) by (intros; now apply clamp_bounds). assert (Ix : forall y, 0 <= hard_index w w' y < w) by (intros; now apply clamp_bounds).
  destruct (resize_elements to_q cast 3 x lead h w tail ls h' w' ts W Es Na Ch Sup) as (out & E & Wo & Do & So & P).
  { intros at_ v y x0 H _ _. rewrite Ep, H; eauto. }
  exists out. split; [exact E|]. split; [exact Wo|]. split; [exact Do|]. split; [exact So|]. intros r y x0 t Hr Hy Hx Ht.
  destruct (P r y x0 t Hr Hy Hx Ht) as (at_ & Q1 & Q2 & Q3). destruct (Q2 _ _ (Iy y) (Ix x0)) as (a & Ea).
  rewrite (Q3 a) by now rewrite Ep. symmetry. rewrite <- (hard_index_ok h h' y), <- (hard_index_ok w w' x0) by assumption. now apply Q1.
Qed.
Lemma nearest_self n d : 0 <= d < n -> nearest_to n (source_position n n d) d.
Proof.
  intros H. split; [exact H|]. intros t Ht. assert (E : (source_position n n d == inject_Z d)%Q).
  { unfold source_position. field. apply Qnot_eq_sym, Qlt_not_eq. change 0%Q with (inject_Z 0). apply inj_lt. lia. }
  rewrite E. assert (E0 : (inject_Z d - inject_Z d == 0)%Q) by ring. rewrite E0. change (Qabs 0) with 0%Q. apply Qabs_nonneg.
Qed.
Lemma set_pair lead h w tail sh sw : set_nth (Z.to_nat (Z.of_nat (length lead) + 1)) sw (set_nth (Z.to_nat (Z.of_nat (length lead))) sh (repeat (-1) (length (lead ++ h :: w :: tail : list Z))))
  = repeat (-1) (length lead) ++ sh :: sw :: repeat (-1) (length tail).
Proof.
  replace (Z.to_nat (Z.of_nat (length lead) + 1)) with (S (length lead)) by lia. rewrite Nat2Z.id, app_length, repeat_app. cbn [length repeat].
  rewrite <- (repeat_length (-1) (length lead)) at 1 2. apply set_two.
Qed.
Lemma minus_ones (l : list Z) : Forall2 same_axis l (repeat (-1) (length l)) /\ Forall (fun b => b < 0) (repeat (-1) (length l)).
Proof. induction l as [|a l [I1 I2]]; cbn [length repeat]; [split; constructor|]. split; constructor; auto; [left|]; lia. Qed.
(** resize_nearest_neighbor, given the first of the two axes and the two sizes *)
Theorem C118_resize_nearest_neighbor {A} (to_q : A -> Q) cast (x : tensor A) lead h w tail h' w' :
  wf x -> t_shape x = lead ++ h :: w :: tail -> 0 < h -> 0 < w -> 0 < h' -> 0 < w' -> tile_supports (t_dtype x) = true ->
  exists out, resize_nearest_neighbor to_q cast (Z.of_nat (length lead)) [h'; w'] x = SOk (filled out) /\ wf out /\ t_dtype out = t_dtype x /\ t_shape out = lead ++ h' :: w' :: tail /\
    forall r y x0 t, inside lead r -> 0 <= y < h' -> 0 <= x0 < w' -> inside tail t ->
      exists sy sx, nearest_to h (source_position h h' y) sy /\ nearest_to w (source_position w w' x0) sx /\ elt out (r ++ y :: x0 :: t) = elt x (r ++ sy :: sx :: t).
Proof.
  intros W Es Hh Hw Hh' Hw' Sup. unfold resize_nearest_neighbor. rewrite Es, app_length. cbn [length].
  rewrite (proj2 (Z.leb_le 0 _)), (proj2 (Z.leb_le (Z.of_nat (length lead)) _)), orb_true_r by lia. cbn [andb negb].
  rewrite (proj2 (Z.ltb_lt _ _)) by lia. rewrite (proj2 (Z.ltb_lt 0 h') Hh'), (proj2 (Z.ltb_lt 0 w') Hw'). cbn [andb negb].
  replace (length lead + S (S (length tail)))%nat with (length (lead ++ h :: w :: tail)) by (rewrite app_length; reflexivity). rewrite set_pair.
  assert (Na : names_axes lead h w tail (repeat (-1) (length lead)) h' w' (repeat (-1) (length tail))).
  { destruct (minus_ones lead), (minus_ones tail). split; [exact Hh'|]. split; [exact Hw'|]. auto. }
  destruct (Z.eq_dec h h') as [E1|N1]; [destruct (Z.eq_dec w w') as [E2|N2]|].
  - subst h' w'. exists x. split; [|split; [exact W|split; [reflexivity|split; [exact Es|]]]].
    + destruct x as [dt sh data]. cbn [t_shape] in Es. subst sh. now apply C117_unchanged.
    + intros r y x0 t Hr Hy Hx Ht. exists y, x0. split; [now apply nearest_self|]. split; [now apply nearest_self|reflexivity].
  - apply C118_nearest; auto; discriminate.
  - apply C118_nearest; auto; discriminate.
Qed.
Print Assumptions C118_nearest.
Print Assumptions C118_hard.
Print Assumptions C118_resize_nearest_neighbor.
Definition zq (v : Z) : Q := inject_Z v.
Definition qz_ (q : Q) : Z := truncate q.
Example C118_example : resize2d zq qz_ 2 [-1; 4; 2; -1] (Tn 2 [1; 2; 2; 1] [1; 2; 3; 4]) = SOk (filled (Tn 2 [1; 4; 2; 1] [1; 2; 1; 2; 3; 4; 3; 4])) /\
  resize2d zq qz_ 3 [3; 4] (Tn 2 [2; 2] [1; 2; 3; 4]) = SOk (filled (Tn 2 [3; 4] [1; 1; 2; 2; 1; 1; 2; 2; 3; 3; 4; 4])) /\
  names_axes [1] 2 2 [1] [-1] 4 2 [-1].
Proof.
  split; [reflexivity|]. split; [reflexivity|]. split; [lia|]. split; [lia|]. split; [repeat constructor|]. split; [repeat constructor|]. left. split; repeat constructor.
Qed.
(** An image without pixels is resized by reading outside of it. *)
Theorem C118_empty_refuted : exists (x : tensor Z), wf x /\ resize2d zq qz_ 2 [-1; 4; 2; -1] x = SUndef.
Proof. exists (Tn 2 [1; 0; 2; 1] []). split; [split; [repeat constructor; lia|reflexivity]|reflexivity]. Qed.
(** On a tensor with one axis resize_nearest_neighbor writes outside of its list of sizes. *)
Theorem C118_one_axis_refuted : exists (x : tensor Z), wf x /\ resize_nearest_neighbor zq qz_ 0 [4; 2] x = SUndef.
Proof. exists (Tn 2 [3] [1; 2; 3]). split; [split; [repeat constructor; lia|reflexivity]|reflexivity]. Qed.
Print Assumptions C118_empty_refuted.
Print Assumptions C118_one_axis_refuted.

(** ** C119: linear resizing. *)
(** Exact arithmetic; both source axes have at least two pixels. *)
Theorem C119_linear_partial {A} (to_q : A -> Q) cast (x : tensor A) lead h w tail ls h' w' ts : (forall p q, (p == q)%Q -> cast p = cast q) ->
  wf x -> t_shape x = lead ++ h :: w :: tail -> 2 <= h -> 2 <= w -> names_axes lead h w tail ls h' w' ts -> h <> h' \/ w <> w' -> tile_supports (t_dtype x) = true ->
  exists out, resize2d to_q cast 0 (ls ++ h' :: w' :: ts) x = SOk (filled out) /\ wf out /\ t_dtype out = t_dtype x /\ t_shape out = lead ++ h' :: w' :: tail /\
    forall r y x0 t, inside lead r -> 0 <= y < h' -> 0 <= x0 < w' -> inside tail t ->
      exists v py px, (forall sy sx, 0 <= sy < h -> 0 <= sx < w -> elt x (r ++ sy :: sx :: t) = Some (v sy sx)) /\
        linear_sample h (source_position h h' y) py /\ linear_sample w (source_position w w' x0) px /\
        (0 <= py < inject_Z (h - 1))%Q /\ (0 <= px < inject_Z (w - 1))%Q /\
        elt out (r ++ y :: x0 :: t) = Some (cast (interpolate tent h w (fun sy sx => to_q (v sy sx)) py px)).
Proof.
  intros Cp W Es Hh Hw Na Ch Sup. pose proof Na as (Hh' & Hw' & _).
  destruct (resize_elements to_q cast 0 x lead h w tail ls h' w' ts W Es Na Ch Sup) as (out & E & Wo & Do & So & P).
  { intros at_ v y x0 H _ _. destruct (linear_pixel_ok to_q cast Cp at_ v h w h' w' H Hh' Hw' y x0 Hh Hw) as (py & px & _ & _ & _ & _ & Q). cbn [pixel Z.eqb]. rewrite Q. eauto. }
  exists out. split; [exact E|]. split; [exact Wo|]. split; [exact Do|]. split; [exact So|]. intros r y x0 t Hr Hy Hx Ht.
  destruct (P r y x0 t Hr Hy Hx Ht) as (at_ & Q1 & Q2 & Q3). set (v sy sx := match at_ sy sx with SOk a => a | _ => cast 0%Q end).
  assert (Hv : forall sy sx, 0 <= sy < h -> 0 <= sx < w -> at_ sy sx = SOk (v sy sx)) by (intros sy sx H1 H2; unfold v; destruct (Q2 sy sx H1 H2) as [a ->]; reflexivity).
  destruct (linear_pixel_ok to_q cast Cp at_ v h w h' w' Hv Hh' Hw' y x0 Hh Hw) as (py & px & S1 & S2 & B1 & B2 & Q).
  exists v, py, px. split; [intros sy sx H1 H2; apply Q1; auto|]. split; [exact S1|]. split; [exact S2|]. split; [exact B1|]. split; [exact B2|]. apply Q3. exact Q.
Qed.
(** No overshoot: every value lies between the least and the greatest of its image and channel; so a constant image stays constant. *)
Theorem C119_within {A} (to_q : A -> Q) cast (x : tensor A) lead h w tail ls h' w' ts lo hi : (forall p q, (p == q)%Q -> cast p = cast q) ->
  wf x -> t_shape x = lead ++ h :: w :: tail -> 2 <= h -> 2 <= w -> names_axes lead h w tail ls h' w' ts -> h <> h' \/ w <> w' -> tile_supports (t_dtype x) = true ->
  exists out, resize2d to_q cast 0 (ls ++ h' :: w' :: ts) x = SOk (filled out) /\
    forall r y x0 t, inside lead r -> 0 <= y < h' -> 0 <= x0 < w' -> inside tail t ->
      (forall sy sx a, 0 <= sy < h -> 0 <= sx < w -> elt x (r ++ sy :: sx :: t) = Some a -> (lo <= to_q a <= hi)%Q) ->
      exists q, elt out (r ++ y :: x0 :: t) = Some (cast q) /\ (lo <= q <= hi)%Q.
Proof.
  intros Cp W Es Hh Hw Na Ch Sup. destruct (C119_linear_partial to_q cast x lead h w tail ls h' w' ts Cp W Es Hh Hw Na Ch Sup) as (out & E & _ & _ & _ & P).
  exists out. split; [exact E|]. intros r y x0 t Hr Hy Hx Ht Hb. destruct (P r y x0 t Hr Hy Hx Ht) as (v & py & px & Hv & _ & _ & B1 & B2 & Q).
  eexists. split; [exact Q|]. apply interpolate_between; [exact B1|exact B2|]. intros sy sx H1 H2. eapply Hb; [exact H1|exact H2|]. now apply Hv.
Qed.
Print Assumptions C119_linear_partial.
Print Assumptions C119_within.
Example C119_example : resize2d zq qz_ 0 [4; 2] (Tn 2 [2; 2] [0; 100; 200; 40]) = SOk (filled (Tn 2 [4; 2] [0; 99; 50; 84; 150; 55; 199; 40])).
Proof. reflexivity. Qed.
(** An image one pixel high is resized by reading the row after its last one. *)
Theorem C119_thin_refuted : exists (x : tensor Z), wf x /\ resize2d zq qz_ 0 [-1; 2; 4; -1] x = SUndef.
Proof. exists (Tn 2 [1; 1; 2; 1] [1; 2]). split; [split; [repeat constructor; lia|reflexivity]|reflexivity]. Qed.
(** So is an image of which only the height changes when the request repeats the number of images, 1. *)
Theorem C119_repeated_size_refuted : exists (x : tensor Z), wf x /\ t_shape x = [1; 2; 2; 1] /\ resize2d zq qz_ 0 [1; 4; 2; 1] x = SUndef /\
  exists out, resize2d zq qz_ 0 [-1; 4; 2; -1] x = SOk out.
Proof.
  exists (Tn 2 [1; 2; 2; 1] [1; 2; 3; 4]). split; [split; [repeat constructor; lia|reflexivity]|]. split; [reflexivity|]. split; [reflexivity|].
  exists (filled (Tn 2 [1; 4; 2; 1] [1; 1; 1; 2; 2; 3; 2; 3])). reflexivity.
Qed.
Print Assumptions C119_thin_refuted.
Print Assumptions C119_repeated_size_refuted.

(** ** C120: cubic resizing. *)
Theorem C120_cubic_partial {A} (to_q : A -> Q) cast (x : tensor A) lead h w tail ls h' w' ts : (forall p q, (p == q)%Q -> cast p = cast q) ->
  wf x -> t_shape x = lead ++ h :: w :: tail -> 4 <= h -> 4 <= w -> names_axes lead h w tail ls h' w' ts -> h <> h' \/ w <> w' -> tile_supports (t_dtype x) = true ->
  exists out, resize2d to_q cast 1 (ls ++ h' :: w' :: ts) x = SOk (filled out) /\ wf out /\ t_dtype out = t_dtype x /\ t_shape out = lead ++ h' :: w' :: tail /\
    forall r y x0 t, inside lead r -> 0 <= y < h' -> 0 <= x0 < w' -> inside tail t ->
      exists v py px, (forall sy sx, 0 <= sy < h -> 0 <= sx < w -> elt x (r ++ sy :: sx :: t) = Some (v sy sx)) /\
        cubic_sample h (source_position h h' y) py /\ cubic_sample w (source_position w w' x0) px /\
        elt out (r ++ y :: x0 :: t) = Some (cast (interpolate keys h w (fun sy sx => to_q (v sy sx)) py px)).
Proof.
  intros Cp W Es Hh Hw Na Ch Sup. pose proof Na as (Hh' & Hw' & _).
  destruct (resize_elements to_q cast 1 x lead h w tail ls h' w' ts W Es Na Ch Sup) as (out & E & Wo & Do & So & P).
  { intros at_ v y x0 H _ _. destruct (cubic_pixel_ok to_q cast Cp at_ v h w h' w' H Hh' Hw' y x0 Hh Hw) as (py & px & _ & _ & Q). change (pixel to_q cast 1) with (@cubic_pixel A to_q cast). rewrite Q. eauto. }
  exists out. split; [exact E|]. split; [exact Wo|]. split; [exact Do|]. split; [exact So|]. intros r y x0 t Hr Hy Hx Ht.
  destruct (P r y x0 t Hr Hy Hx Ht) as (at_ & Q1 & Q2 & Q3). set (v sy sx := match at_ sy sx with SOk a => a | _ => cast 0%Q end).
  assert (Hv : forall sy sx, 0 <= sy < h -> 0 <= sx < w -> at_ sy sx = SOk (v sy sx)) by (intros sy sx H1 H2; unfold v; destruct (Q2 sy sx H1 H2) as [a ->]; reflexivity).
  destruct (cubic_pixel_ok to_q cast Cp at_ v h w h' w' Hv Hh' Hw' y x0 Hh Hw) as (py & px & S1 & S2 & Q).
  exists v, py, px. split; [intros sy sx H1 H2; apply Q1; auto|]. split; [exact S1|]. split; [exact S2|]. apply Q3. exact Q.
Qed.
(** The kernel of the interpolation is exact on the pixels and its weights add up to one. *)
Theorem C120_weights n p m : (1 <= p)%Q -> (p < inject_Z (n - 2))%Q -> (qsum n (fun k => keys (inject_Z k - p) * m) == m)%Q.
Proof.
  intros H1 H2. destruct (floor_bounds p) as [F1 F2]. set (s := Qfloor p) in *. clearbody s.
  rewrite (qsum_ext n _ (fun k => keys (inject_Z k - (inject_Z s + (p - inject_Z s))) * m)%Q).
  2:{ intros k _. assert (E : (inject_Z k - p == inject_Z k - (inject_Z s + (p - inject_Z s)))%Q) by ring. now rewrite <- E. }
  apply keys_constant; [| |lra].
  - assert (0 < s)%Z; [|lia]. apply inj_lt. change (inject_Z 0) with 0%Q. destruct (Qlt_le_dec 0 (inject_Z s)) as [H|H]; [exact H|]. exfalso. lra.
  - assert (s < n - 2)%Z; [|lia]. apply inj_lt. lra.
Qed.
Print Assumptions C120_cubic_partial.
Print Assumptions C120_weights.
Example C120_example : resize2d zq qz_ 1 [4; 8] (Tn 2 [4; 4] [7; 7; 7; 7; 7; 7; 7; 7; 7; 7; 7; 7; 7; 7; 7; 7]) = SOk (filled (Tn 2 [4; 8] (repeat 7 32))).
Proof. reflexivity. Qed.
(** The outermost pixels are not those of the source: of a picture whose first row is bright nothing is left. *)
Theorem C120_border_refuted : exists (x : tensor Z), wf x /\ elt x [0; 0] = Some 9 /\ elt x [0; 3] = Some 9 /\
  resize2d zq qz_ 1 [8; 4] x = SOk (filled (Tn 2 [8; 4] (repeat 0 32))).
Proof. exists (Tn 2 [4; 4] ([9; 9; 9; 9] ++ repeat 0 12)). split; [split; [repeat constructor; lia|reflexivity]|]. split; [reflexivity|]. split; reflexivity. Qed.
(** Images smaller than 4 pixels are resized by reading outside of them. *)
Theorem C120_small_refuted : exists (x : tensor Z), wf x /\ resize2d zq qz_ 1 [6; 6] x = SUndef.
Proof. exists (Tn 2 [3; 3] [1; 2; 3; 4; 5; 6; 7; 8; 9]). split; [split; [repeat constructor; lia|reflexivity]|reflexivity]. Qed.
Print Assumptions C120_border_refuted.
Print Assumptions C120_small_refuted.
