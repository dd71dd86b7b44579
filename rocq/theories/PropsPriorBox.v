(** C144: prior_box. *)
From Coq Require Import List ZArith Bool Lia.
From Verif Require Import ShapeModel ShapeSpec ShapeProofs KernelBase KernelSpec KernelProofs LoopModel LoopProofs PriorBoxModel PriorBoxSpec.
Import ListNotations.
Local Open Scope Z_scope.

(** *** stores of a counter that starts at an offset *)
Lemma stores_at {A} (vals : list A) : forall (a m b : list (option A)), length m = length vals ->
  exec (a ++ m ++ b) (map (fun kv => (Z.of_nat (length a) + fst kv, SOk (snd kv))) (counted vals)) = SOk (a ++ map Some vals ++ b).
Proof.
  unfold counted, upto. rewrite Nat2Z.id. set (k := 0%nat).
  assert (G : forall k (a m b : list (option A)), length m = length vals ->
    exec (a ++ m ++ b) (map (fun kv => (Z.of_nat (length a) - Z.of_nat k + fst kv, SOk (snd kv))) (combine (map Z.of_nat (seq k (length vals))) vals)) = SOk (a ++ map Some vals ++ b)).
  { clear k. induction vals as [|v vals IH]; intros k a m b Hm; destruct m as [|x m]; try discriminate; [reflexivity|].
    cbn [length seq map combine exec fst snd]. rewrite store_ok by (rewrite !app_length; cbn [length]; lia).
    replace (Z.to_nat (Z.of_nat (length a) - Z.of_nat k + Z.of_nat k)) with (length a) by lia.
    replace (set_nth (length a) (Some v) (a ++ (x :: m) ++ b)) with ((a ++ [Some v]) ++ m ++ b).
    2:{ clear. induction a as [|y a IH]; [reflexivity|]. cbn in *. now rewrite <- IH. }
    specialize (IH (S k) (a ++ [Some v]) m b ltac:(cbn in Hm; lia)).
    rewrite app_length in IH. cbn [length] in IH.
    replace (Z.of_nat (length a + 1) - Z.of_nat (S k)) with (Z.of_nat (length a) - Z.of_nat k) in IH by lia.
    rewrite IH. rewrite <- app_assoc. reflexivity. }
  intros a m b Hm. specialize (G k a m b Hm). rewrite <- G. f_equal. apply map_ext. intros [i v]. cbn. f_equal. lia.
Qed.

Lemma map_loops {A} (g : list Z -> A) n s : map g (loops (n :: s)) = flat_map (fun i => map (fun c => g (i :: c)) (loops s)) (upto n).
Proof.
  cbn [loops]. generalize (upto n). induction l as [|i l IH]; [reflexivity|]. cbn [flat_map]. rewrite map_app, IH, map_map. reflexivity.
Qed.

Lemma upto_S n : 0 <= n -> upto (Z.succ n) = 0 :: map Z.succ (upto n).
Proof.
  intro H. unfold upto. rewrite Z2Nat.inj_succ by exact H. cbn [seq map]. f_equal. rewrite <- seq_shift, !map_map. apply map_ext. intro. lia.
Qed.

Lemma flat_map_nth {A B} (f : A -> list B) (l : list A) d : flat_map f l = flat_map (fun p => f (nth (Z.to_nat p) l d)) (upto (Z.of_nat (length l))).
Proof.
  induction l as [|a l IH]; [reflexivity|]. cbn [length flat_map]. rewrite Nat2Z.inj_succ, upto_S by lia. cbn [flat_map]. f_equal. rewrite IH.
  rewrite !flat_map_concat_map, map_map. f_equal. apply map_ext_in. intros p Hp. apply In_upto in Hp. rewrite Z2Nat.inj_succ by lia. reflexivity.
Qed.

Section Proofs.
Variable R : Type.
Variables zero one two tenth : R.
Variables add sub mul div : R -> R -> R.
Variable sqrt : R -> R.
Variable ofZ : Z -> R.
Variable whole : R -> R.
Variable lt close : R -> R -> bool.
Notation init := (init R zero one tenth div whole lt close).
Notation run := (run R zero one two add sub mul div sqrt ofZ whole lt close).
Notation corners := (corners R two add sub div).
Notation cell := (cell R one two add sub mul div sqrt whole close).
Notation others := (fresh_ratios R one div close).
Notation prior_sizes := (prior_sizes R mul div sqrt).
Notation coordinate := (coordinate R two add sub div).
Notation clamp := (clamp R zero one lt).

Lemma ratios_spec flip : forall given acc, ratios R one div close flip given acc = acc ++ others flip acc given.
Proof.
  induction given as [|a given IH]; intro acc; cbn [ratios fresh_ratios]; [now rewrite app_nil_r|].
  destruct (existsb (close a) acc); [apply IH|]. rewrite IH, <- app_assoc. reflexivity.
Qed.

(** No ratio kept is close to one, provided that flipping brings none there. *)
Lemma others_far flip : forall given seen, In one seen ->
  (flip = true -> forall a, In a given -> close a one = false -> close (div one a) one = false) ->
  Forall (fun a => close a one = false) (others flip seen given).
Proof.
  induction given as [|a given IH]; intros seen Hs Hf; cbn [fresh_ratios]; [constructor|].
  destruct (existsb (close a) seen) eqn:E; [apply IH; [exact Hs|]; intros F b Hb; apply Hf; [exact F|now right]|].
  assert (Ha : close a one = false).
  { destruct (close a one) eqn:X; [|reflexivity]. rewrite (proj2 (existsb_exists _ _)) in E; [discriminate|]. now exists one. }
  apply Forall_app. split.
  - constructor; [exact Ha|]. destruct flip; constructor; [|constructor]. apply Hf; auto. now left.
  - apply IH; [apply in_app_iff; now left|]. intros F b Hb. apply Hf; [exact F|now right].
Qed.

Lemma rest_spec rs m cx cy iw ih : Forall (fun a => close a one = false) rs ->
  rest_of_priors R one two add sub mul div sqrt close rs m cx cy iw ih =
  flat_map (fun s => corners cx cy (fst s) (snd s) iw ih) (map (fun a => (mul m (sqrt a), div m (sqrt a))) rs).
Proof. induction 1 as [|a rs Ha _ IH]; [reflexivity|]. cbn [rest_of_priors map flat_map fst snd]. rewrite Ha, IH. reflexivity. Qed.

Lemma cell_spec b os : b_ratios R b = one :: os -> close one one = true -> Forall (fun a => close a one = false) os ->
  forall mins maxs cx cy iw ih, maxs = [] \/ length maxs = length mins ->
  cell b mins maxs cx cy iw ih =
  flat_map (fun s => corners cx cy (fst s) (snd s) iw ih) (prior_sizes os (map whole mins) (map whole maxs)).
Proof.
  intros Hb H1 Ho. induction mins as [|m mins IH]; intros maxs cx cy iw ih Hl; [reflexivity|].
  cbn [PriorBoxModel.cell]. rewrite Hb. cbn [rest_of_priors]. rewrite H1, (rest_spec os) by exact Ho.
  rewrite (IH (tl maxs)) by (destruct Hl as [->|Hl]; [now left|destruct maxs; [discriminate|right; cbn in *; lia]]).
  unfold prior_sizes. destruct maxs as [|M maxs].
  - cbn [map combine flat_map tl fst snd boxes_of app]. rewrite flat_map_app. cbn [flat_map fst snd app]. rewrite ?app_nil_r, <- ?app_assoc. reflexivity.
  - destruct Hl as [Hl|Hl]; [discriminate|]. cbn [map combine flat_map tl fst snd boxes_of app]. rewrite flat_map_app. cbn [flat_map fst snd app].
    destruct maxs as [|M' maxs].
    + destruct mins; [|discriminate]. cbn. rewrite !app_nil_r. reflexivity.
    + cbn [map]. reflexivity.
Qed.

Lemma sizes_length os mins maxs : maxs = [] \/ length maxs = length mins ->
  Z.of_nat (length (prior_sizes os mins maxs)) = Z.of_nat (length (one :: os)) * Z.of_nat (length mins) + Z.of_nat (length maxs).
Proof.
  unfold prior_sizes. intros [->|Hl].
  - induction mins as [|m mins IH]; [cbn; lia|]. cbn [map combine flat_map boxes_of fst snd app length] in *. rewrite app_length. cbn [length]. rewrite map_length. lia.
  - destruct maxs as [|M maxs]; [destruct mins; [cbn; lia|discriminate]|].
    set (l := M :: maxs) in *. clearbody l. clear M maxs. revert l Hl. induction mins as [|m mins IH]; intros [|M l] Hl; try discriminate; [cbn; lia|].
    cbn [map combine flat_map boxes_of fst snd app length] in *. rewrite app_length. cbn [length]. rewrite map_length. specialize (IH l ltac:(lia)). lia.
Qed.

Lemma corners_coord cx cy s iw ih : corners cx cy (fst s) (snd s) iw ih = map (fun c => coordinate (nth 0 c 0) cx cy s iw ih) (loops [4]).
Proof. reflexivity. Qed.

Lemma clip_ok vals : forall rest : list (option R), clip R zero one lt (length vals) (map Some vals ++ rest) = SOk (map Some (map clamp vals) ++ rest).
Proof. induction vals as [|v vals IH]; intro rest; [reflexivity|]. cbn [length map app clip]. now rewrite IH. Qed.

(** The result of [run] for an operator fresh from [init]. *)
Theorem C144_prior_box_partial (a : attrs R) (b : prior_box R) feat img lh lw ih iw :
  init [] a = Some b ->
  close one one = true ->
  (a_flip R a = true -> forall r, In r (a_ratio R a) -> close r one = false -> close (div one r) one = false) ->
  nth_error feat 2 = Some lh -> nth_error feat 3 = Some lw -> 0 <= lh -> 0 <= lw ->
  match a_img_h R a, a_img_w R a, a_img_size R a with
  | Some h, Some w, _ => ih = h /\ iw = w
  | _, _, Some s => ih = s /\ iw = s
  | _, _, _ => exists s, img = Some s /\ nth_error s 2 = Some ih /\ nth_error s 3 = Some iw
  end ->
  let sizes := prior_sizes (others (a_flip R a) [one] (a_ratio R a)) (map whole (a_min R a)) (map whole (a_max R a)) in
  let P := Z.of_nat (length sizes) in
  let sw := match a_step_w R a, a_step R a with Some s, _ => whole s | _, Some s => s | _, _ => div (ofZ iw) (ofZ lw) end in
  let sh := match a_step_h R a, a_step R a with Some s, _ => whole s | _, Some s => s | _, _ => div (ofZ ih) (ofZ lh) end in
  exists out, run b feat img = SOk (filled out) /\ wf out /\ t_shape out = [1; 2; lh * lw * P * 4] /\
    forall h w p j, inside [lh; lw; P; 4] [h; w; p; j] ->
      let k := ((h * lw + w) * P + p) * 4 + j in
      let x := coordinate j (mul (add (ofZ w) (a_offset R a)) sw) (mul (add (ofZ h) (a_offset R a)) sh)
                 (nth (Z.to_nat p) sizes (zero, zero)) (ofZ iw) (ofZ ih) in
      elt out [0; 0; k] = Some (if a_clip R a then clamp x else x) /\
      elt out [0; 1; k] = Some (match a_variance R a with [] => tenth | [v] => v | l => nth (Z.to_nat j) l zero end).
Proof.
  intros Hi H1 Hf E2 E3 Hlh Hlw Him sizes P sw sh.
  unfold PriorBoxModel.init in Hi.
  destruct (Nat.eqb (length (a_min R a)) 0 || _) eqn:C1; [discriminate|].
  destruct (negb (Nat.eqb (length (a_max R a)) 0) && _) eqn:C2; [discriminate|].
  destruct (variances R zero tenth lt [] (a_variance R a)) as [vs|] eqn:Ev; [|discriminate].
  destruct (image R a) as [im|] eqn:Eim; [|discriminate]. destruct (steps R zero whole lt a) as [st|] eqn:Est; [|discriminate].
  injection Hi as <-.
  assert (Hmax : a_max R a = [] \/ length (a_max R a) = length (a_min R a)).
  { destruct (a_max R a) as [|M l]; [now left|]. right. change (Nat.eqb (length (M :: l)) 0) with false in C2. cbn [negb andb] in C2. apply negb_false_iff in C2. apply andb_true_iff in C2. destruct C2 as [C2 _].
    now apply Nat.eqb_eq in C2. }
  set (os := others (a_flip R a) [one] (a_ratio R a)) in *.
  assert (Hos : Forall (fun r => close r one = false) os) by (apply others_far; [now left|exact Hf]).
  assert (HP : Z.of_nat (length (one :: os)) * Z.of_nat (length (a_min R a)) + Z.of_nat (length (a_max R a)) = P).
  { unfold P, sizes. rewrite sizes_length, !map_length; [reflexivity|]. destruct Hmax as [->|Hmax]; [now left|right; now rewrite !map_length]. }
  set (b := Prior R (a_min R a) (a_max R a) _ _ (a_clip R a) vs im st (a_offset R a)).
  assert (Hr : b_ratios R b = one :: os) by (cbn; apply ratios_spec).
  assert (Hnum : b_num R b = P).
  { cbn [b_num b]. rewrite (ratios_spec _ _ [one]). exact HP. }
  assert (HP0 : 0 <= P) by (unfold P; lia).
  set (s4 := [lh; lw; P; 4]). assert (Hs4 : Forall (fun d => 0 <= d) s4) by (unfold s4; repeat constructor; lia).
  set (dim := lh * lw * P * 4). assert (Hdim : elements s4 = dim) by (unfold s4, dim; cbn; lia).
  set (value := fun c => match c with [h; w; p; j] => coordinate j (mul (add (ofZ w) (a_offset R a)) sw) (mul (add (ofZ h) (a_offset R a)) sh)
                 (nth (Z.to_nat p) sizes (zero, zero)) (ofZ iw) (ofZ ih) | _ => zero end).
  set (values := map value (loops s4)).
  assert (Lv : length values = Z.to_nat dim).
  { unfold values. rewrite map_length, <- Hdim, <- (length_loops s4 Hs4). lia. }
  assert (Hall : all_boxes R one two add sub mul div sqrt ofZ whole close b lh lw sh sw (ofZ iw) (ofZ ih) = values).
  { unfold all_boxes, values, s4. rewrite map_loops. apply flat_map_ext. intro h. rewrite map_loops. apply flat_map_ext. intro w.
    rewrite (cell_spec b os Hr H1 Hos) by exact Hmax. cbn [b_min b_max b b_offset]. fold sizes.
    rewrite (flat_map_nth _ sizes (zero, zero)). rewrite map_loops. apply flat_map_ext. intro p. reflexivity. }
  set (var := fun j => match a_variance R a with [] => tenth | [v] => v | l => nth (Z.to_nat j) l zero end).
  set (vars := map (fun c => var (nth 3 c 0)) (loops s4)).
  assert (Lvars : length vars = Z.to_nat dim).
  { unfold vars. rewrite map_length, <- Hdim, <- (length_loops s4 Hs4). lia. }
  assert (Hvs : variance_stores R b lh lw dim = map (fun kv => (dim + fst kv, SOk (snd kv))) (counted vars)).
  { assert (Hone : forall v, (forall j, var j = v) -> map (fun k => (dim + k, SOk v)) (upto dim) = map (fun kv : Z * R => (dim + fst kv, SOk (snd kv))) (counted vars)).
    { intros v Hv. unfold counted. rewrite Lvars, Z2Nat.id by (rewrite <- Hdim; now apply elements_nonneg).
      assert (G : forall (l : list Z) (r : list R), length r = length l -> Forall (fun x => x = v) r ->
         map (fun k => (dim + k, SOk v)) l = map (fun kv : Z * R => (dim + fst kv, SOk (snd kv))) (combine l r)).
      { induction l as [|i l IH]; intros [|x r] L F; try discriminate; [reflexivity|]. apply Forall_cons_iff in F. destruct F as [-> F]. cbn. f_equal. apply IH; [cbn in L; lia|exact F]. }
      apply G; [rewrite length_upto; exact Lvars|]. apply Forall_forall. intros x Hx. unfold vars in Hx. apply in_map_iff in Hx. destruct Hx as (c & <- & _). apply Hv. }
    unfold variance_stores. cbn [b_variance b]. rewrite Hnum. fold s4. unfold variances in Ev.
    assert (Hfour : length (a_variance R a) = 4%nat -> vs = a_variance R a ->
       match vs with [v] => map (fun k => (dim + k, SOk v)) (upto dim) | _ => map (fun kc => (dim + fst kc, load vs (nth 3 (snd kc) 0))) (counted (loops s4)) end =
       map (fun kv => (dim + fst kv, SOk (snd kv))) (counted vars)).
    { intros L4 ->. destruct (a_variance R a) as [|v0 [|v1 [|v2 [|v3 [|v4 vr]]]]] eqn:Eav; try discriminate.
      unfold vars, counted. rewrite map_length.
      assert (G : forall (l : list Z) (r : list (list Z)), Forall (fun c => 0 <= nth 3 c 0 < 4) r ->
        map (fun kc : Z * list Z => (dim + fst kc, load [v0; v1; v2; v3] (nth 3 (snd kc) 0))) (combine l r) =
        map (fun kv : Z * R => (dim + fst kv, SOk (snd kv))) (combine l (map (fun c => var (nth 3 c 0)) r))).
      { induction l as [|i l IH]; intros [|c r] F; try reflexivity. apply Forall_cons_iff in F. destruct F as [Fc F]. cbn [combine map fst snd]. f_equal; [|now apply IH].
        f_equal. unfold var. set (j := nth 3 c 0) in *. assert (Hj : j = 0 \/ j = 1 \/ j = 2 \/ j = 3) by lia.
        destruct Hj as [->|[->|[->| ->]]]; reflexivity. }
      apply G. apply Forall_forall. intros c Hc. apply In_loops in Hc. unfold s4 in Hc.
      inversion Hc as [|? ? ? ? _ Hc1]; subst. inversion Hc1 as [|? ? ? ? _ Hc2]; subst. inversion Hc2 as [|? ? ? ? _ Hc3]; subst. inversion Hc3 as [|? ? ? ? Hj _]; subst. exact Hj. }
    destruct (a_variance R a) as [|v0 [|v1 vr]] eqn:Eav.
    - injection Ev as <-. apply Hone. reflexivity.
    - destruct (positive R zero lt v0); [|discriminate]. injection Ev as <-. apply Hone. reflexivity.
    - destruct (Nat.eqb_spec (length (v0 :: v1 :: vr)) 4) as [L4|L4]; cbn [andb] in Ev; [|discriminate].
      destruct (forallb (positive R zero lt) (v0 :: v1 :: vr)); [|discriminate]. injection Ev as <-. cbn [app]. apply Hfour; [exact L4|reflexivity]. }
  assert (Hsz : match b_img R b with
                | Some p => SOk p
                | None => match img with None => SErr | Some s => match nth_error s 2, nth_error s 3 with Some h, Some w => SOk (h, w) | _, _ => SUndef end end
                end = SOk (ih, iw)).
  { cbn [b_img b]. unfold image in Eim.
    destruct (a_img_h R a) as [h|], (a_img_w R a) as [w|], (a_img_size R a) as [s|]; try discriminate.
    - destruct ((0 <? h) && (0 <? w)); [|discriminate]. injection Eim as <-. destruct Him as [-> ->]. reflexivity.
    - destruct (0 <? s); [|discriminate]. injection Eim as <-. destruct Him as [-> ->]. reflexivity.
    - injection Eim as <-. destruct Him as (s & -> & -> & ->). reflexivity. }
  assert (Hst : match b_step R b with Some p => p | None => (div (ofZ ih) (ofZ lh), div (ofZ iw) (ofZ lw)) end = (sh, sw)).
  { cbn [b_step b]. unfold steps in Est. unfold sh, sw.
    destruct (a_step_h R a) as [h|], (a_step_w R a) as [w|], (a_step R a) as [s|]; try discriminate.
    - destruct (positive R zero lt (whole h) && positive R zero lt (whole w)); [|discriminate]. injection Est as <-. reflexivity.
    - destruct (positive R zero lt s); [|discriminate]. injection Est as <-. reflexivity.
    - injection Est as <-. reflexivity. }
  set (clipped := if a_clip R a then map clamp values else values).
  assert (Lc : length clipped = Z.to_nat dim) by (unfold clipped; destruct (a_clip R a); rewrite ?map_length; exact Lv).
  assert (Hdim0 : 0 <= dim) by (rewrite <- Hdim; now apply elements_nonneg).
  exists (Tn 10 [1; 2; dim] (clipped ++ vars)).
  assert (Hrun : run b feat img = SOk (filled (Tn 10 [1; 2; dim] (clipped ++ vars)))).
  { unfold PriorBoxModel.run. rewrite E2, E3, Hsz. cbv zeta. rewrite Hst. cbn [fst snd]. rewrite Hall, Hnum. fold dim.
    assert (X1 : exec (fresh (2 * dim)) (map (fun kv => (fst kv, SOk (snd kv))) (counted values)) = SOk (map Some values ++ repeat None (Z.to_nat dim))).
    { assert (Ef : fresh (2 * dim) = [] ++ repeat (@None R) (Z.to_nat dim) ++ repeat None (Z.to_nat dim)).
      { unfold fresh. cbn [app]. rewrite <- repeat_app. f_equal. lia. }
      rewrite Ef. pose proof (stores_at values [] (repeat None (Z.to_nat dim)) (repeat None (Z.to_nat dim)) ltac:(rewrite repeat_length; lia)) as X.
      cbn [length app] in X. rewrite <- X. f_equal. }
    rewrite X1.
    assert (X2 : (if b_clip R b then clip R zero one lt (Z.to_nat dim) (map Some values ++ repeat None (Z.to_nat dim)) else SOk (map Some values ++ repeat None (Z.to_nat dim))) =
      SOk (map Some clipped ++ repeat None (Z.to_nat dim))).
    { cbn [b_clip b]. unfold clipped. destruct (a_clip R a); [|reflexivity]. rewrite <- Lv. apply clip_ok. }
    rewrite X2, Hvs.
    pose proof (stores_at vars (map Some clipped) (repeat None (Z.to_nat dim)) [] ltac:(rewrite repeat_length; lia)) as X.
    rewrite !app_nil_r in X. rewrite map_length, Lc, Z2Nat.id in X by exact Hdim0. rewrite X.
    unfold filled. cbn. rewrite map_app. reflexivity. }
  split; [exact Hrun|]. split; [|split; [reflexivity|]].
  - split; [cbn [t_shape]; do 3 (constructor; [lia|]); constructor|]. cbn [t_data t_shape]. rewrite app_length, Lc, Lvars. cbn [elements]. lia.
  - intros h w p j Hin k x. pose proof (position_bound _ _ Hin) as Hb. fold s4 in Hin, Hb. rewrite Hdim in Hb.
    assert (Hk : position s4 [h; w; p; j] = k) by (unfold s4, k; cbn [position elements]; ring). rewrite Hk in Hb.
    pose proof (nth_loops s4 _ Hin) as Hn. rewrite Hk in Hn.
    assert (Hv : nth_error values (Z.to_nat k) = Some x) by (unfold values; rewrite nth_error_map, Hn; reflexivity).
    assert (Hw : nth_error vars (Z.to_nat k) = Some (var j)) by (unfold vars; rewrite nth_error_map, Hn; reflexivity).
    unfold elt. cbn [t_shape t_data position elements]. split.
    + replace (Z.to_nat (0 * (2 * (dim * 1)) + (0 * (dim * 1) + (k * 1 + 0)))) with (Z.to_nat k) by (f_equal; lia).
      rewrite nth_error_app1 by lia. unfold clipped. destruct (a_clip R a); [|exact Hv]. now rewrite nth_error_map, Hv.
    + replace (Z.to_nat (0 * (2 * (dim * 1)) + (1 * (dim * 1) + (k * 1 + 0)))) with (length clipped + Z.to_nat k)%nat by lia.
      rewrite nth_error_app2 by lia. replace (length clipped + Z.to_nat k - length clipped)%nat with (Z.to_nat k) by lia. exact Hw.
Qed.
End Proofs.
Print Assumptions C144_prior_box_partial.

(** The hypothesis about flipped ratios holds of binary32 numbers: those in
    [1/2, 1) are multiples of 2^-24, those in [1, 2) of 2^-23, and the inverse
    is rounded to one of them.  [a] and [x] count units of 2^-24; a ratio is
    "close to one" when it is less than 1e-6 = 16.777216 units away. *)
Theorem C144_flipped_float (a x : Z) :
  0 < a -> (2 ^ 24 <= a -> (2 | a)) -> (2 ^ 24 <= x -> (2 | x)) ->
  (* x is at most half a unit in the last place from 2^24 * (2^24 / a) *)
  (x < 2 ^ 24 -> 2 * Z.abs (x * a - 2 ^ 48) <= a) -> (2 ^ 24 <= x -> Z.abs (x * a - 2 ^ 48) <= a) ->
  1000000 * Z.abs (a - 2 ^ 24) >= 2 ^ 24 ->
  1000000 * Z.abs (x - 2 ^ 24) >= 2 ^ 24.
Proof.
  change (2 ^ 24) with 16777216. change (2 ^ 48) with (16777216 * 16777216).
  intros Ha Ga Gx R1 R2 Far.
  destruct (Z.lt_ge_cases a 16777216) as [L|L].
  - (* below one: the inverse is above one *)
    assert (A : a <= 16777216 - 17) by lia. destruct (Z.lt_ge_cases x 16777216) as [Lx|Lx].
    + specialize (R1 Lx). nia.
    + specialize (R2 Lx). destruct (Gx Lx) as [y ->]. assert (8388617 <= y) by nia. lia.
  - destruct (Ga L) as [c ->]. assert (C : 8388617 <= c) by lia.
    destruct (Z.lt_ge_cases x 16777216) as [Lx|Lx]; [|specialize (R2 Lx); nia].
    specialize (R1 Lx). assert (x <= 16777216 - 17) by nia. lia.
Qed.
Print Assumptions C144_flipped_float.

(** *** Witnesses, with rationals for the numbers *)
From Coq Require Import QArith Qabs.
Module ExamplePrior.
  Local Open Scope Q_scope.
  Definition rsqrt (q : Q) : Q := let r := Qred q in Z.sqrt (Qnum r) # Z.to_pos (Z.sqrt (Zpos (Qden r))).
  Definition rwhole (q : Q) : Q := inject_Z (Z.quot (Qnum q) (Zpos (Qden q))).
  Definition qlt (a b : Q) : bool := negb (Qle_bool b a).
  Definition qclose (a b : Q) : bool := qlt (Qabs (a - b)) (1 # 1000000).
  Definition start := init Q 0 1 (1 # 10) (fun a b => Qred (a / b)) rwhole qlt qclose.
  Definition go := run Q 0 1 2 (fun a b => Qred (a + b)) (fun a b => Qred (a - b)) (fun a b => Qred (a * b)) (fun a b => Qred (a / b)) rsqrt inject_Z rwhole qlt qclose.
  Definition a := Attrs Q [10] [40] [4] true false [1 # 5] (1 # 2) (Some 100%Z) (Some 100%Z) None None None (Some 50).
  Definition b := Prior Q [10] [40] [1; 4; 1 # 4] 4 false [1 # 5] (Some (100, 100)%Z) (Some (50, 50)) (1 # 2).

  (** four boxes: 10x10, 20x20, 20x5 and 5x20, around (25, 25) in an image of 100 *)
  Example C144_example : start [] a = Some b /\
    go b [1; 8; 1; 1]%Z None = SOk (filled (Tn 10%Z [1; 2; 16]%Z
      ([1 # 5; 1 # 5; 3 # 10; 3 # 10; 3 # 20; 3 # 20; 7 # 20; 7 # 20; 3 # 20; 9 # 40; 7 # 20; 11 # 40; 9 # 40; 3 # 20; 11 # 40; 7 # 20]
        ++ repeat (1 # 5) 16))) /\
    qclose 1 1 = true /\ qclose 4 1 = false /\ qclose (1 / 4) 1 = false.
  Proof. repeat split; vm_compute; reflexivity. Qed.

  (** Initialising twice keeps the first variance: two of them are then taken
      for four. *)
  Theorem C144_init_twice_refuted : exists b2,
    start (b_variance Q b) a = Some b2 /\ b_variance Q b2 = [1 # 5; 1 # 5] /\ go b2 [1; 8; 1; 1]%Z None = SUndef.
  Proof. eexists. split; [vm_compute; reflexivity|]. split; vm_compute; reflexivity. Qed.

  (** A size of 3/2 makes a box of size 1, and a step_w of 15/2 is used as 7. *)
  Definition f := Attrs Q [3 # 2] [] [] true false [1 # 5] 0 (Some 10%Z) (Some 10%Z) None (Some (15 # 2)) (Some (15 # 2)) None.
  Theorem C144_fraction_refuted : exists fb, start [] f = Some fb /\
    go fb [1; 8; 1; 2]%Z None = SOk (filled (Tn 10%Z [1; 2; 8]%Z ([- 1 # 20; - 1 # 20; 1 # 20; 1 # 20; 13 # 20; - 1 # 20; 3 # 4; 1 # 20] ++ repeat (1 # 5) 8))).
  Proof. eexists. split; [vm_compute; reflexivity|]. vm_compute. reflexivity. Qed.
End ExamplePrior.
Print Assumptions ExamplePrior.C144_init_twice_refuted.
Print Assumptions ExamplePrior.C144_fraction_refuted.
