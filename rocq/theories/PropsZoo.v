(** C129-C132: cropping to the middle, cropping at a place, scaling the short
    side, padding to multiples. *)
From Coq Require Import List ZArith QArith Bool Lia.
From Verif Require Import ShapeModel ShapeSpec ShapeProofs KernelBase KernelSpec KernelProofs TileModel PadModel PadSpec PropsPad ResizeModel ResizeSpec PropsResize ZooModel ZooSpec.
Import ListNotations.
Local Open Scope Z_scope.

Lemma shifted_moved : forall pads c, length pads = length c -> shifted (map (fun p => - fst p) pads) c = moved pads c.
Proof. unfold shifted, moved. induction pads as [|[p q] pads IH]; intros [|k c] L; try discriminate; [reflexivity|]. cbn [map combine fst snd]. rewrite IH by (injection L; auto). f_equal. lia. Qed.
(** padding by [pads] is looking through a window *)
Lemma pad_window {A} pads (value : A) (x : tensor A) want : wf x -> length pads = length (t_shape x) ->
  want = map (fun sp => fst sp + fst (snd sp) + snd (snd sp)) (combine (t_shape x) pads) -> positive_shape want -> tile_supports (t_dtype x) = true ->
  (length pads = 4%nat -> 0 <= fst (nth 0 pads (0, 0)) /\ 0 <= snd (nth 0 pads (0, 0))) ->
  exists out, pad_run pads value x = SOk (filled out) /\ wf out /\ window value (map (fun p => - fst p) pads) want x out.
Proof.
  intros W L -> Hp Sup H4. destruct (C39_pad_partial pads value x W L Hp Sup H4) as (out & E & Wo & D & S & P).
  exists out. split; [exact E|]. split; [exact Wo|]. split; [exact D|]. split; [exact S|].
  assert (Ls : length (map (fun sp : Z * (Z * Z) => fst sp + fst (snd sp) + snd (snd sp)) (combine (t_shape x) pads)) = length pads) by (rewrite map_length, combine_length; lia).
  split; [rewrite map_length; lia|]. intros c Hc. rewrite shifted_moved.
  - apply P. now rewrite S.
  - apply inside_length in Hc. lia.
Qed.
Lemma halves_sum d : fst (halves d) + snd (halves d) = d.
Proof. unfold halves. cbn [fst snd]. lia. Qed.
Lemma halves_central size want : central size want (- fst (halves (want - size))).
Proof.
  unfold central, halves. cbn [fst snd]. cbv zeta. set (d := want - size).
  assert (Hd : - 1 <= d - 2 * Z.quot d 2 <= 1).
  { clearbody d. Z.to_euclidean_division_equations. lia. }
  replace (size - want - - Z.quot d 2 - - Z.quot d 2) with (- (d - 2 * Z.quot d 2)) by (unfold d; lia). lia.
Qed.

(** ** C129: cropping (or padding) to the middle. *)
Theorem C129_center_crop2d {A} (zero : A) (x : tensor A) n h w c h' w' : wf x -> t_shape x = [n; h; w; c] -> 0 < n -> 0 < c -> 0 < h' -> 0 < w' -> tile_supports (t_dtype x) = true ->
  exists top left_ out, nhwc_center_crop2d zero [w'; h'] x = SOk (filled out) /\ wf out /\ central h h' top /\ central w w' left_ /\ window zero [0; top; left_; 0] [n; h'; w'; c] x out.
Proof.
  intros W Es Hn Hc Hh Hw Sup. unfold nhwc_center_crop2d. rewrite Es. set (pads := [(0, 0); halves (h' - h); halves (w' - w); (0, 0)]).
  destruct (pad_window pads zero x [n; h'; w'; c] W) as (out & E & Wo & P).
  - rewrite Es. reflexivity.
  - rewrite Es. unfold pads. cbn [combine map fst snd]. pose proof (halves_sum (h' - h)). pose proof (halves_sum (w' - w)). repeat (f_equal; try lia).
  - repeat (constructor; [assumption|]). constructor.
  - exact Sup.
  - intros _. cbn. lia.
  - exists (- fst (halves (h' - h))), (- fst (halves (w' - w))), out. split; [exact E|]. split; [exact Wo|]. split; [apply halves_central|]. split; [apply halves_central|]. exact P.
Qed.
(** crop_nd without a shift: an entry that is not positive keeps its axis *)
Definition wanted (size want : Z) : Z := if want <=? 0 then size else want.
Theorem C129_crop_nd_partial {A} (zero : A) (x : tensor A) want : wf x -> length want = length (t_shape x) -> t_shape x <> [] -> positive_shape (t_shape x) -> tile_supports (t_dtype x) = true ->
  (length want = 4%nat -> nth 0 (t_shape x) 0 <= wanted (nth 0 (t_shape x) 0) (nth 0 want 0)) ->
  exists starts out, crop_nd zero [] want x = SOk (filled out) /\ wf out /\
    Forall2 (fun sw s => central (fst sw) (wanted (fst sw) (snd sw)) s) (combine (t_shape x) want) starts /\
    window zero starts (map (fun sw => wanted (fst sw) (snd sw)) (combine (t_shape x) want)) x out.
Proof.
  intros W L Ne Hp Sup H4. unfold crop_nd. rewrite L. cbn [length Nat.eqb orb andb negb]. rewrite Nat.eqb_refl. cbn [negb]. destruct (Nat.eqb_spec (length (t_shape x)) 0) as [E0|_]; [destruct (t_shape x); [congruence|discriminate]|].
  assert (Ep : map (fun p => crop_padding (fst (fst p)) (snd (fst p)) (snd p)) (combine (combine (t_shape x) want) (repeat None (length (t_shape x)))) = map (fun sw => crop_padding (fst sw) (snd sw) None) (combine (t_shape x) want)).
  { clear - L. revert want L. induction (t_shape x) as [|a s IH]; intros [|b want] L; try discriminate; [reflexivity|]. cbn [length repeat combine map fst snd]. rewrite IH by (injection L; auto). reflexivity. }
  rewrite Ep. set (pads := map _ (combine (t_shape x) want)).
  assert (Lp : length pads = length (t_shape x)) by (unfold pads; rewrite map_length, combine_length; lia).
  assert (Sum : forall a b, a + fst (crop_padding a b None) + snd (crop_padding a b None) = wanted a b) by (intros a b; unfold crop_padding, wanted; destruct (Z.leb_spec b 0); [cbn; lia|pose proof (halves_sum (b - a)); lia]).
  destruct (pad_window pads zero x (map (fun sw => wanted (fst sw) (snd sw)) (combine (t_shape x) want)) W Lp) as (out & E & Wo & P).
  - unfold pads. clear - Sum L. revert want L. induction (t_shape x) as [|a s IH]; intros [|b want] L; try discriminate; [reflexivity|]. cbn [combine map fst snd]. rewrite <- IH by (injection L; auto). f_equal. now rewrite Sum.
  - clear - Hp L. revert want L. induction Hp as [|a s Ha Hp IH]; intros [|b want] L; try discriminate; cbn [combine map fst snd]; constructor.
    + unfold wanted. destruct (Z.leb_spec b 0); lia.
    + apply IH. now injection L.
  - exact Sup.
  - intros Hl. rewrite Lp, <- L in Hl. specialize (H4 Hl). unfold pads. destruct (t_shape x) as [|a s]; destruct want as [|b want]; try discriminate. cbn [combine map nth fst snd] in *.
    unfold crop_padding, wanted in *. destruct (Z.leb_spec b 0); cbn [fst snd]; [lia|]. unfold halves. cbn [fst snd]. Z.to_euclidean_division_equations. lia.
  - exists (map (fun p => - fst p) pads), out. split; [exact E|]. split; [exact Wo|]. split; [|exact P].
    unfold pads. clear - L. revert want L. induction (t_shape x) as [|a s IH]; intros [|b want] L; try discriminate; cbn [combine map fst snd]; constructor; [|apply IH; now injection L].
    cbn [fst snd]. unfold crop_padding, wanted. destruct (Z.leb_spec b 0); [unfold central; cbn; lia|apply halves_central].
Qed.
(** limit: no axis is longer than its limit, the limits being those of the last axes *)
Definition limited (size lim : Z) : Z := if lim <=? 0 then size else Z.min size lim.
Lemma limit_axis_limited a b : limit_axis a b = limited a b.
Proof. unfold limit_axis, limited. destruct (Z.leb_spec b 0); [reflexivity|]. cbn [orb]. destruct (Z.leb_spec a b); lia. Qed.
Theorem C129_limit_partial {A} (zero : A) (x : tensor A) lead shape limits : wf x -> t_shape x = lead ++ shape -> length limits = length shape -> positive_shape (t_shape x) -> tile_supports (t_dtype x) = true ->
  (length (t_shape x) = 4%nat -> length limits = 4%nat -> nth 0 shape 0 <= limited (nth 0 shape 0) (nth 0 limits 0)) ->
  exists starts out, limit zero limits x = SOk (filled out) /\ wf out /\
    Forall2 (fun sw s => central (fst sw) (limited (fst sw) (snd sw)) s) (combine shape limits) starts /\
    window zero (repeat 0 (length lead) ++ starts) (lead ++ map (fun sw => limited (fst sw) (snd sw)) (combine shape limits)) x out.
Proof.
  intros W Es L Hp Sup H4. unfold limit. rewrite Es, app_length, L. rewrite (proj2 (Nat.leb_le _ _)) by lia. cbn [negb].
  replace (length lead + length shape - length shape)%nat with (length lead) by lia. set (lims := repeat (-1) (length lead) ++ limits).
  assert (Ll : length lims = length (lead ++ shape)) by (unfold lims; rewrite !app_length, repeat_length; lia).
  assert (Cm : forall {B} (f : Z * Z -> B), map f (combine (lead ++ shape) lims) = map (fun a => f (a, -1)) lead ++ map f (combine shape limits)).
  { intros B f. unfold lims. clear. induction lead as [|a l IH]; cbn [app length repeat combine map]; [reflexivity|]. now rewrite IH. }
  assert (Want : lead ++ map (fun sw => limited (fst sw) (snd sw)) (combine shape limits) = map (fun sw => limited (fst sw) (snd sw)) (combine (lead ++ shape) lims)).
  { rewrite Cm. f_equal. rewrite <- (map_id lead) at 1. apply map_ext. intros a. reflexivity. }
  destruct (existsb (fun p => exceeds (fst p) (snd p)) (combine (lead ++ shape) lims)) eqn:Ex; cbn [negb].
  - set (pads := map _ (combine (lead ++ shape) lims)). assert (Lp : length pads = length (t_shape x)) by (unfold pads; rewrite map_length, combine_length, Es; lia).
    destruct (pad_window pads zero x (map (fun sw => limited (fst sw) (snd sw)) (combine (lead ++ shape) lims)) W Lp) as (out & E & Wo & P).
    + unfold pads. rewrite Es. clear - Ll. revert Ll. generalize (lead ++ shape) as s. induction lims as [|b l IH]; intros [|a s] Ll; try discriminate; [reflexivity|]. cbn [combine map fst snd]. rewrite <- IH by (injection Ll; auto). f_equal.
      rewrite limit_axis_limited. pose proof (halves_sum (limited a b - a)). lia.
    + rewrite Es in Hp. clear - Hp Ll. revert Ll. generalize lims. induction Hp as [|a s Ha Hp IH]; intros [|b l] Ll; try discriminate; cbn [combine map fst snd]; constructor; [|apply IH; now injection Ll].
      unfold limited. destruct (Z.leb_spec b 0); lia.
    + exact Sup.
    + intros Hl. rewrite Lp in Hl. specialize (H4 Hl). unfold pads. destruct lead as [|a0 lead].
      * cbn [app] in *. rewrite Es in Hl. specialize (H4 ltac:(lia)). subst lims. cbn [length repeat app]. destruct shape as [|a s]; destruct limits as [|b l]; try discriminate. cbn [combine map nth fst snd] in *. rewrite limit_axis_limited.
        assert (E1 : limited a b = a) by (unfold limited in *; destruct (Z.leb_spec b 0); lia). rewrite E1, Z.sub_diag. cbn. lia.
      * subst lims. cbn [app length repeat combine map nth fst snd]. unfold limit_axis. cbn [Z.leb Z.compare orb]. rewrite Z.sub_diag. cbn. lia.
    + exists (map (fun p => - fst p) (map (fun p => halves (limit_axis (fst p) (snd p) - fst p)) (combine shape limits))), out. split; [exact E|]. split; [exact Wo|]. split.
      * clear - L. revert shape L. induction limits as [|b l IH]; intros [|a s] L; try discriminate; cbn [combine map fst snd]; constructor; [|apply IH; now injection L]. cbn [fst snd]. rewrite limit_axis_limited. apply halves_central.
      * rewrite Want. replace (repeat 0 (length lead) ++ map (fun p => - fst p) (map (fun p => halves (limit_axis (fst p) (snd p) - fst p)) (combine shape limits))) with (map (fun p : Z * Z => - fst p) pads); [exact P|].
        unfold pads. rewrite Cm, map_app. f_equal. rewrite map_map. clear. induction lead as [|a l IH]; [reflexivity|]. cbn [map length repeat]. rewrite IH. f_equal. unfold limit_axis. cbn. rewrite Z.sub_diag. reflexivity.
  - assert (Same : map (fun sw => limited (fst sw) (snd sw)) (combine shape limits) = shape).
    { assert (Ex' : existsb (fun p => exceeds (fst p) (snd p)) (combine shape limits) = false).
      { destruct (existsb (fun p => exceeds (fst p) (snd p)) (combine shape limits)) eqn:E; [|reflexivity]. exfalso. apply existsb_exists in E. destruct E as (p & P1 & P2).
        assert (existsb (fun p => exceeds (fst p) (snd p)) (combine (lead ++ shape) lims) = true); [|congruence]. apply existsb_exists. exists p. split; [|exact P2].
        pose proof (Cm _ (fun q => q)) as C. rewrite !map_id in C. rewrite C. apply in_or_app. now right. }
      clear - L Ex'. revert shape L Ex'. induction limits as [|b l IH]; intros [|a s] L Ex; try discriminate; [reflexivity|]. cbn [combine map fst snd existsb] in *. apply orb_false_iff in Ex. destruct Ex as [E1 E2]. rewrite IH by (auto; now injection L). f_equal.
      unfold exceeds in E1. apply negb_false_iff in E1. unfold limited. destruct (Z.leb_spec b 0); [reflexivity|]. cbn [orb] in E1. apply Z.leb_le in E1. lia. }
    exists (repeat 0 (length shape)), x. split; [rewrite <- Es; now destruct x|]. split; [exact W|]. split.
    + clear - L Same. revert shape L Same. induction limits as [|b l IH]; intros [|a s] L Same; try discriminate; cbn [combine length repeat]; constructor; [|apply IH; [now injection L|cbn [combine map] in Same; now injection Same]].
      cbn [combine map fst snd] in Same. injection Same as Sa _. cbn [fst snd]. rewrite Sa. unfold central. cbn. lia.
    + rewrite Same. split; [reflexivity|]. split; [exact Es|]. split; [rewrite !app_length, !repeat_length; lia|]. intros c Hc. rewrite <- repeat_app, <- app_length.
      assert (Sh : shifted (repeat 0 (length (lead ++ shape))) c = c).
      { apply inside_length in Hc. revert Hc. generalize (lead ++ shape) as s. clear. unfold shifted. induction c as [|k c IH]; intros [|a s] Hl; try discriminate; [reflexivity|]. cbn [length repeat combine map fst snd]. rewrite IH by (injection Hl; auto). reflexivity. }
      rewrite Sh. split; [reflexivity|]. intros N. exfalso. apply N. now rewrite Es.
Qed.
Print Assumptions C129_center_crop2d.
Print Assumptions C129_crop_nd_partial.
Print Assumptions C129_limit_partial.
Example C129_example : nhwc_center_crop2d 0 [2; 5] (Tn 2 [1; 3; 3; 1] [1; 2; 3; 4; 5; 6; 7; 8; 9]) = SOk (filled (Tn 2 [1; 5; 2; 1] [0; 0; 1; 2; 4; 5; 7; 8; 0; 0])) /\
  crop_nd 0 [] [-1; 1] (Tn 2 [2; 3] [1; 2; 3; 4; 5; 6]) = SOk (filled (Tn 2 [2; 1] [2; 5])) /\
  limit 0 [4; 2] (Tn 2 [1; 2; 4] [1; 2; 3; 4; 5; 6; 7; 8]) = SOk (filled (Tn 2 [1; 2; 2] [2; 3; 6; 7])).
Proof. split; [reflexivity|]. split; reflexivity. Qed.
(** Cropping the first of four axes reads (or writes) outside of the tensors. *)
Theorem C129_first_axis_refuted : exists (x : tensor Z), wf x /\ t_shape x = [3; 1; 1; 1] /\ crop_nd 0 [] [1; -1; -1; -1] x = SUndef /\ limit 0 [1; -1; -1; -1] x = SUndef.
Proof. exists (Tn 2 [3; 1; 1; 1] [1; 2; 3]). split; [split; [repeat constructor; lia|reflexivity]|]. split; [reflexivity|]. split; reflexivity. Qed.
(** A crop to no pixels is not refused and has one. *)
Theorem C129_empty_refuted : exists (x : tensor Z), wf x /\ nhwc_center_crop2d 0 [1; 0] x = SOk (filled (Tn 2 [1; 1; 1; 1] [0])).
Proof. exists (Tn 2 [1; 2; 1; 1] [7; 8]). split; [split; [repeat constructor; lia|reflexivity]|reflexivity]. Qed.
Print Assumptions C129_first_axis_refuted.
Print Assumptions C129_empty_refuted.

(** ** C130: crop_nd with a shift starts there. *)
Theorem C130_shift_partial {A} (zero : A) (x : tensor A) shift want : wf x -> length want = length (t_shape x) -> length shift = length (t_shape x) -> t_shape x <> [] -> positive_shape (t_shape x) -> tile_supports (t_dtype x) = true ->
  (length want = 4%nat -> nth 0 shift 0 <= 0 /\ nth 0 (t_shape x) 0 <= nth 0 shift 0 + wanted (nth 0 (t_shape x) 0) (nth 0 want 0)) ->
  exists out, crop_nd zero shift want x = SOk (filled out) /\ wf out /\ window zero shift (map (fun sw => wanted (fst sw) (snd sw)) (combine (t_shape x) want)) x out.
Proof.
  intros W L Ls Ne Hp Sup H4. unfold crop_nd. rewrite L, Ls, Nat.eqb_refl, orb_true_r. cbn [andb negb]. destruct (Nat.eqb_spec (length (t_shape x)) 0) as [E0|_]; [destruct (t_shape x); [congruence|discriminate]|].
  assert (Em : match shift with [] => repeat None (length (t_shape x)) | _ :: _ => map Some shift end = map Some shift) by (destruct shift; [destruct (t_shape x); [congruence|discriminate]|reflexivity]). rewrite Em. clear Em.
  set (pads := map _ _).
  assert (Lp : length pads = length (t_shape x)) by (unfold pads; rewrite map_length, !combine_length, map_length; lia).
  assert (Sum : forall a b s, a + fst (crop_padding a b (Some s)) + snd (crop_padding a b (Some s)) = wanted a b) by (intros a b s; unfold crop_padding, wanted; destruct (Z.leb_spec b 0); cbn; lia).
  assert (F0 : forall a b s, fst (crop_padding a b (Some s)) = - s) by (intros a b s; unfold crop_padding; destruct (Z.leb_spec b 0); reflexivity).
  destruct (pad_window pads zero x (map (fun sw => wanted (fst sw) (snd sw)) (combine (t_shape x) want)) W Lp) as (out & E & Wo & P).
  - unfold pads. clear - Sum L Ls. revert want shift L Ls. induction (t_shape x) as [|a s IH]; intros [|b want] [|k shift] L Ls; try discriminate; [reflexivity|]. cbn [combine map fst snd]. rewrite <- (IH want shift) by (try (injection L; auto); injection Ls; auto). f_equal. now rewrite Sum.
  - clear - Hp L. revert want L. induction Hp as [|a s Ha Hp IH]; intros [|b want] L; try discriminate; cbn [combine map fst snd]; constructor.
    + unfold wanted. destruct (Z.leb_spec b 0); lia.
    + apply IH. now injection L.
  - exact Sup.
  - intros Hl. rewrite Lp, <- L in Hl. specialize (H4 Hl). unfold pads. destruct (t_shape x) as [|a s]; destruct want as [|b want]; destruct shift as [|k shift]; try discriminate. cbn [combine map nth fst snd] in *.
    pose proof (Sum a b k). pose proof (F0 a b k). cbn [map combine fst snd nth] in *. lia.
  - exists out. split; [exact E|]. split; [exact Wo|]. replace shift with (map (fun p : Z * Z => - fst p) pads) at 1; [exact P|].
    unfold pads. clear - F0 L Ls. revert want shift L Ls. induction (t_shape x) as [|a s IH]; intros [|b want] [|k shift] L Ls; try discriminate; [reflexivity|]. cbn [combine map fst snd]. rewrite (IH want shift) by (try (injection L; auto); injection Ls; auto). f_equal. rewrite F0. lia.
Qed.
(** Other numbers of shifts or sizes than axes are refused. *)
Theorem C130_refused {A} (zero : A) (x : tensor A) shift want : (shift <> [] /\ length shift <> length (t_shape x)) \/ length want <> length (t_shape x) -> crop_nd zero shift want x = SErr.
Proof.
  intros H. unfold crop_nd. destruct (Nat.eqb_spec (length want) (length (t_shape x))) as [E|N]; [|rewrite andb_false_r; reflexivity]. destruct H as [[H1 H2]|H]; [|contradiction].
  destruct (Nat.eqb_spec (length shift) 0) as [E0|_]; [destruct shift; [congruence|discriminate]|]. rewrite (proj2 (Nat.eqb_neq _ _) H2). reflexivity.
Qed.
Print Assumptions C130_shift_partial.
Print Assumptions C130_refused.
Example C130_example : crop_nd 0 [1; -1] [2; 3] (Tn 2 [3; 2] [1; 2; 3; 4; 5; 6]) = SOk (filled (Tn 2 [2; 3] [0; 3; 4; 0; 5; 6])).
Proof. reflexivity. Qed.
Theorem C130_first_axis_refuted : exists (x : tensor Z), wf x /\ crop_nd 0 [1; 0; 0; 0] [1; 1; 1; 1] x = SUndef.
Proof. exists (Tn 2 [3; 1; 1; 1] [1; 2; 3]). split; [split; [repeat constructor; lia|reflexivity]|reflexivity]. Qed.
Print Assumptions C130_first_axis_refuted.

(** ** C131: scaling images so that the short side has the size asked for. *)
Section Scale.
Context {A : Type}.
Variable to_q : A -> Q.
Variable cast : Q -> A.
Lemma whole_names n h w c h' w' : 0 < h' -> 0 < w' -> names_axes [n] h w [c] [-1] h' w' [-1].
Proof. intros H1 H2. split; [exact H1|]. split; [exact H2|]. split; [constructor; [left; lia|constructor]|]. split; [constructor; [left; lia|constructor]|]. left. split; constructor; try lia; constructor. Qed.
(** the sizes: the short side as asked, the long side the whole part of the proportion *)
Theorem C131_sizes_partial type s (x : tensor A) n h w c : wf x -> t_shape x = [n; h; w; c] -> 0 < h -> 0 < w -> 0 < s -> s * Z.max h w <= int_max ->
  exists h' w', Z.min h w * Z.max h' w' <= s * Z.max h w < Z.min h w * (Z.max h' w' + 1) /\ Z.min h' w' = s /\ (h <= w -> h' <= w') /\ (w <= h -> w' <= h') /\
    nhwc_scale_resize2d to_q cast type [s] x = resize2d to_q cast type [-1; h'; w'; -1] x /\
    forall out, nhwc_scale_resize2d to_q cast type [s] x = SOk out -> t_shape out = [n; h'; w'; c] /\ t_dtype out = t_dtype x.
Proof.
  intros W Es Hh Hw Hs Ov. unfold nhwc_scale_resize2d. rewrite Es. cbn [scale_size].
  assert (Sc : forall long short, 0 < short <= long -> s * long <= int_max -> exists l, scaled s long short = SOk l /\ s <= l /\ short * l <= s * long < short * (l + 1)).
  { intros long short Hl Ho. unfold scaled. assert (P0 : 0 <= s * long) by nia. rewrite (proj2 (Z.eqb_neq short 0)) by lia. rewrite (proj2 (Z.ltb_ge int_max _)), (proj2 (Z.ltb_ge _ (- int_max - 1))) by (unfold int_max in *; lia). cbn [orb].
    exists (Z.quot (s * long) short). split; [reflexivity|]. rewrite Z.quot_div_nonneg by lia. pose proof (Z.mul_div_le (s * long) short ltac:(lia)). pose proof (Z.mul_succ_div_gt (s * long) short ltac:(lia)). split; [apply Z.div_le_lower_bound; nia|lia]. }
  destruct (Z.ltb_spec w h) as [Hwh|Hwh].
  - rewrite Z.max_l in Ov by lia. destruct (Sc h w ltac:(lia) Ov) as (l & -> & B1 & B2). cbn [bind2 fst snd]. exists l, s. rewrite (Z.min_r h w), (Z.max_l h w), (Z.max_l l s), (Z.min_r l s) by lia. split; [exact B2|]. split; [reflexivity|]. split; [lia|]. split; [lia|]. split; [reflexivity|].
    intros out H. apply C117_shape in H. destruct H as (D & _ & Sh & _). split; [|exact D]. rewrite Sh, Es. unfold asked. cbn [combine map fst snd]. rewrite (proj2 (Z.ltb_ge l 0)), (proj2 (Z.ltb_ge s 0)) by lia. reflexivity.
  - rewrite Z.max_r in Ov by lia. destruct (Sc w h ltac:(lia) Ov) as (l & -> & B1 & B2). cbn [bind2 fst snd]. exists s, l. rewrite (Z.min_l h w), (Z.max_r h w), (Z.max_r s l), (Z.min_l s l) by lia. split; [exact B2|]. split; [reflexivity|]. split; [lia|]. split; [intros Hq; assert (w = h) by lia; subst; nia|]. split; [reflexivity|].
    intros out H. apply C117_shape in H. destruct H as (D & _ & Sh & _). split; [|exact D]. rewrite Sh, Es. unfold asked. cbn [combine map fst snd]. rewrite (proj2 (Z.ltb_ge l 0)), (proj2 (Z.ltb_ge s 0)) by lia. reflexivity.
Qed.
(** two sizes are width and height *)
Theorem C131_two type h' w' (x : tensor A) n h w c : t_shape x = [n; h; w; c] ->
  nhwc_scale_resize2d to_q cast type [w'; h'] x = resize2d to_q cast type [-1; h'; w'; -1] x.
Proof. intros Es. unfold nhwc_scale_resize2d. rewrite Es. reflexivity. Qed.
(** with linear interpolation, for example: the pixels *)
Theorem C131_linear_partial (Cp : forall p q, (p == q)%Q -> cast p = cast q) s (x : tensor A) n h w c : wf x -> t_shape x = [n; h; w; c] -> 2 <= h -> 2 <= w -> 0 < s -> s <> Z.min h w -> s * Z.max h w <= int_max -> tile_supports (t_dtype x) = true ->
  exists h' w' out, Z.min h' w' = s /\ nhwc_scale_resize2d to_q cast 0 [s] x = SOk (filled out) /\ wf out /\ t_shape out = [n; h'; w'; c] /\
    forall k y x0 t, 0 <= k < n -> 0 <= y < h' -> 0 <= x0 < w' -> 0 <= t < c ->
      exists v py px, (forall sy sx, 0 <= sy < h -> 0 <= sx < w -> elt x [k; sy; sx; t] = Some (v sy sx)) /\
        linear_sample h (source_position h h' y) py /\ linear_sample w (source_position w w' x0) px /\
        elt out [k; y; x0; t] = Some (cast (interpolate tent h w (fun sy sx => to_q (v sy sx)) py px)).
Proof.
  intros W Es Hh Hw Hs Hn Ov Sup. destruct (C131_sizes_partial 0 s x n h w c W Es ltac:(lia) ltac:(lia) Hs Ov) as (h' & w' & B & M & Or1 & Or2 & E & _).
  destruct (C119_linear_partial to_q cast x [n] h w [c] [-1] h' w' [-1] Cp W Es Hh Hw) as (out & Eo & Wo & _ & So & P); [apply whole_names; lia|lia|exact Sup|].
  exists h', w', out. split; [exact M|]. split; [rewrite E; exact Eo|]. split; [exact Wo|]. split; [exact So|]. intros k y x0 t Hk Hy Hx Ht.
  destruct (P [k] y x0 [t]) as (v & py & px & V & S1 & S2 & _ & _ & Q); [constructor; [exact Hk|constructor]|exact Hy|exact Hx|constructor; [exact Ht|constructor]|]. exists v, py, px. auto.
Qed.
End Scale.
Print Assumptions C131_sizes_partial.
Print Assumptions C131_two.
Print Assumptions C131_linear_partial.
Example C131_example : nhwc_scale_resize2d zq qz_ 2 [4] (Tn 2 [1; 2; 3; 1] [1; 2; 3; 4; 5; 6]) = SOk (filled (Tn 2 [1; 4; 6; 1] [1; 1; 2; 2; 3; 3; 1; 1; 2; 2; 3; 3; 4; 4; 5; 5; 6; 6; 4; 4; 5; 5; 6; 6])).
Proof. reflexivity. Qed.
(** Sizes whose product does not fit an int are not refused; images without rows divide by zero. *)
Theorem C131_overflow_refuted : (exists x : tensor Z, wf x /\ nhwc_scale_resize2d zq qz_ 0 [1073741824] x = SUndef /\ t_shape x = [1; 1; 2; 1]) /\
  exists x : tensor Z, wf x /\ nhwc_scale_resize2d zq qz_ 0 [4] x = SUndef /\ t_shape x = [1; 0; 2; 1].
Proof.
  split; [exists (Tn 2 [1; 1; 2; 1] [1; 2])|exists (Tn 2 [1; 0; 2; 1] [])]; (split; [split; [repeat constructor; lia|reflexivity]|]); split; reflexivity.
Qed.
Print Assumptions C131_overflow_refuted.
