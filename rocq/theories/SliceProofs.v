From Coq Require Import List ZArith Bool Lia.
From Verif Require Import ShapeModel ShapeSpec ShapeProofs KernelBase KernelSpec KernelProofs CoordProofs SliceModel SliceSpec.
Import ListNotations.
Local Open Scope Z_scope.

(** * One axis *)
Definition axis_indices (n b s : Z) : list Z := map (fun k => b + k * s) (upto n).

Lemma axis_indices_length n b s : length (axis_indices n b s) = Z.to_nat n.
Proof. unfold axis_indices. now rewrite map_length, length_upto. Qed.

Lemma axis_indices_nth n b s k : 0 <= k < n -> nth (Z.to_nat k) (axis_indices n b s) 0 = b + k * s.
Proof.
  intros H. apply nth_error_nth. unfold axis_indices. rewrite nth_error_map, nth_error_upto by exact H. reflexivity.
Qed.

Lemma up_count b e s : 0 < s -> b < e -> forall k, 0 <= k -> (k < Z.quot (e - b - 1) s + 1 <-> b + k * s < e).
Proof.
  intros Hs H k Hk. rewrite Z.quot_div_nonneg by lia.
  pose proof (Z.div_mod (e - b - 1) s ltac:(lia)). pose proof (Z.mod_pos_bound (e - b - 1) s Hs). split; intros; nia.
Qed.

Lemma up_count_pos b e s : 0 < s -> b < e -> 0 < Z.quot (e - b - 1) s + 1.
Proof. intros Hs H. rewrite Z.quot_div_nonneg by lia. pose proof (Z.div_pos (e - b - 1) s). lia. Qed.

Definition count_of (b e stride : Z) : Z :=
  if 0 <? stride then if b <? e then Z.quot (e - b - 1) stride + 1 else 0
  else if stride <? 0 then if e <? b then Z.quot (b - e - 1) (- stride) + 1 else 0 else 0.

Lemma count_of_spec b e stride : stride <> 0 -> 0 <= count_of b e stride /\
  progression b e stride (axis_indices (count_of b e stride) b stride).
Proof.
  intros Hs. assert (H : 0 <= count_of b e stride /\ forall k, 0 <= k ->
    (k < count_of b e stride <-> if 0 <? stride then b + k * stride < e else e < b + k * stride)).
  { unfold count_of. destruct (Z.ltb_spec 0 stride) as [Hp|Hn].
    - destruct (Z.ltb_spec b e) as [Hb|Hb].
      + split; [pose proof (up_count_pos b e stride Hp Hb); lia|]. apply up_count; auto.
      + split; [lia|]. intros k Hk. split; nia.
    - destruct (Z.ltb_spec stride 0); [|lia]. destruct (Z.ltb_spec e b) as [Hb|Hb].
      + pose proof (up_count_pos e b (- stride) ltac:(lia) Hb). split; [lia|].
        intros k Hk. rewrite (up_count e b (- stride) ltac:(lia) Hb k Hk). lia.
      + split; [lia|]. intros k Hk. split; nia. }
  destruct H as [H1 H2]. split; [exact H1|]. split.
  - intros k Hk. rewrite axis_indices_length in Hk.
    rewrite <- (Nat2Z.id k) at 1. rewrite axis_indices_nth by lia. reflexivity.
  - intros k Hk. rewrite axis_indices_length, Z2Nat.id by exact H1. now apply H2.
Qed.

(** the end the code effectively uses *)
Definition code_end (x stride e : Z) : option Z := if (stride <? 0) && (e =? - x) then None else Some e.

Lemma empty_progression b e stride : (if 0 <? stride then e <= b else b <= e) -> stride <> 0 ->
  forall b' s', progression b e stride (axis_indices 0 b' s').
Proof.
  intros H Hs b' s'. split.
  - intros k Hk. rewrite axis_indices_length in Hk. cbn in Hk. lia.
  - intros k Hk. rewrite axis_indices_length. cbn. destruct (Z.ltb_spec 0 stride); split; try lia; nia.
Qed.


Definition infer_axis' (x begin end_ stride : Z) (begin_flag end_flag : bool) : Z * Z * Z :=
  let none := fun b e => (0, b, e) in
  let after_begin := fun b =>
    let after_end := fun e => (count_of b e stride, b, e) in
    if end_flag then after_end (if 0 <? stride then x else -1)
    else if 0 <? stride then
      if end_ <=? - x then none b end_
      else if x <? end_ then after_end x
      else if end_ <? 0 then after_end (end_ + x) else after_end end_
    else
      if x <? end_ then none b end_
      else if end_ <=? - x then after_end (-1)
      else if end_ <? 0 then after_end (end_ + x) else after_end end_ in
  if begin_flag then after_begin (if 0 <? stride then 0 else x - 1)
  else if 0 <? stride then
    if x <=? begin then none begin end_
    else if begin <? - x then after_begin 0
    else if begin <? 0 then after_begin (begin + x) else after_begin begin
  else
    if begin <? - x then none begin end_
    else if x <=? begin then after_begin (x - 1)
    else if begin <? 0 then after_begin (begin + x) else after_begin begin.

Lemma infer_axis_eq x b e s bf ef : infer_axis x b e s bf ef = infer_axis' x b e s bf ef.
Proof. reflexivity. Qed.

Definition good_axis (B E stride : Z) (r : Z * Z * Z) : Prop :=
  (exists E', r = (count_of B E' stride, B, E') /\
     (E' = E \/ (0 < stride /\ E' <= B /\ E <= B) \/ (stride < 0 /\ B <= E' /\ B <= E)))
  \/ (exists b' e', r = (0, b', e') /\ if 0 <? stride then E <= B else B <= E).

Lemma count_of_empty B E stride : stride <> 0 -> (if 0 <? stride then E <= B else B <= E) -> count_of B E stride = 0.
Proof.
  intros Hs H. unfold count_of. destruct (Z.ltb_spec 0 stride).
  - destruct (Z.ltb_spec B E); [lia|reflexivity].
  - destruct (Z.ltb_spec stride 0); [|reflexivity]. destruct (Z.ltb_spec E B); [lia|reflexivity].
Qed.

Lemma infer_axis_cases x b e stride (bf ef : bool) : 0 <= x -> stride <> 0 ->
  good_axis (py_begin x stride (unless bf b)) (py_end x stride (if ef then None else code_end x stride e)) stride
    (infer_axis x b e stride bf ef).
Proof.
  intros Hx Hs. rewrite infer_axis_eq. unfold infer_axis', code_end, py_begin, py_end, unless, good_axis. cbv zeta beta.
  destruct bf, ef; destruct (Z.ltb_spec 0 stride) as [Hp|Hn];
    try (assert (E0 : (stride <? 0) = false) by (apply Z.ltb_ge; lia); rewrite E0; cbn [andb]);
    try (assert (E0 : (stride <? 0) = true) by (apply Z.ltb_lt; lia); rewrite E0; cbn [andb]);
    try destruct (Z.eqb_spec e (- x)); unfold adjust;
    repeat match goal with |- context [if ?c <=? ?d then _ else _] => destruct (Z.leb_spec c d)
           | |- context [if ?c <? ?d then _ else _] => destruct (Z.ltb_spec c d) end;
    try lia;
    first [ right; do 2 eexists; split; [reflexivity|lia]
          | left; eexists; split; [apply f_equal2; [apply f_equal2; [apply f_equal3; [|reflexivity|reflexivity]; lia | lia]|reflexivity] | lia]
          | left; eexists; split; [apply f_equal2; [apply f_equal2; [reflexivity| lia]|reflexivity] | lia] ].
Qed.

Theorem infer_axis_ok x b e stride (bf ef : bool) : 0 <= x -> stride <> 0 ->
  let '(n, b', _) := infer_axis x b e stride bf ef in
  0 <= n /\
  py_slice x (unless bf b) (if ef then None else code_end x stride e) stride (axis_indices n b' stride) /\
  forall k, 0 <= k < n -> 0 <= b' + k * stride < x.
Proof.
  intros Hx Hs. pose proof (infer_axis_cases x b e stride bf ef Hx Hs) as G.
  unfold py_slice. 
  set (B := py_begin x stride (unless bf b)) in *.
  set (E := py_end x stride (if ef then None else code_end x stride e)) in *.
  assert (RB : if 0 <? stride then 0 <= B else B <= x - 1).
  { unfold B, py_begin, unless, adjust. destruct bf, (0 <? stride); lia. }
  assert (RE : if 0 <? stride then E <= x else -1 <= E).
  { unfold E, py_end, adjust. destruct ef; [destruct (0 <? stride); lia|].
    destruct (code_end x stride e); destruct (0 <? stride); lia. }
  clearbody B E.
  assert (R : forall n, 0 <= n -> progression B E stride (axis_indices n B stride) ->
     forall k, 0 <= k < n -> 0 <= B + k * stride < x).
  { intros n Hn [_ P] k Hk. specialize (P k ltac:(lia)). rewrite axis_indices_length, Z2Nat.id in P by lia.
    destruct (Z.ltb_spec 0 stride); destruct P as [P _]; specialize (P ltac:(lia)); nia. }
  destruct G as [(E' & -> & H)|(b' & e' & -> & H)].
  - destruct (count_of_spec B E stride Hs) as [C1 C2].
    assert (EC : count_of B E' stride = count_of B E stride).
    { destruct H as [->|[(H1 & H2 & H3)|(H1 & H2 & H3)]]; [reflexivity| |];
        rewrite !count_of_empty; auto; destruct (Z.ltb_spec 0 stride); lia. }
    rewrite EC. split; [exact C1|]. split; [exact C2|]. apply R; assumption.
  - split; [lia|]. split; [now apply empty_progression|]. intros; lia.
Qed.

(** * All axes *)
Fixpoint sels (axes : list (Z * Z)) (stride : list Z) : list (list Z) :=
  match axes, stride with
  | (n, b) :: axes', s :: stride' => axis_indices n b s :: sels axes' stride'
  | _, _ => []
  end.

Definition end_of (masked : bool) (x stride e : Z) : option Z := if masked then None else code_end x stride e.

Definition steps (c begin stride : list Z) : list Z :=
  map (fun cbs => fst cbs * snd (snd cbs) + fst (snd cbs)) (combine c (combine begin stride)).

Lemma infer_axes_ok in_ : forall i begin end_ stride bm em,
  nonneg_shape in_ -> length begin = length in_ -> length end_ = length in_ -> length stride = length in_ ->
  Forall (fun s => s <> 0) stride ->
  let axes := infer_axes i in_ begin end_ stride bm em in
  let sel := sels axes stride in
  length axes = length in_ /\ length sel = length in_ /\ nonneg_shape (map fst axes) /\
  map fst axes = map (fun l => Z.of_nat (length l)) sel /\
  (forall j, (j < length in_)%nat ->
     py_slice (nth j in_ 0) (unless (bm (i + j)%nat) (nth j begin 0))
       (end_of (em (i + j)%nat) (nth j in_ 0) (nth j stride 0) (nth j end_ 0)) (nth j stride 0) (nth j sel [])) /\
  forall c, inside (map fst axes) c -> inside in_ (pick sel c) /\ steps c (map snd axes) stride = pick sel c.
Proof.
  induction in_ as [|x in_ IH]; intros i [|b begin] [|e end_] [|s stride] bm em Hn L1 L2 L3 Hs; try discriminate.
  - cbn. split; [reflexivity|]. split; [reflexivity|]. split; [constructor|]. split; [reflexivity|]. split; [lia|].
    intros c Hc. inversion Hc; subst. split; [constructor|reflexivity].
  - inversion Hn as [|? ? Hx Hn']; subst. inversion Hs as [|? ? Hs1 Hs']; subst.
    cbn [infer_axes]. pose proof (infer_axis_ok x b e s (bm i) (em i) Hx Hs1) as Ax.
    destruct (infer_axis x b e s (bm i) (em i)) as [[n b'] e'] eqn:EA. destruct Ax as (A1 & A2 & A3).
    destruct (IH (S i) begin end_ stride bm em Hn') as (R1 & R2 & R3 & R4 & R5 & R6); auto.
    cbv zeta. cbn [map fst snd length sels].
    split; [now rewrite R1|]. split; [now rewrite R2|]. split; [constructor; auto|].
    split. { rewrite axis_indices_length, Z2Nat.id by exact A1. now f_equal. }
    split.
    + intros [|j] Hj; cbn [nth].
      * rewrite Nat.add_0_r. exact A2.
      * replace (i + S j)%nat with (S i + j)%nat by lia. apply R5. cbn in Hj. lia.
    + intros c Hc. inversion Hc as [|? k ? c' Hk Hc']; subst. destruct (R6 c' Hc') as [R7 R8].
      unfold pick, steps. cbn [combine map fst snd]. rewrite axis_indices_nth by exact Hk. split.
      * constructor; [now apply A3|]. exact R7.
      * f_equal; [lia|]. exact R8.
Qed.

Lemma infer_axes_app a : forall i b begin begin2 end_ end2 stride stride2 bm em,
  length begin = length a -> length end_ = length a -> length stride = length a ->
  infer_axes i (a ++ b) (begin ++ begin2) (end_ ++ end2) (stride ++ stride2) bm em =
  infer_axes i a begin end_ stride bm em ++ infer_axes (i + length a) b begin2 end2 stride2 bm em.
Proof.
  induction a as [|x a IH]; intros i b [|b0 begin] begin2 [|e0 end_] end2 [|s0 stride] stride2 bm em L1 L2 L3; try discriminate.
  - cbn [app infer_axes length]. now rewrite Nat.add_0_r.
  - cbn [app infer_axes length]. destruct (infer_axis _ _ _ _ _ _) as [[n b'] e']. cbn [app]. f_equal.
    rewrite IH by (cbn in *; lia). f_equal. f_equal. lia.
Qed.

Lemma infer_axes_ext in_ : forall i begin end_ stride bm em bm' em',
  (forall j, (i <= j < i + length in_)%nat -> bm j = bm' j /\ em j = em' j) ->
  infer_axes i in_ begin end_ stride bm em = infer_axes i in_ begin end_ stride bm' em'.
Proof.
  induction in_ as [|x in_ IH]; intros i [|b begin] [|e end_] [|s stride] bm em bm' em' H; try reflexivity.
  cbn [infer_axes]. destruct (H i ltac:(cbn; lia)) as [-> ->]. destruct (infer_axis _ _ _ _ _ _) as [[n b'] e'].
  f_equal. apply IH. intros j Hj. apply H. cbn. lia.
Qed.

Lemma sels_app axes : forall axes2 stride stride2, length axes = length stride ->
  sels (axes ++ axes2) (stride ++ stride2) = sels axes stride ++ sels axes2 stride2.
Proof.
  induction axes as [|[n b] axes IH]; intros axes2 [|s stride] stride2 H; try discriminate; [reflexivity|].
  cbn [app sels]. f_equal. apply IH. now injection H.
Qed.

Lemma whole_axis x : 0 <= x -> infer_axis x 0 0 1 true true = (x, 0, x).
Proof.
  intros H. unfold infer_axis. cbv zeta. cbn [Z.ltb]. change (0 <? 1) with true. cbv iota.
  destruct (Z.ltb_spec 0 x); [|now replace x with 0 by lia]. f_equal. f_equal. rewrite Z.quot_1_r. lia.
Qed.

Lemma no_new_axes todo : forall in_, insert_new_axes todo 0 in_ = SOk in_.
Proof. induction todo as [|i todo IH]; intros in_; [reflexivity|]. cbn. unfold bit. rewrite Z.bits_0. apply IH. Qed.

Lemma no_shrink n : forall out, shrink_axes n 0 [] 0 out = SOk out.
Proof. induction n as [|n IH]; intros out; [reflexivity|]. cbn. unfold bit. rewrite Z.bits_0. apply IH. Qed.

Lemma no_ellipsis : bit_ones 0 = 0%nat.
Proof. reflexivity. Qed.

(** * The stores *)
Lemma slice_stores_ok {A} (src : list A) in_ y begin stride : forall n k,
  slice_stores src in_ y begin stride n (Z.of_nat k) (coordinate y k) =
  map (fun j => (Z.of_nat j, match to_index in_ (steps (coordinate y j) begin stride) with SOk j => load src j | _ => SUndef end)) (seq k n).
Proof.
  induction n as [|n IH]; intros k; [reflexivity|]. cbn [slice_stores seq map]. f_equal.
  replace (Z.of_nat k + 1) with (Z.of_nat (S k)) by lia. apply (IH (S k)).
Qed.

Lemma pick_app s1 : forall s2 c1 c2, length s1 = length c1 -> pick (s1 ++ s2) (c1 ++ c2) = pick s1 c1 ++ pick s2 c2.
Proof.
  induction s1 as [|l s1 IH]; intros s2 [|c c1] c2 H; try discriminate; [reflexivity|].
  unfold pick in *. cbn [app combine map]. f_equal. apply IH. now injection H.
Qed.

Lemma pick_upto s c : inside s c -> pick (map upto s) c = c.
Proof.
  induction 1 as [|d k s c Hk H IH]; [reflexivity|]. unfold pick in *. cbn [map combine fst snd]. f_equal; [|exact IH].
  apply nth_error_nth. now apply nth_error_upto.
Qed.

Lemma run_stores {A} (x : tensor A) in_ axes stride :
  nonneg_shape (map fst axes) ->
  Z.of_nat (length (t_data x)) = elements in_ ->
  (forall c, inside (map fst axes) c -> inside in_ (pick (sels axes stride) c) /\ steps c (map snd axes) stride = pick (sels axes stride) c) ->
  exists out, exec (fresh (prod (map fst axes)))
     (slice_stores (t_data x) in_ (map fst axes) (map snd axes) stride (Z.to_nat (prod (map fst axes))) 0 (start (map fst axes)))
   = SOk (map Some out) /\ Z.of_nat (length out) = elements (map fst axes) /\
   forall c, inside (map fst axes) c ->
     nth_error out (Z.to_nat (position (map fst axes) c)) =
     nth_error (t_data x) (Z.to_nat (position in_ (pick (sels axes stride) c))).
Proof.
  intros Hn Hd Hc. rewrite prod_elements.
  set (y := map fst axes) in *.
  set (g := fun c => match to_index in_ (steps c (map snd axes) stride) with SOk j => load (t_data x) j | _ => SUndef end).
  assert (Hg : forall c, inside y c -> exists a, g c = SOk a /\
     nth_error (t_data x) (Z.to_nat (position in_ (pick (sels axes stride) c))) = Some a).
  { intros c Hi. destruct (Hc c Hi) as [I E]. unfold g. rewrite E.
    pose proof (inside_length _ _ I) as L. rewrite to_index_ok by lia. rewrite L, Nat.sub_diag. cbn [skipn].
    apply load_ok. rewrite Hd. now apply position_bound. }
  destruct (coord_exec y g (slice_stores (t_data x) in_ y (map snd axes) stride (Z.to_nat (elements y)) 0 (start y)))
    as (out & E & L & H).
  - exact Hn.
  - intros _. apply (slice_stores_ok (t_data x) in_ y (map snd axes) stride (Z.to_nat (elements y)) 0).
  - intros ->. reflexivity.
  - intros c Hi. destruct (Hg c Hi) as (a & Ha & _). eauto.
  - exists out. split; [exact E|]. split; [exact L|]. intros c Hi. destruct (Hg c Hi) as (a & Ha & ->). now apply H.
Qed.

(** * The whole operator, without ellipsis, new axes and shrinking *)
Definition keeps (x : list Z) (begin end_ stride : list Z) (bm em : nat -> bool) (sel : list (list Z)) : Prop :=
  length sel = length x /\
  (forall j, (j < length begin)%nat ->
     py_slice (nth j x 0) (unless (bm j) (nth j begin 0)) (end_of (em j) (nth j x 0) (nth j stride 0) (nth j end_ 0))
       (nth j stride 0) (nth j sel [])) /\
  (forall j, (length begin <= j < length x)%nat -> nth j sel [] = upto (nth j x 0)).

Theorem slice_ok {A} (x : tensor A) begin end_ stride bm em : wf x ->
  length end_ = length begin -> length stride = length begin -> (0 < length begin <= length (t_shape x))%nat ->
  Forall (fun s => s <> 0) stride ->
  exists out sel, slice_run begin end_ stride bm em 0 0 0 x = SOk (filled out) /\ wf out /\
    keeps (t_shape x) begin end_ stride (bit bm) (bit em) sel /\ selected sel x out.
Proof.
  intros W L1 L2 L3 Hs. destruct W as [Wn Wd]. destruct x as [dt s data]. cbn [t_shape t_data t_dtype] in *.
  remember (firstn (length begin) s) as a eqn:Ea. remember (skipn (length begin) s) as r eqn:Er.
  assert (Es : s = a ++ r) by (subst a r; symmetry; apply firstn_skipn).
  assert (La : length a = length begin) by (subst a; rewrite firstn_length; lia).
  assert (Na : nonneg_shape a) by (rewrite Es in Wn; apply Forall_app in Wn; apply Wn).
  assert (Nr : nonneg_shape r) by (rewrite Es in Wn; apply Forall_app in Wn; apply Wn).
  pose proof (elements_nonneg r Nr) as Er0.
  destruct (infer_axes_ok a 0 begin end_ stride (bit bm) (bit em) Na) as (A1 & A2 & A3 & A4 & A5 & A6);
    [lia|lia|lia|exact Hs|].
  set (axes := infer_axes 0 a begin end_ stride (bit bm) (bit em)) in *.
  set (sel1 := sels axes stride) in *.
  set (sel := sel1 ++ map upto r).
  assert (Keeps : keeps s begin end_ stride (bit bm) (bit em) sel).
  { split; [|split].
    - unfold sel. rewrite app_length, map_length, Es, app_length. lia.
    - intros j Hj. specialize (A5 j ltac:(lia)). cbn [Nat.add] in A5. rewrite Es. unfold sel.
      rewrite !app_nth1 by lia. exact A5.
    - intros j Hj. rewrite Es in *. rewrite app_length in Hj. unfold sel. rewrite !app_nth2 by lia. rewrite A2, La.
      replace (@nil Z) with (upto 0) by reflexivity. apply map_nth. }
  assert (Len : map (fun l => Z.of_nat (length l)) sel = map fst axes ++ r).
  { unfold sel. rewrite map_app, <- A4. f_equal. rewrite map_map.
    clear - Nr. induction Nr as [|d r Hd H IH]; [reflexivity|]. cbn [map]. rewrite length_upto, IH, Z2Nat.id by exact Hd. reflexivity. }
  set (out_shape := map fst axes ++ r).
  assert (Nout : nonneg_shape out_shape) by (apply Forall_app; auto).
  assert (Core : exists out, slice_run begin end_ stride bm em 0 0 0 (Tn dt s data) = SOk (Tn dt out_shape (map Some out)) /\
     Z.of_nat (length out) = elements out_shape /\
     forall c1 c2, inside (map fst axes) c1 -> inside r c2 ->
       nth_error out (Z.to_nat (position out_shape (c1 ++ c2))) = nth_error data (Z.to_nat (position s (pick sel1 c1 ++ c2)))).
  { unfold slice_run, infer_slice. cbn [t_shape t_data t_dtype].
    rewrite L1, L2, !Nat.eqb_refl. cbn [andb negb].
    destruct (Nat.eqb_spec (length begin) 0); [lia|]. rewrite no_ellipsis. cbn [Nat.ltb Nat.leb Nat.eqb].
    unfold infer_rest. rewrite no_new_axes.
    destruct (Nat.ltb_spec (length begin) (length s)) as [Hm|Hm].
    - rewrite <- Ea, <- Er. rewrite app_length. cbn [length]. rewrite La, Nat.add_1_r, Nat.eqb_refl. cbn [negb].
      rewrite no_shrink. cbn [p_in p_y p_begin p_stride p_out].
      rewrite infer_axes_app by lia.
      rewrite (infer_axes_ext a 0 begin end_ stride _ _ (bit bm) (bit em)).
      2: { intros j Hj. destruct (Nat.eqb_spec j (length begin)); [lia|]. cbn [andb]. now rewrite !orb_false_r. }
      fold axes. cbn [infer_axes]. rewrite La. cbn [Nat.add]. rewrite Nat.eqb_refl. cbn [andb].
      rewrite !orb_true_r. rewrite (prod_elements r). rewrite whole_axis by exact Er0.
      set (axes2 := axes ++ [(elements r, 0)]).
      assert (Hin : elements (a ++ [elements r]) = elements s).
      { rewrite Es, !elements_app. cbn [elements]. lia. }
      rewrite !prod_elements. rewrite Hin, Z.eqb_refl. cbn [negb].
      assert (Sel2 : sels axes2 (stride ++ [1]) = sel1 ++ [upto (elements r)]).
      { unfold axes2. rewrite sels_app by lia. fold sel1. cbn [sels]. f_equal. f_equal.
        unfold axis_indices. rewrite (map_ext _ (fun k => k)) by (intros; lia). apply map_id. }
      destruct (run_stores (Tn dt s data) (a ++ [elements r]) axes2 (stride ++ [1])) as (out & E & L & H).
      + unfold axes2. rewrite map_app. apply Forall_app. split; [exact A3|]. constructor; [exact Er0|constructor].
      + cbn [t_data]. rewrite Hin. exact Wd.
      + intros c Hc. unfold axes2 in Hc. rewrite map_app in Hc. apply inside_app_inv in Hc. destruct Hc as (c1 & c2 & -> & H1 & H2).
        cbn [map fst] in H2. inversion H2 as [|? k ? c3 Hk H3]; subst c2. inversion H3; subst c3.
        rewrite Sel2. rewrite pick_app by (rewrite A2, <- A1, <- (map_length fst axes); apply (inside_length _ _ H1)).
        destruct (A6 c1 H1) as [I1 I2].
        assert (P1 : pick [upto (elements r)] [k] = [k]).
        { apply (pick_upto [elements r]). constructor; [exact Hk|constructor]. }
        rewrite P1. split; [apply inside_app; [exact I1|constructor; [exact Hk|constructor]]|].
        unfold steps, axes2. rewrite map_app. cbn [map snd].
        assert (C2 : forall (X Y : Type) (l1 l1' : list X) (l2 l2' : list Y), length l1 = length l2 ->
          combine (l1 ++ l1') (l2 ++ l2') = combine l1 l2 ++ combine l1' l2').
        { clear. intros X Y l1. induction l1 as [|p l1 IH]; intros l1' [|q l2] l2' L; try discriminate; [reflexivity|].
          cbn. f_equal. apply IH. now injection L. }
        rewrite (C2 _ _ (map snd axes)) by (rewrite map_length; lia).
        rewrite C2 by (rewrite combine_length, map_length; rewrite <- (inside_length _ _ H1), map_length; lia).
        rewrite map_app. fold (steps c1 (map snd axes) stride). rewrite I2. f_equal. cbn. f_equal. lia.
      + rewrite !prod_elements in E. cbn [t_data] in E. rewrite E.
        assert (Ey : map fst axes2 = map fst axes ++ [elements r]) by (unfold axes2; rewrite map_app; reflexivity).
        rewrite Ey. rewrite removelast_last. rewrite !elements_app. cbn [elements].
        rewrite Z.mul_1_r, Z.eqb_refl. exists out. split; [reflexivity|].
        rewrite Ey, elements_app in L. cbn [elements] in L. rewrite Z.mul_1_r in L.
        unfold out_shape. rewrite elements_app. split; [exact L|].
        intros c1 c2 H1 H2. rewrite Es.
        pose proof (inside_length _ _ H1) as Lc1.
        destruct (A6 c1 H1) as [I1 I2]. pose proof (inside_length _ _ I1) as Lp.
        rewrite (position_collapse (map fst axes) r c1 c2 Lc1).
        rewrite (position_collapse a r (pick sel1 c1) c2 Lp).
        specialize (H (c1 ++ [position r c2])). rewrite Ey in H.
        rewrite H by (apply inside_collapse; assumption). rewrite Sel2.
        rewrite pick_app by (rewrite A2, <- A1, <- (map_length fst axes); exact Lc1).
        assert (P1 : pick [upto (elements r)] [position r c2] = [position r c2]).
        { apply (pick_upto [elements r]). constructor; [now apply position_bound|constructor]. }
        rewrite P1. reflexivity.
    - assert (r = []) by (subst r; apply skipn_all2; lia). rewrite H, app_nil_r in Es. subst s. clear Ea Er.
      rewrite La, Nat.eqb_refl. cbn [negb]. rewrite no_shrink. cbn [p_in p_y p_begin p_stride p_out].
      rewrite (infer_axes_ext a 0 begin end_ stride _ _ (bit bm) (bit em)).
      2: { intros j Hj. cbn [andb]. now rewrite !orb_false_r. }
      fold axes. rewrite Z.eqb_refl. cbn [negb].
      destruct (run_stores (Tn dt a data) a axes stride) as (out & E & L & Hx).
      + exact A3.
      + exact Wd.
      + exact A6.
      + cbn [t_data] in E. rewrite E. rewrite Z.eqb_refl. exists out. unfold out_shape. rewrite H, app_nil_r.
        split; [reflexivity|]. split; [exact L|]. intros c1 c2 H1 H2. inversion H2; subst c2. rewrite !app_nil_r.
        now apply Hx. }
  destruct Core as (out & E & Lo & H). exists (Tn dt out_shape out), sel. split; [exact E|].
  split; [split; [exact Nout|exact Lo]|]. split; [exact Keeps|].
  split; [reflexivity|]. split; [cbn [t_shape]; now rewrite Len|]. cbn [t_shape]. intros c Hc.
  unfold out_shape in Hc. apply inside_app_inv in Hc. destruct Hc as (c1 & c2 & -> & H1 & H2).
  assert (Pk : pick sel (c1 ++ c2) = pick sel1 c1 ++ c2).
  { unfold sel. rewrite pick_app by (rewrite A2, <- A1, <- (map_length fst axes); apply (inside_length _ _ H1)).
    now rewrite pick_upto. }
  rewrite Pk. destruct (A6 c1 H1) as [I1 _]. split.
  - rewrite Es. apply inside_app; assumption.
  - unfold elt. cbn [t_data t_shape]. now apply H.
Qed.
