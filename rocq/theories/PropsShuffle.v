(** Properties of dimshuffle, stack and crop_to. *)
From Coq Require Import List ZArith Lia.
From Verif Require Import ShapeModel ShapeSpec KernelBase KernelSpec KernelProofs TileModel PadSpec ShuffleModel ShuffleSpec ShuffleProofs.
Import ListNotations.
Local Open Scope Z_scope.

(** ** C99: dimshuffle takes the slices listed, in the order listed, and
    refuses exactly the lists that do not fit the axis.

    Missing for the full statement: an axis beyond the rank, which is read
    before it is checked; see the refutation. *)
Theorem C99_shuffle_partial {A} dim shuffle (x : tensor A) : wf x -> dim < Z.of_nat (length (t_shape x)) ->
  match dimshuffle_run dim shuffle x with
  | SOk r => exists axis out, dim = Z.of_nat axis /\ (axis < length (t_shape x))%nat /\
      r = filled out /\ wf out /\ shuffled axis shuffle x out
  | SErr => dim < 0 \/ shuffle = [] \/ exists i, In i shuffle /\ ~ 0 <= i < nth (Z.to_nat dim) (t_shape x) 0
  | SUndef => False
  end.
Proof.
  intros W L. pose proof (dimshuffle_ok dim shuffle x W) as H. destruct (dimshuffle_run dim shuffle x); auto. lia.
Qed.
Print Assumptions C99_shuffle_partial.

(** The refusals are exactly those: a list that fits is accepted. *)
Theorem C99_accepted {A} axis shuffle (x : tensor A) : wf x -> (axis < length (t_shape x))%nat -> shuffle <> [] ->
  Forall (fun i => 0 <= i < nth axis (t_shape x) 0) shuffle ->
  exists out, dimshuffle_run (Z.of_nat axis) shuffle x = SOk (filled out) /\ wf out /\ shuffled axis shuffle x out.
Proof.
  intros W L Nn H. pose proof (dimshuffle_ok (Z.of_nat axis) shuffle x W) as P.
  destruct (dimshuffle_run (Z.of_nat axis) shuffle x) as [r| |].
  - destruct P as (a & out & Ea & _ & -> & Wo & So). assert (a = axis) by lia. subst a. eauto.
  - exfalso. destruct P as [P|[P|(i & Hi & P)]]; [lia|contradiction|]. rewrite Nat2Z.id in P.
    rewrite Forall_forall in H. exact (P (H i Hi)).
  - lia.
Qed.
Print Assumptions C99_accepted.

Lemma at_axis_at_axis n f g l : at_axis n f (at_axis n g l) = at_axis n (fun k => f (g k)) l.
Proof. revert n. induction l as [|x l IH]; intros [|n]; cbn; [reflexivity..|]. now rewrite IH. Qed.
Lemma nth_at_axis n f l : (n < length l)%nat -> nth n (at_axis n f l) 0 = f (nth n l 0).
Proof. revert n. induction l as [|x l IH]; intros [|n] L; cbn in *; [lia|lia|reflexivity|]. apply IH. lia. Qed.
Lemma inside_at_axis n s c f k : inside (at_axis n (fun _ => k) s) c ->
  (forall i, 0 <= i < k -> 0 <= f i < nth n s 0) -> (n < length s)%nat -> inside s (at_axis n f c).
Proof.
  revert n c. induction s as [|d s IH]; intros [|n] c H F L; cbn in *; try lia.
  - inversion H; subst. constructor; [now apply F|assumption].
  - inversion H; subst. constructor; [assumption|]. apply IH; auto. lia.
Qed.

(** Two shuffles in a row are one: the second list picks from the first. *)
Theorem C99_compose {A} axis first second (x y z : tensor A) : wf x -> (axis < length (t_shape x))%nat ->
  first <> [] -> second <> [] -> wf y ->
  Forall (fun i => 0 <= i < nth axis (t_shape x) 0) first ->
  Forall (fun i => 0 <= i < Z.of_nat (length first)) second ->
  dimshuffle_run (Z.of_nat axis) first x = SOk (filled y) -> shuffled axis first x y ->
  dimshuffle_run (Z.of_nat axis) second y = SOk (filled z) ->
  dimshuffle_run (Z.of_nat axis) (map (fun i => nth (Z.to_nat i) first 0) second) x = SOk (filled z).
Proof.
  intros Wx L N1 N2 Wy F1 F2 E1 (Dy & Sy & Py) E2.
  assert (Ly : (axis < length (t_shape y))%nat) by (rewrite Sy, at_axis_length; exact L).
  assert (F2' : Forall (fun i => 0 <= i < nth axis (t_shape y) 0) second).
  { rewrite Sy, nth_at_axis by exact L. exact F2. }
  destruct (C99_accepted axis second y Wy Ly N2 F2') as (z' & Ez & Wz & (Dz & Sz & Pz)).
  rewrite E2 in Ez. injection Ez as Ed Es Em.
  assert (z = z').
  { destruct z as [dz sz mz], z' as [dz' sz' mz']. cbn in *. subst. f_equal.
    clear - Em. revert mz' Em. induction mz as [|a mz IH]; intros [|b mz'] E; try discriminate; [reflexivity|].
    cbn in E. injection E as -> E. f_equal. now apply IH. }
  subst z'. clear Ed Es Em.
  set (both := map (fun i => nth (Z.to_nat i) first 0) second).
  destruct (C99_accepted axis both x Wx L) as (w & Ew & Ww & (Dw & Sw & Pw)).
  - unfold both. destruct second; [now elim N2|discriminate].
  - unfold both. apply Forall_map. rewrite Forall_forall in *. intros i Hi. apply F1. apply nth_In.
    specialize (F2 i Hi). lia.
  - rewrite Ew. f_equal. f_equal. 
    assert (Esh : t_shape w = t_shape z).
    { rewrite Sw, Sz, Sy, at_axis_at_axis. unfold both. now rewrite map_length. }
    apply tensor_ext; auto; [congruence|]. intros c Hc. rewrite Pw by exact Hc. rewrite Esh in Hc. rewrite Pz by exact Hc.
    rewrite Py.
    + rewrite at_axis_at_axis. 
      assert (Hk : 0 <= nth axis c 0 < Z.of_nat (length second)).
      { rewrite Sz in Hc. clear - Hc Ly. revert axis c Hc Ly. generalize (t_shape y) as s. induction s as [|d s IH]; intros [|n] c Hc Ly; cbn in *; try lia.
        - inversion Hc; subst. cbn. lia.
        - inversion Hc; subst. cbn. apply IH; auto. lia. }
      f_equal. clear - Hk. revert axis Hk. induction c as [|k c IH]; intros [|n] Hk; cbn in *; [reflexivity|reflexivity| |].
      * f_equal. unfold both. apply nth_error_nth. rewrite nth_error_map.
        rewrite (nth_error_nth' second 0) by lia. reflexivity.
      * f_equal. now apply IH.
    + rewrite Sz in Hc. apply inside_at_axis with (Z.of_nat (length second)); auto. intros i Hi.
      rewrite Forall_forall in F2'. apply F2'. apply nth_In. lia.
Qed.
Print Assumptions C99_compose.

(** An axis beyond the rank is read before it is checked. *)
Theorem C99_axis_refuted {A} dim shuffle (x : tensor A) : shuffle <> [] -> Forall (fun i => 0 <= i) shuffle ->
  Z.of_nat (length (t_shape x)) <= dim -> dimshuffle_run dim shuffle x = SUndef.
Proof.
  intros Nn F L. unfold dimshuffle_run. destruct (Z.ltb_spec dim 0); [lia|].
  destruct (Nat.eqb_spec (length shuffle) 0) as [E|E]; [apply length_zero_iff_nil in E; contradiction|].
  replace (existsb (fun i => i <? 0) shuffle) with false.
  2:{ symmetry. apply existsb_false. eapply Forall_impl; [|exact F]. intros i Hi. now apply Z.ltb_ge. }
  destruct (Z.leb_spec (Z.of_nat (length (t_shape x))) dim); [reflexivity|lia].
Qed.
Print Assumptions C99_axis_refuted.

Example C99_example : dimshuffle_run 1 [2; 0; 2; 1] (Tn 10 [2; 3; 2] [0; 1; 2; 3; 4; 5; 6; 7; 8; 9; 10; 11])
  = SOk (filled (Tn 10 [2; 4; 2] [4; 5; 0; 1; 4; 5; 2; 3; 10; 11; 6; 7; 10; 11; 8; 9])).
Proof. reflexivity. Qed.
Example C99_refused : dimshuffle_run 1 [2; 3] (Tn 10 [1; 3] [0; 1; 2]) = SErr.
Proof. reflexivity. Qed.

(** ** C100: stack accepts exactly tensors of one type and shape, and slice i
    of its result along the new axis is argument i.

    Missing for the full statement: arguments with fewer axes than the first
    one may be undefined instead of refused; see the refutation. *)
Theorem C100_stack_partial {A} m_axis (xs : list (tensor A)) : Forall wf xs ->
  match stack_run m_axis xs with
  | SOk r => exists axis out, axis_of m_axis (length (t_shape out)) axis /\ xs <> [] /\ alike xs /\
      r = filled out /\ wf out /\ stacked axis xs out
  | SErr => forall axis x, In x xs -> axis_of m_axis (S (length (t_shape x))) axis -> ~ alike xs
  | SUndef => exists x y, In x xs /\ In y xs /\ (length (t_shape y) < length (t_shape x))%nat
  end.
Proof. exact (stack_ok m_axis xs). Qed.
Print Assumptions C100_stack_partial.

(** Tensors that are alike are always stacked. *)
Theorem C100_accepted {A} m_axis axis (x : tensor A) rest : Forall wf (x :: rest) -> alike (x :: rest) ->
  axis_of m_axis (S (length (t_shape x))) axis ->
  exists out, stack_run m_axis (x :: rest) = SOk (filled out) /\ wf out /\ stacked axis (x :: rest) out.
Proof.
  intros W Al Ha. pose proof (stack_ok m_axis (x :: rest) W) as P. destruct (stack_run m_axis (x :: rest)) as [r| |].
  - destruct P as (a & out & Ea & _ & _ & -> & Wo & St). exists out. split; [reflexivity|]. split; [exact Wo|].
    assert (Lo : length (t_shape out) = S (length (t_shape x))).
    { destruct (proj1 St x (or_introl eq_refl)) as [_ Es].
      assert (a <= length (t_shape x))%nat.
      { destruct (Nat.le_gt_cases a (length (t_shape x))); [assumption|]. exfalso. destruct Ea as [Ea _].
        rewrite Es in Ea. unfold insert_at in Ea. rewrite app_length in Ea. cbn [length] in Ea.
        rewrite firstn_length, skipn_length in Ea. lia. }
      rewrite Es. now apply insert_length. }
    rewrite Lo in Ea. now rewrite <- (ConcatProofs.axis_of_inj _ _ _ _ Ea Ha).
  - exfalso. exact (P axis x (or_introl eq_refl) Ha Al).
  - exfalso. destruct P as (a & b & Ia & Ib & L). destruct (Al a b Ia Ib) as [_ E]. rewrite E in L. lia.
Qed.
Print Assumptions C100_accepted.

(** A scalar stacked with a matrix: the new axis is inserted past the end of
    the scalar's shape. *)
Theorem C100_rank_refuted : exists xs : list (tensor Z), Forall wf xs /\ xs <> [] /\ stack_run (-1) xs = SUndef.
Proof.
  exists [Tn 10 [1; 2] [1; 2]; Tn 10 [] [3]]. split; [repeat constructor; cbn; lia|]. split; [discriminate|reflexivity].
Qed.
Print Assumptions C100_rank_refuted.

Example C100_example : stack_run (-1) [Tn 10 [2; 2] [1; 2; 3; 4]; Tn 10 [2; 2] [5; 6; 7; 8]; Tn 10 [2; 2] [9; 10; 11; 12]]
  = SOk (filled (Tn 10 [2; 2; 3] [1; 5; 9; 2; 6; 10; 3; 7; 11; 4; 8; 12])).
Proof. reflexivity. Qed.
Example C100_example_front : stack_run 0 [Tn 10 [] [1]; Tn 10 [] [5]] = SOk (filled (Tn 10 [2] [1; 5])).
Proof. reflexivity. Qed.
Example C100_refused : stack_run 0 [Tn 10 [2] [1; 2]; Tn 10 [1] [5]] = SErr.
Proof. reflexivity. Qed.

(** ** C101: crop_to cuts the window of the given offset and size out of its
    argument (zero outside of it), from the given axis on.

    Missing for the full statement: windows with a side below one, windows
    of rank four that cut the first axis, and the second and later runs with
    a negative axis; see the refutations. *)
Theorem C101_crop_to_partial {A} m_axis axis m_offset (zero : A) (x : tensor A) y_shape : wf x -> length y_shape = length (t_shape x) ->
  axis_of m_axis (length (t_shape x)) axis -> (m_offset = [] \/ length m_offset = (length (t_shape x) - axis)%nat) ->
  positive_shape (firstn axis (t_shape x) ++ skipn axis y_shape) -> tile_supports (t_dtype x) = true ->
  (length (t_shape x) = 4%nat -> axis = 0%nat ->
    nth 0 m_offset 0 <= 0 /\ nth 0 (t_shape x) 0 <= nth 0 y_shape 0 + nth 0 m_offset 0) ->
  exists out, snd (crop_to_run m_axis m_offset zero x y_shape) = SOk (filled out) /\ wf out /\
    cropped axis (match m_offset with [] => repeat 0 (length (t_shape x) - axis) | _ => m_offset end) y_shape zero x out.
Proof.
  intros W Ly Ha Lo P Su H4. destruct (crop_to_ok m_axis axis m_offset zero x y_shape W Ly Ha Lo P Su H4) as (out & E & Wo & C).
  exists out. rewrite E. split; [reflexivity|]. split; [exact Wo|exact C].
Qed.
Print Assumptions C101_crop_to_partial.

(** Other ranks, axes or numbers of offsets are refused. *)
Theorem C101_refused {A} m_axis m_offset (zero : A) (x : tensor A) y_shape :
  length y_shape <> length (t_shape x) \/ (forall axis, ~ axis_of m_axis (length (t_shape x)) axis) \/
  (exists axis, axis_of m_axis (length (t_shape x)) axis /\ m_offset <> [] /\ length m_offset <> (length (t_shape x) - axis)%nat) ->
  snd (crop_to_run m_axis m_offset zero x y_shape) = SErr.
Proof.
  intros H. unfold crop_to_run. destruct (Nat.eqb_spec (length (t_shape x)) (length y_shape)) as [E|E]; [|reflexivity].
  cbn [negb snd]. destruct H as [H|H]; [congruence|].
  set (axis := if 0 <=? m_axis then m_axis else m_axis + Z.of_nat (length (t_shape x))).
  destruct (Z.ltb_spec axis 0) as [L|L]; [reflexivity|]. destruct (Z.leb_spec (Z.of_nat (length (t_shape x))) axis) as [R|R]; [reflexivity|].
  cbn [orb].
  assert (Ax : axis_of m_axis (length (t_shape x)) (Z.to_nat axis)).
  { unfold axis in *. split; [lia|]. destruct (Z.leb_spec 0 m_axis); lia. }
  destruct H as [H|(a & Ha & Nn & Ln)]; [now elim (H _ Ax)|].
  pose proof (ConcatProofs.axis_of_inj _ _ _ _ Ha Ax). subst a.
  destruct (Nat.eqb_spec (length m_offset) 0) as [E0|E0]; [apply length_zero_iff_nil in E0; contradiction|].
  cbn [negb andb]. destruct (Z.eqb_spec (Z.of_nat (length m_offset)) (Z.of_nat (length (t_shape x)) - axis)); [lia|]. reflexivity.
Qed.
Print Assumptions C101_refused.

(** With a non-negative axis the operator has no memory: every run gives what
    a fresh operator would give. *)
Theorem C101_no_memory {A} m_axis m_offset (zero : A) args : 0 <= m_axis ->
  crop_to_runs m_axis m_offset zero args = map (fun xy => snd (crop_to_run m_axis m_offset zero (fst xy) (snd xy))) args.
Proof.
  intros H. induction args as [|(x, y) args IH]; [reflexivity|]. cbn [crop_to_runs map fst snd].
  destruct (crop_to_run m_axis m_offset zero x y) as [m r] eqn:E.
  assert (m = m_axis).
  { unfold crop_to_run in E. destruct (negb _); [now injection E|]. destruct (Z.leb_spec 0 m_axis); [now injection E|lia]. }
  subst m. rewrite IH. reflexivity.
Qed.
Print Assumptions C101_no_memory.

(** A negative axis is made absolute by the first run and stays so: on a
    later argument of another rank the wrong axes are cropped. *)
Theorem C101_memory_refuted : exists (x1 x2 : tensor Z) y1 y2, wf x1 /\ wf x2 /\
  crop_to_runs (-1) [] 0 [(x1, y1); (x2, y2)] <>
  [snd (crop_to_run (-1) [] 0 x1 y1); snd (crop_to_run (-1) [] 0 x2 y2)].
Proof.
  exists (Tn 10 [2] [1; 2]), (Tn 10 [2; 2] [1; 2; 3; 4]), [1], [1; 1].
  split; [split; [repeat constructor; lia|reflexivity]|]. split; [split; [repeat constructor; lia|reflexivity]|].
  vm_compute. discriminate.
Qed.
Print Assumptions C101_memory_refuted.

(** Even repeating the same call changes the outcome: an axis out of range is
    refused the first time and accepted the second time. *)
Theorem C101_repeat_refuted : exists (x : tensor Z) y out, wf x /\
  crop_to_runs (-3) [] 0 [(x, y); (x, y)] = [SErr; SOk (filled out)].
Proof.
  exists (Tn 10 [1; 3] [1; 2; 3]), [1; 2], (Tn 10 [1; 2] [1; 2]). split; [split; [repeat constructor; lia|reflexivity]|]. reflexivity.
Qed.
Print Assumptions C101_repeat_refuted.

Example C101_example : crop_to_run 1 [1; -1] 0 (Tn 10 [1; 3; 3] [1; 2; 3; 4; 5; 6; 7; 8; 9]) [1; 2; 3]
  = (1, SOk (filled (Tn 10 [1; 2; 3] [0; 4; 5; 0; 7; 8]))).
Proof. reflexivity. Qed.
Example C101_example_meets : wf (Tn 10 [1; 3; 3] [1; 2; 3; 4; 5; 6; 7; 8; 9]) /\ axis_of 1 3 1 /\ tile_supports 10 = true.
Proof. split; [split; [repeat constructor; lia|reflexivity]|]. split; [split; lia|reflexivity]. Qed.
