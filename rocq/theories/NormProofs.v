(** Proofs about the model of softmax, l2_norm and norm_image. *)
From Coq Require Import List ZArith Bool Lia.
From Verif Require Import ShapeModel ShapeSpec ShapeProofs KernelBase KernelSpec KernelProofs LoopModel LoopProofs EltwiseModel EltwiseKernelProofs TileModel GemmModel GemmSpec AxisModel AxisProofs NormModel ActivationProofs WinogradProofs PropsDeconv.
Import ListNotations.
Local Open Scope Z_scope.

(** ** What a program does to one cell of the memory *)
Fixpoint cell {A} (p : Z) (prog : list (instr A)) (v : option A) : option (option A) :=
  match prog with
  | [] => Some v
  | Put i (SOk a) :: q => cell p q (if i =? p then Some a else v)
  | Upd i (SOk f) :: q => if i =? p then match v with Some a => cell p q (Some (f a)) | None => None end else cell p q v
  | _ :: _ => None
  end.
Definition index {A} (i : instr A) : Z := match i with Put k _ => k | Upd k _ => k end.
Definition okay {A} (i : instr A) : Prop := match i with Put _ v => exists a, v = SOk a | Upd _ f => exists g, f = SOk g end.

Lemma cell_app {A} p (a b : list (instr A)) : forall v, cell p (a ++ b) v = match cell p a v with Some v' => cell p b v' | None => None end.
Proof.
  induction a as [|[i [x| |]|i [f| |]] a IH]; intros v; cbn [cell app]; auto.
  destruct (i =? p); auto. destruct v; auto.
Qed.
Lemma cell_skip {A} p (a : list (instr A)) v : (forall i, In i a -> index i <> p /\ okay i) -> cell p a v = Some v.
Proof.
  revert v. induction a as [|i a IH]; intros v H; [reflexivity|]. destruct (H i (or_introl eq_refl)) as [N O].
  destruct i as [k w|k f]; cbn in N, O; destruct O as (b & ->); cbn [cell]; destruct (Z.eqb_spec k p); try contradiction;
    apply IH; intros j Hj; apply H; now right.
Qed.
Lemma cell_flat_map {A X} p (f : X -> list (instr A)) l x0 v : NoDup l -> In x0 l ->
  (forall x, In x l -> x <> x0 -> forall i, In i (f x) -> index i <> p /\ okay i) -> cell p (flat_map f l) v = cell p (f x0) v.
Proof.
  intros N Hin H. apply in_split in Hin. destruct Hin as (l1 & l2 & ->). rewrite flat_map_app. cbn [flat_map].
  assert (N1 : forall x, In x l1 \/ In x l2 -> x <> x0).
  { intros x Hx ->. apply NoDup_remove_2 in N. apply N. apply in_or_app. exact Hx. }
  rewrite cell_app, cell_skip.
  - rewrite cell_app. destruct (cell p (f x0) v) as [v'|]; [|reflexivity]. apply cell_skip.
    intros i Hi. apply in_flat_map in Hi. destruct Hi as (x & Hx & Hi). apply (H x); auto. apply in_or_app. right. now right.
  - intros i Hi. apply in_flat_map in Hi. destruct Hi as (x & Hx & Hi). apply (H x); auto. apply in_or_app. now left.
Qed.
Lemma cell_map {A X} p (f : X -> instr A) l x0 v : NoDup l -> In x0 l ->
  (forall x, In x l -> x <> x0 -> index (f x) <> p /\ okay (f x)) -> cell p (map f l) v = cell p [f x0] v.
Proof.
  intros N Hin H. replace (map f l) with (flat_map (fun x => [f x]) l) by (clear; induction l; cbn; congruence).
  rewrite (cell_flat_map p _ l x0); auto. intros x Hx Nx i [<-|[]]. auto.
Qed.

Lemma exec_cells {A} (prog : list (instr A)) : forall m,
  (forall i, In i prog -> 0 <= index i < Z.of_nat (length m)) ->
  (forall p, (p < length m)%nat -> exists v, cell (Z.of_nat p) prog (nth p m None) = Some v) ->
  exists m', exec_instrs m prog = SOk m' /\ length m' = length m /\
    forall p, (p < length m)%nat -> cell (Z.of_nat p) prog (nth p m None) = nth_error m' p.
Proof.
  induction prog as [|i prog IH]; intros m B H.
  - exists m. split; [reflexivity|]. split; [reflexivity|]. intros p Hp. cbn. destruct (nth_error m p) eqn:E; [|apply nth_error_None in E; lia].
    now rewrite (nth_error_nth _ _ None E).
  - assert (Bi := B i (or_introl eq_refl)). set (k := index i) in *.
    assert (Lk : (Z.to_nat k < length m)%nat) by lia.
    destruct (nth_error m (Z.to_nat k)) as [c|] eqn:Ek; [|apply nth_error_None in Ek; lia].
    pose proof (nth_error_nth _ _ None Ek) as Nk.
    (* the cell that changes decides that the instruction runs *)
    assert (G : exists a, exec_instrs m (i :: prog) = exec_instrs (set_nth (Z.to_nat k) (Some a) m) prog /\
       forall p, (p < length m)%nat -> cell (Z.of_nat p) (i :: prog) (nth p m None) = cell (Z.of_nat p) prog (nth p (set_nth (Z.to_nat k) (Some a) m) None)).
    { destruct (H (Z.to_nat k) Lk) as (v & Hv). rewrite Z2Nat.id in Hv by lia.
      assert (Q : forall a, nth (Z.to_nat k) (set_nth (Z.to_nat k) (Some a) m) None = Some a).
      { intros a. apply nth_error_nth. now apply set_nth_same. }
      assert (Q' : forall a p, (p < length m)%nat -> Z.of_nat p <> k -> nth p (set_nth (Z.to_nat k) (Some a) m) None = nth p m None).
      { intros a p Hp Np. destruct (nth_error m p) eqn:E; [|apply nth_error_None in E; lia].
        rewrite (nth_error_nth _ _ None E). apply nth_error_nth. rewrite set_nth_other by lia. exact E. }
      destruct i as [k' [a| |]|k' [f| |]]; cbn [index] in *; subst k; cbn [cell] in Hv; try discriminate.
      - exists a. split; [cbn [exec_instrs]; now rewrite store_ok by exact Bi|]. intros p Hp. cbn [cell].
        destruct (Z.eqb_spec k' (Z.of_nat p)) as [->|N]; [rewrite Nat2Z.id in *; now rewrite Q|]. now rewrite Q' by lia.
      - rewrite Z.eqb_refl, Nk in Hv. destruct c as [c|]; [|discriminate].
        exists (f c). split.
        + cbn [exec_instrs]. assert (L : load m k' = SOk (Some c)) by (apply load_inv; split; [lia|exact Ek]). rewrite L.
          now rewrite store_ok by exact Bi.
        + intros p Hp. cbn [cell]. destruct (Z.eqb_spec k' (Z.of_nat p)) as [->|N].
          * rewrite Nat2Z.id in *. rewrite Q, Nk. reflexivity.
          * now rewrite Q' by lia. }
    destruct G as (a & E & C). rewrite E.
    destruct (IH (set_nth (Z.to_nat k) (Some a) m)) as (m' & E' & L & P).
    + intros j Hj. rewrite set_nth_length. apply B. now right.
    + intros p Hp. rewrite set_nth_length in Hp. destruct (H p Hp) as (v & Hv). exists v. now rewrite <- C.
    + exists m'. rewrite set_nth_length in L, P. split; [exact E'|]. split; [exact L|]. intros p Hp. rewrite (C p Hp). now apply P.
Qed.

(** every cell ends with a value *)
Lemma exec_values {A} (prog : list (instr A)) n (V : Z -> A) : 0 <= n ->
  (forall i, In i prog -> 0 <= index i < n) ->
  (forall p, 0 <= p < n -> cell p prog None = Some (Some (V p))) ->
  exec_instrs (fresh n) prog = SOk (map Some (map V (upto n))).
Proof.
  intros Hn B H. assert (L : length (@fresh A n) = Z.to_nat n) by (unfold fresh; apply repeat_length).
  assert (F : forall p, nth p (@fresh A n) None = None) by (intros p; unfold fresh; apply nth_repeat).
  destruct (exec_cells prog (fresh n)) as (m' & E & L' & P).
  - intros i Hi. rewrite L. specialize (B i Hi). lia.
  - intros p Hp. rewrite L in Hp. rewrite F, H by lia. eauto.
  - rewrite E. f_equal. rewrite L in L', P. apply nth_error_ext. intros p. destruct (Nat.lt_ge_cases p (Z.to_nat n)) as [Hp|Hp].
    + rewrite <- (P p Hp), F, H by lia. rewrite map_map, nth_error_map.
      replace p with (Z.to_nat (Z.of_nat p)) at 2 by lia. rewrite nth_error_upto by lia. reflexivity.
    + rewrite (proj2 (nth_error_None m' p)) by lia. symmetry. apply nth_error_None. rewrite !map_length, length_upto. lia.
Qed.

Lemma foldM_ok {S X Y} (k : S -> Y -> S) (g : X -> sres Y) (h : X -> Y) (l : list X) : forall s,
  (forall x, In x l -> g x = SOk (h x)) -> foldM (fun s x => lift1 (fun v => k s v) (g x)) s l = SOk (fold_left (fun s x => k s (h x)) l s).
Proof.
  induction l as [|x l IH]; intros s H; [reflexivity|]. cbn [foldM fold_left]. rewrite (H x) by now left. cbn [lift1].
  apply IH. intros y Hy. apply H. now right.
Qed.

(** ** The rows along an axis *)
Lemma row_index head body tail n i w : 0 <= n < head -> 0 <= i < body -> 0 <= w < tail ->
  0 <= n * body * tail + w + i * tail < head * body * tail.
Proof.
  intros Hn Hi Hw. destruct (join_index head body n i Hn Hi) as (B1 & _ & _).
  destruct (join_index (head * body) tail (n * body + i) w B1 Hw) as (B2 & _ & _). nia.
Qed.
Lemma row_inj head body tail n i w n' i' w' : 0 <= n < head -> 0 <= i < body -> 0 <= w < tail -> 0 <= n' < head -> 0 <= i' < body -> 0 <= w' < tail ->
  n * body * tail + w + i * tail = n' * body * tail + w' + i' * tail -> n = n' /\ i = i' /\ w = w'.
Proof.
  intros Hn Hi Hw Hn' Hi' Hw' E.
  assert (H : [n; i; w] = [n'; i'; w']).
  { apply (position_inj [head; body; tail]); [now apply in_3|now apply in_3|]. cbn. lia. }
  injection H as -> -> ->. auto.
Qed.
Lemma row_at head body tail p : 0 <= body -> 0 <= tail -> 0 <= p < head * body * tail ->
  exists n i w, 0 <= n < head /\ 0 <= i < body /\ 0 <= w < tail /\ p = n * body * tail + w + i * tail.
Proof.
  intros Hb Ht Hp. destruct (split_index (head * body) tail p Hp Ht) as (B1 & B2 & E).
  destruct (split_index head body (p / tail) B1 Hb) as (B3 & B4 & E2).
  exists (p / tail / body), ((p / tail) mod body), (p mod tail). repeat (split; [assumption|]).
  rewrite E at 1. rewrite E2 at 1. ring.
Qed.

(** blocks for the rows *)
Lemma exec_rows {A} (prog : Z -> Z -> list (instr A)) head body tail (V : Z -> Z -> Z -> A) : 0 <= head -> 0 <= body -> 0 <= tail ->
  (forall n w, 0 <= n < head -> 0 <= w < tail -> forall i, In i (prog n w) -> okay i /\ exists k, 0 <= k < body /\ index i = n * body * tail + w + k * tail) ->
  (forall n i w, 0 <= n < head -> 0 <= i < body -> 0 <= w < tail ->
     cell (n * body * tail + w + i * tail) (prog n w) None = Some (Some (V n i w))) ->
  exists out, exec_instrs (fresh (head * body * tail)) (flat_map (fun nw => match nw with [n; w] => prog n w | _ => [] end) (loops [head; tail])) = SOk (map Some out) /\
    Z.of_nat (length out) = head * body * tail /\
    forall n i w, 0 <= n < head -> 0 <= i < body -> 0 <= w < tail -> nth_error out (Z.to_nat (n * body * tail + w + i * tail)) = Some (V n i w).
Proof.
  intros Hh Hb Ht Hi Hc. set (V' p := V (p / tail / body) ((p / tail) mod body) (p mod tail)).
  assert (Q : forall n i w, 0 <= n < head -> 0 <= i < body -> 0 <= w < tail -> V' (n * body * tail + w + i * tail) = V n i w).
  { intros n i w Hn Hi' Hw. unfold V'. replace (n * body * tail + w + i * tail) with ((n * body + i) * tail + w) by ring.
    destruct (join_index head body n i Hn Hi') as (B1 & D1 & M1).
    destruct (join_index (head * body) tail (n * body + i) w B1 Hw) as (B2 & D2 & M2). now rewrite D2, M2, D1, M1. }
  assert (N : 0 <= head * body * tail) by (pose proof (Z.mul_nonneg_nonneg _ _ Hh Hb); now apply Z.mul_nonneg_nonneg).
  exists (map V' (upto (head * body * tail))). split; [|split].
  - apply exec_values; [exact N| |].
    + intros j Hj. apply in_flat_map in Hj. destruct Hj as (l & Hl & Hj). apply In_loops, inside_2 in Hl. destruct Hl as (n & w & -> & Hn & Hw).
      destruct (Hi n w Hn Hw j Hj) as (_ & k & Hk & ->). now apply row_index.
    + intros p Hp. destruct (row_at head body tail p Hb Ht Hp) as (n & i & w & Hn & Hi' & Hw & ->).
      rewrite Q by assumption. rewrite (cell_flat_map _ _ _ [n; w]).
      * now apply Hc.
      * apply NoDup_loops.
      * apply In_loops. now apply in_2.
      * intros l Hl Nl j Hj. apply In_loops, inside_2 in Hl. destruct Hl as (n' & w' & -> & Hn' & Hw').
        destruct (Hi n' w' Hn' Hw' j Hj) as (O & k & Hk & ->). split; [|exact O].
        intros E. apply (row_inj head body tail) in E; auto. destruct E as (-> & _ & ->). now apply Nl.
  - rewrite map_length, length_upto. lia.
  - intros n i w Hn Hi' Hw. rewrite nth_error_map, nth_error_upto by (now apply row_index). cbn [option_map]. now rewrite Q.
Qed.

(** a coordinate, cut around the axis *)
Lemma axis_coords s axis body c : Forall (fun d => 0 <= d) s -> nth_error s axis = Some body -> inside s c ->
  let head := elements (firstn axis s) in let tail := elements (skipn (S axis) s) in
  exists n w, 0 <= n < head /\ 0 <= w < tail /\ 0 <= nth axis c 0 < body /\
    position s c = n * body * tail + w + nth axis c 0 * tail /\
    forall j, 0 <= j < body -> inside s (at_axis axis (fun _ => j) c) /\ position s (at_axis axis (fun _ => j) c) = n * body * tail + w + j * tail /\ nth axis (at_axis axis (fun _ => j) c) 0 = j.
Proof.
  intros F E Ic. cbv zeta. pose proof (axis_split _ _ _ E) as Sp.
  assert (La : length (firstn axis s) = axis).
  { apply firstn_length_le. assert (axis < length s)%nat by (apply nth_error_Some; congruence). lia. }
  set (a := firstn axis s) in *. set (b := skipn (S axis) s) in *. clearbody a b. subst s.
  apply inside_app_inv in Ic. destruct Ic as (l1 & l2 & -> & I1 & I2).
  destruct l2 as [|k l2]; [inversion I2|]. apply inside_inv in I2. destruct I2 as [Hk I2].
  pose proof (inside_length _ _ I1) as L1.
  assert (Nk : forall j, nth axis (l1 ++ j :: l2) 0 = j).
  { intros j. rewrite app_nth2 by lia. replace (axis - length l1)%nat with 0%nat by lia. reflexivity. }
  exists (position a l1), (position b l2). rewrite Nk.
  split; [now apply position_bound|]. split; [now apply position_bound|]. split; [exact Hk|].
  split; [rewrite position_mid by exact L1; ring|].
  intros j Hj. rewrite at_axis_app by lia. split; [|split; [rewrite position_mid by exact L1; ring|apply Nk]].
  apply inside_app; [exact I1|]. constructor; assumption.
Qed.

Section Rows.
Context {R : Type} (rO rI : R) (radd rmul rsub rdiv : R -> R -> R).
Variable tdiv : Z -> R -> R -> R.
Variable ltb : R -> R -> bool.
Variable conv : Z -> R -> R.
Variables fsqrt fexp : R -> R.
Variable ofZ : Z -> R.
Variables (t head body tail : Z) (x : list R).
Hypotheses (Hh : 0 <= head) (Hb : 0 <= body) (Ht : 0 <= tail).
Hypothesis Hx : Z.of_nat (length x) = head * body * tail.
Let X n w i := nth (Z.to_nat (n * body * tail + w + i * tail)) x rO.
Lemma get_X n i w : 0 <= n < head -> 0 <= i < body -> 0 <= w < tail -> load x (n * body * tail + w + i * tail) = SOk (X n w i).
Proof using Hx. intros Hn Hi Hw. apply load_nth. rewrite Hx. now apply row_index. Qed.

Definition greatest (n w : Z) : R := fold_left (fun m i => if ltb m (X n w i) then X n w i else m) (steps 1 body 1) (X n w 0).
Definition soft_e (smooth : bool) n w i : R := conv t (fexp (if smooth then rsub (X n w i) (greatest n w) else X n w i)).
Definition soft_sum (smooth : bool) n w : R := fold_left (fun s i => radd s (soft_e smooth n w i)) (upto body) rO.

Lemma ones_ok count : 0 <= count -> exec_instrs (fresh count) (map (fun i => Put i (SOk rI)) (upto count)) = SOk (map Some (map (fun _ => rI) (upto count))).
Proof using Type. intros Hc. apply (puts_compute count (fun _ => rI) (upto count) (fun _ => SOk rI)); [apply In_upto|reflexivity]. Qed.

Lemma soft_channel smooth n w : 1 <= body -> 0 <= n < head -> 0 <= w < tail ->
  exists m, (smooth = true -> m = greatest n w) /\
  softmax_channel rO radd rsub tdiv ltb conv fexp t smooth x body tail n w =
  map (fun i => Put (n * body * tail + w + i * tail) (SOk (soft_e smooth n w i))) (upto body) ++
  map (fun i => Upd (n * body * tail + w + i * tail) (SOk (fun d => tdiv t d (soft_sum smooth n w)))) (upto body).
Proof using Hx.
  intros H1 Hn Hw. exists (greatest n w). split; [auto|]. unfold softmax_channel.
  assert (M : (if smooth then match load x (n * body * tail + w + 0 * tail) with
     | SOk v0 => foldM (fun m i => lift1 (fun v => if ltb m v then v else m) (load x (n * body * tail + w + i * tail))) v0 (steps 1 body 1)
     | SErr => SErr | SUndef => SUndef end else SOk rO) = SOk (if smooth then greatest n w else rO)).
  { destruct smooth; [|reflexivity]. rewrite get_X by lia. rewrite (foldM_ok (fun m v => if ltb m v then v else m) _ (X n w)); [reflexivity|].
    intros i Hi. apply In_steps in Hi; [|lia]. destruct Hi as (k & Hk & -> & Hl). apply get_X; lia. }
  rewrite M. cbn [app].
  assert (E : forall i, In i (upto body) -> lift2 (fun m v => conv t (fexp (if smooth then rsub v m else v))) (SOk (if smooth then greatest n w else rO)) (load x (n * body * tail + w + i * tail)) = SOk (soft_e smooth n w i)).
  { intros i Hi. apply In_upto in Hi. rewrite get_X by lia. cbn [lift2]. unfold soft_e. destruct smooth; reflexivity. }
  f_equal.
  - apply map_ext_in. intros i Hi. f_equal. now apply E.
  - apply map_ext_in. intros i Hi. f_equal.
    rewrite (foldM_ok radd _ (soft_e smooth n w)); [reflexivity|exact E].
Qed.

Lemma softmax_rows smooth : 1 <= body ->
  exists out, softmax_data rO rI radd rsub tdiv ltb conv fexp t smooth x head body tail = SOk (map Some out) /\ Z.of_nat (length out) = head * body * tail /\
    forall n i w, 0 <= n < head -> 0 <= i < body -> 0 <= w < tail ->
      nth_error out (Z.to_nat (n * body * tail + w + i * tail)) = Some (if body =? 1 then rI else tdiv t (soft_e smooth n w i) (soft_sum smooth n w)).
Proof using Hh Hx Ht Hb.
  intros H1. unfold softmax_data. assert (N : 0 <= head * body * tail) by (rewrite <- Hx; lia).
  destruct (body =? 1) eqn:E1.
  - exists (map (fun _ => rI) (upto (head * body * tail))). split; [now apply ones_ok|]. split; [rewrite map_length, length_upto; lia|].
    intros n i w Hn Hi Hw. rewrite nth_error_map, nth_error_upto by (now apply row_index). reflexivity.
  - apply (exec_rows (softmax_channel rO radd rsub tdiv ltb conv fexp t smooth x body tail)); auto.
    + intros n w Hn Hw j Hj. destruct (soft_channel smooth n w H1 Hn Hw) as (m & _ & E). rewrite E in Hj. apply in_app_or in Hj.
      destruct Hj as [Hj|Hj]; apply in_map_iff in Hj; destruct Hj as (i & <- & Hi); apply In_upto in Hi; cbn [okay index]; eauto.
    + intros n i w Hn Hi Hw. destruct (soft_channel smooth n w H1 Hn Hw) as (m & _ & ->). rewrite cell_app.
      assert (D : forall j, In j (upto body) -> j <> i -> n * body * tail + w + j * tail <> n * body * tail + w + i * tail).
      { intros j Hj Nj E. apply In_upto in Hj. apply (row_inj head body tail) in E; auto. destruct E as (_ & -> & _). now apply Nj. }
      rewrite (cell_map _ _ _ i); [|apply NoDup_upto|now apply In_upto|intros j Hj Nj; cbn [index okay]; eauto].
      cbn [cell]. rewrite Z.eqb_refl.
      rewrite (cell_map _ _ _ i); [|apply NoDup_upto|now apply In_upto|intros j Hj Nj; cbn [index okay]; eauto].
      cbn [cell]. rewrite Z.eqb_refl. reflexivity.
Qed.

Definition l2_sum (n w : Z) : R := fold_left (fun s i => radd s (conv t (rmul (X n w i) (X n w i)))) (upto body) rO.
Lemma l2_rows epsilon :
  exists out, l2_data rO rI radd rmul tdiv conv fsqrt t epsilon x head body tail = SOk (map Some out) /\ Z.of_nat (length out) = head * body * tail /\
    forall n i w, 0 <= n < head -> 0 <= i < body -> 0 <= w < tail ->
      nth_error out (Z.to_nat (n * body * tail + w + i * tail)) = Some (if body =? 1 then rI else tdiv t (X n w i) (conv t (fsqrt (radd (l2_sum n w) (conv t epsilon))))).
Proof using Hh Hx Ht Hb.
  unfold l2_data. assert (N : 0 <= head * body * tail) by (rewrite <- Hx; lia).
  destruct (body =? 1) eqn:E1.
  - exists (map (fun _ => rI) (upto (head * body * tail))). split; [now apply ones_ok|]. split; [rewrite map_length, length_upto; lia|].
    intros n i w Hn Hi Hw. rewrite nth_error_map, nth_error_upto by (now apply row_index). reflexivity.
  - assert (C : forall n w, 0 <= n < head -> 0 <= w < tail -> l2_channel rO radd rmul tdiv conv fsqrt t epsilon x body tail n w =
        map (fun i => Put (n * body * tail + w + i * tail) (SOk (tdiv t (X n w i) (conv t (fsqrt (radd (l2_sum n w) (conv t epsilon))))))) (upto body)).
    { intros n w Hn Hw. unfold l2_channel. apply map_ext_in. intros i Hi. apply In_upto in Hi. f_equal. rewrite get_X by lia.
      rewrite (foldM_ok (fun s v => radd s (conv t (rmul v v))) _ (X n w)); [reflexivity|]. intros j Hj. apply In_upto in Hj. now apply get_X. }
    apply (exec_rows (l2_channel rO radd rmul tdiv conv fsqrt t epsilon x body tail)); auto.
    + intros n w Hn Hw j Hj. rewrite C in Hj by assumption. apply in_map_iff in Hj. destruct Hj as (i & <- & Hi). apply In_upto in Hi; cbn [okay index]; eauto.
    + intros n i w Hn Hi Hw. rewrite C by assumption.
      rewrite (cell_map _ _ _ i); [cbn [cell]; now rewrite Z.eqb_refl|apply NoDup_upto|now apply In_upto|].
      intros j Hj Nj; cbn [index okay]. split; [|eauto]. intros E. apply In_upto in Hj. apply (row_inj head body tail) in E; auto. destruct E as (_ & -> & _). now apply Nj.
Qed.
End Rows.

(** images, one after the other *)
Section Images.
Context {R : Type} (rO rI : R) (radd rmul rsub rdiv : R -> R -> R).
Variable conv : Z -> R -> R.
Variables fsqrt : R -> R.
Variable ofZ : Z -> R.
Variables (t batch count : Z) (x : list R) (epsilon : R).
Hypotheses (Hb : 0 <= batch) (Hc : 0 <= count).
Hypothesis Hx : Z.of_nat (length x) = batch * count.
Let X n i := nth (Z.to_nat (n * count + i)) x rO.
Definition image_mean n : R := rdiv (fold_left (fun s i => radd s (X n i)) (upto count) rO) (ofZ count).
Definition image_dev n : R := fsqrt (rdiv (fold_left (fun s i => radd s (rmul (rsub (X n i) (image_mean n)) (rsub (X n i) (image_mean n)))) (upto count) rO) (ofZ count)).

Lemma image_rows : exists out,
  exec_instrs (fresh (batch * count)) (copy x (batch * count) ++ flat_map (fun n => image_channel rO rI radd rmul rsub rdiv conv fsqrt ofZ t epsilon x count n) (upto batch)) = SOk (map Some out) /\
  Z.of_nat (length out) = batch * count /\
  forall n i, 0 <= n < batch -> 0 <= i < count ->
    nth_error out (Z.to_nat (n * count + i)) = Some (rmul (rsub (X n i) (conv t (image_mean n))) (conv t (rdiv rI (radd (image_dev n) epsilon)))).
Proof using All.
  assert (G : forall n i, 0 <= n < batch -> 0 <= i < count -> load x (n * count + i) = SOk (X n i)).
  { intros n i Hn Hi. apply load_nth. rewrite Hx. now apply (join_index batch count n i). }
  assert (C : forall n, 0 <= n < batch -> image_channel rO rI radd rmul rsub rdiv conv fsqrt ofZ t epsilon x count n =
    map (fun i => Upd (n * count + i) (SOk (fun v => rmul (rsub v (conv t (image_mean n))) (conv t (rdiv rI (radd (image_dev n) epsilon)))))) (upto count)).
  { intros n Hn. unfold image_channel. apply map_ext_in. intros i Hi. f_equal.
    rewrite (foldM_ok radd _ (X n)); [|intros j Hj; apply In_upto in Hj; now apply G]. cbn [lift1].
    assert (E : forall l s, (forall j, In j l -> 0 <= j < count) ->
      foldM (fun s i => lift2 (fun m v => radd s (rmul (rsub v m) (rsub v m))) (SOk (image_mean n)) (load x (n * count + i))) s l
      = SOk (fold_left (fun s i => radd s (rmul (rsub (X n i) (image_mean n)) (rsub (X n i) (image_mean n)))) l s)).
    { induction l as [|j l IH]; intros s Hl; [reflexivity|]. cbn [foldM fold_left]. rewrite G by (auto; apply Hl; now left). cbn [lift2].
      apply IH. intros k Hk. apply Hl. now right. }
    fold (image_mean n). rewrite E by (intros j Hj; now apply In_upto in Hj). reflexivity. }
  assert (N : 0 <= batch * count) by (rewrite <- Hx; lia).
  set (V p := rmul (rsub (nth (Z.to_nat p) x rO) (conv t (image_mean (p / count)))) (conv t (rdiv rI (radd (image_dev (p / count)) epsilon)))).
  exists (map V (upto (batch * count))). split; [|split].
  - apply exec_values; [exact N| |].
    + intros j Hj. apply in_app_or in Hj. destruct Hj as [Hj|Hj].
      * unfold copy in Hj. apply in_map_iff in Hj. destruct Hj as (i & <- & Hi). now apply In_upto in Hi.
      * apply in_flat_map in Hj. destruct Hj as (n & Hn & Hj). apply In_upto in Hn. rewrite C in Hj by exact Hn.
        apply in_map_iff in Hj. destruct Hj as (i & <- & Hi). apply In_upto in Hi. cbn [index]. now apply (join_index batch count n i).
    + intros p Hp. destruct (split_index batch count p Hp Hc) as (B1 & B2 & E). rewrite cell_app. unfold copy.
      rewrite (cell_map _ _ _ p); [|apply NoDup_upto|now apply In_upto|].
      2:{ intros q Hq Nq. apply In_upto in Hq. cbn [index okay]. split; [exact Nq|]. destruct (load_ok x q) as (a & -> & _); [lia|eauto]. }
      rewrite (load_nth rO x p) by lia. cbn [cell]. rewrite Z.eqb_refl.
      rewrite (cell_flat_map _ _ _ (p / count)); [|apply NoDup_upto|now apply In_upto|].
      2:{ intros n Hn Nn j Hj. apply In_upto in Hn. rewrite C in Hj by exact Hn. apply in_map_iff in Hj. destruct Hj as (i & <- & Hi). apply In_upto in Hi.
          cbn [index okay]. split; [|eauto]. intros Q. apply Nn. rewrite <- Q. symmetry. now apply (join_index batch count n i). }
      rewrite C by exact B1. rewrite (cell_map _ _ _ (p mod count)); [|apply NoDup_upto|now apply In_upto|].
      2:{ intros i Hi Ni. cbn [index okay]. split; [lia|eauto]. }
      cbn [cell]. rewrite <- E, Z.eqb_refl. reflexivity.
  - rewrite map_length, length_upto. lia.
  - intros n i Hn Hi. destruct (join_index batch count n i Hn Hi) as (B & D & _). rewrite nth_error_map, nth_error_upto by exact B.
    cbn [option_map]. unfold V. now rewrite D.
Qed.
End Images.
