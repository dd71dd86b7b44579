From Coq Require Import List ZArith QArith Qabs Qround Bool Lia Lqa.
From Verif Require Import ShapeModel ShapeSpec ShapeProofs KernelBase KernelSpec KernelProofs LoopModel LoopProofs WinogradProofs ResizeModel ResizeSpec.
Import ListNotations.
Local Open Scope Q_scope.

(** ** Sums *)
Lemma upto_S n : (0 <= n)%Z -> upto (n + 1) = upto n ++ [n].
Proof. intros H. unfold upto. replace (Z.to_nat (n + 1)) with (S (Z.to_nat n)) by lia. rewrite seq_S, map_app. cbn. now rewrite Z2Nat.id by exact H. Qed.
Lemma qsum_ext n f g : (forall k, (0 <= k < n)%Z -> f k == g k) -> qsum n f == qsum n g.
Proof.
  unfold qsum. intros H. assert (H' : forall k, In k (upto n) -> f k == g k) by (intros k Hk; apply H; now apply In_upto). clear H.
  induction (upto n) as [|a l IH]; cbn; [reflexivity|]. rewrite IH by (intros k Hk; apply H'; now right). rewrite H' by now left. reflexivity.
Qed.
Lemma qsum_plus n f g : qsum n (fun k => f k + g k) == qsum n f + qsum n g.
Proof. unfold qsum. induction (upto n) as [|a l IH]; cbn; [reflexivity|]. rewrite IH. ring. Qed.
Lemma qsum_scale n c f : qsum n (fun k => c * f k) == c * qsum n f.
Proof. unfold qsum. induction (upto n) as [|a l IH]; cbn; [ring|]. rewrite IH. ring. Qed.
Lemma qsum_zero n : qsum n (fun _ => 0) == 0.
Proof. unfold qsum. induction (upto n) as [|a l IH]; cbn; [reflexivity|]. rewrite IH. ring. Qed.
Lemma qsum_mono n f g : (forall k, (0 <= k < n)%Z -> f k <= g k) -> qsum n f <= qsum n g.
Proof.
  unfold qsum. intros H. assert (H' : forall k, In k (upto n) -> f k <= g k) by (intros k Hk; apply H; now apply In_upto). clear H.
  induction (upto n) as [|a l IH]; cbn; [lra|]. assert (fold_right (fun k s => f k + s) 0 l <= fold_right (fun k s => g k + s) 0 l) by (apply IH; intros k Hk; apply H'; now right).
  assert (f a <= g a) by (apply H'; now left). lra.
Qed.
Lemma qsum_delta n a (v : Z -> Q) : (0 <= a < n)%Z -> qsum n (fun k => if (k =? a)%Z then v k else 0) == v a.
Proof.
  intros H. unfold qsum. assert (Hn : NoDup (upto n)) by apply NoDup_upto. assert (Hi : In a (upto n)) by now apply In_upto.
  induction (upto n) as [|b l IH]; [destruct Hi|]. cbn. inversion Hn as [|? ? N1 N2]; subst. destruct (Z.eqb_spec b a) as [->|Nb].
  - assert (E : fold_right (fun k s => (if (k =? a)%Z then v k else 0) + s) 0 l == 0).
    { clear - N1. induction l as [|c l IH]; cbn; [reflexivity|]. destruct (Z.eqb_spec c a) as [->|]; [exfalso; apply N1; now left|]. rewrite IH; [ring|]. intros Hc. apply N1. now right. }
    rewrite E. ring.
  - destruct Hi as [->|Hi]; [congruence|]. rewrite IH by assumption. ring.
Qed.

(** ** Indices *)
Lemma floor_bounds q : inject_Z (Qfloor q) <= q /\ q < inject_Z (Qfloor q) + 1.
Proof. split; [apply Qfloor_le|]. pose proof (Qlt_floor q) as H. rewrite inject_Z_plus in H. exact H. Qed.
Lemma inj_le a b : inject_Z a <= inject_Z b <-> (a <= b)%Z.
Proof. rewrite Zle_Qle. reflexivity. Qed.
Lemma inj_lt a b : inject_Z a < inject_Z b <-> (a < b)%Z.
Proof. rewrite Zlt_Qlt. reflexivity. Qed.
Lemma Qgeb_spec a b : if Qgeb a b then b <= a else a < b.
Proof. unfold Qgeb. destruct (Qle_bool b a) eqn:E; [now apply Qle_bool_iff|]. apply Qnot_le_lt. intros H. apply Qle_bool_iff in H. congruence. Qed.
Lemma Qltb_spec a b : if Qltb a b then a < b else b <= a.
Proof. unfold Qltb. destruct (Qle_bool b a) eqn:E; cbn; [now apply Qle_bool_iff|]. apply Qnot_le_lt. intros H. apply Qle_bool_iff in H. congruence. Qed.

Lemma clamp_bounds n k : (0 < n)%Z -> (0 <= clamp n k < n)%Z.
Proof. intros H. unfold clamp. rewrite Z.geb_leb. destruct (Z.leb_spec 0 k); [destruct (Z.ltb_spec k (n - 1))|destruct (Z.ltb_spec 0 (n - 1))]; lia. Qed.
Lemma centre_position n n' d : (0 < n')%Z -> centre n n' d == source_position n n' d.
Proof. intros H. unfold centre, source_position. cbv zeta. field. apply Qnot_eq_sym, Qlt_not_eq. change 0 with (inject_Z 0). now apply inj_lt. Qed.

Lemma qabs_cases x : (0 <= x /\ Qabs x == x) \/ (x <= 0 /\ Qabs x == - x).
Proof. apply Qabs_case; intros H; [left|right]; split; try exact H; reflexivity. Qed.
Ltac qabs := repeat match goal with
  | |- context [Qabs ?x] => let E := fresh "E" in destruct (qabs_cases x) as [[? E]|[? E]]; try rewrite E in *; clear E
  | H : context [Qabs ?x] |- _ => let E := fresh "E" in destruct (qabs_cases x) as [[? E]|[? E]]; try rewrite E in *; clear E
  end; try lra.
(** rounding gives a nearest integer *)
Lemma round_near v k : Qabs (inject_Z (round v) - v) <= Qabs (inject_Z k - v).
Proof.
  assert (H : - (1 # 2) <= inject_Z (round v) - v <= 1 # 2).
  { unfold round. pose proof (Qgeb_spec v 0) as G. destruct (Qgeb v 0).
    - pose proof (floor_bounds (v + (1 # 2))). lra.
    - pose proof (floor_bounds (- v + (1 # 2))). rewrite inject_Z_opp. lra. }
  set (r := round v) in *. clearbody r. destruct (Z.eq_dec k r) as [->|Hn]; [lra|].
  assert (D : 1 <= inject_Z k - inject_Z r \/ inject_Z k - inject_Z r <= - 1).
  { unfold Qminus. rewrite <- inject_Z_opp, <- inject_Z_plus. destruct (Z_lt_le_dec k r); [right|left].
    - change (-1) with (inject_Z (-1)). apply inj_le. lia.
    - change 1 with (inject_Z 1). apply inj_le. lia. }
  qabs.
Qed.
Lemma clamp_near n v : (0 < n)%Z -> nearest_to n v (clamp n (round v)).
Proof.
  intros Hn. split; [now apply clamp_bounds|]. intros t Ht. pose proof (round_near v) as R. unfold clamp. rewrite Z.geb_leb.
  set (r := round v) in *. clearbody r.
  (* left of the axis, inside, right of it *)
  assert (L : (r < 0)%Z -> v <= 0).
  { intros H. specialize (R 0%Z). destruct (Qlt_le_dec 0 v) as [Hv|Hv]; [|exact Hv]. exfalso. assert (inject_Z r <= -1) by (change (-1) with (inject_Z (-1)); apply inj_le; lia).
    change (inject_Z 0) with 0 in *. qabs. }
  assert (G : (n - 1 < r)%Z -> inject_Z (n - 1) <= v).
  { intros H. specialize (R (n - 1)%Z). destruct (Qlt_le_dec v (inject_Z (n - 1))) as [Hv|Hv]; [|exact Hv]. exfalso. assert (inject_Z (n - 1) + 1 <= inject_Z r) by (change 1 with (inject_Z 1); rewrite <- inject_Z_plus; apply inj_le; lia).
    qabs. }
  assert (B : 0 <= inject_Z t <= inject_Z (n - 1)) by (split; [change 0 with (inject_Z 0)|]; apply inj_le; lia).
  destruct (Z.leb_spec 0 r) as [H0|H0].
  - destruct (Z.ltb_spec r (n - 1)) as [H1|H1]; [apply R|]. destruct (Z.eq_dec r (n - 1)) as [->|]; [apply R|]. specialize (G ltac:(lia)).
    clear R L. qabs.
  - specialize (L H0). destruct (Z.ltb_spec 0 (n - 1)) as [H1|H1].
    + clear R G. change (inject_Z 0) with 0. qabs.
    + clear R G. replace (n - 1)%Z with 0%Z in * by lia. change (inject_Z 0) with 0 in *. qabs.
Qed.
Lemma nearest_to_compat n p q s : p == q -> nearest_to n p s -> nearest_to n q s.
Proof. intros E [H1 H2]. split; [exact H1|]. intros t Ht. rewrite <- E. auto. Qed.
Lemma nearest_index_ok n n' d : (0 < n)%Z -> (0 < n')%Z -> nearest_to n (source_position n n' d) (nearest_index n n' d).
Proof. intros H H'. eapply nearest_to_compat; [apply centre_position; exact H'|]. now apply clamp_near. Qed.
Lemma hard_index_ok n n' d : (0 < n)%Z -> (0 <= d < n')%Z -> hard_index n n' d = (d * n / n')%Z.
Proof.
  intros H Hd. unfold hard_index. set (v := _ * _).
  assert (Hn' : 0 < inject_Z n') by (change 0 with (inject_Z 0); apply inj_lt; lia).
  assert (Hv : v * inject_Z n' == inject_Z (d * n)).
  { unfold v. rewrite inject_Z_mult. field. lra. }
  assert (E : truncate v = (d * n / n')%Z).
  { assert (V0 : 0 <= v).
    { apply (Qmult_le_r _ _ (inject_Z n') Hn'). rewrite Hv, Qmult_0_l. change 0 with (inject_Z 0). apply inj_le. nia. }
    unfold truncate. pose proof (Qgeb_spec v 0) as G. destruct (Qgeb v 0); [|lra].
    destruct (floor_bounds v) as [F1 F2]. set (f := Qfloor v) in *. clearbody f.
    assert (A1 : (f * n' <= d * n)%Z). { apply inj_le. rewrite inject_Z_mult, <- Hv. apply Qmult_le_r; [exact Hn'|exact F1]. }
    assert (A2 : (d * n < (f + 1) * n')%Z). { apply inj_lt. rewrite (inject_Z_mult (f + 1) n'), <- Hv, inject_Z_plus. apply Qmult_lt_r; [exact Hn'|exact F2]. }
    apply (Z.div_unique _ _ _ (d * n - n' * f)); lia. }
  rewrite E. assert (B : (0 <= d * n / n' < n)%Z).
  { split; [apply Z.div_pos; nia|]. apply Z.div_lt_upper_bound; nia. }
  unfold clamp. rewrite Z.geb_leb, (proj2 (Z.leb_le 0 _)) by lia. destruct (Z.ltb_spec (d * n / n') (n - 1)); lia.
Qed.

(** ** Linear *)
Lemma linear_position_ok n n' d : (2 <= n)%Z -> (0 < n')%Z ->
  let q := linear_position n n' d in let s := truncate q in
  (0 <= s)%Z /\ (s + 1 < n)%Z /\ 0 <= q - inject_Z s < 1 /\ linear_sample n (source_position n n' d) q.
Proof.
  intros Hn Hn'. cbv zeta. unfold linear_position. set (p := centre n n' d). assert (Ep : p == source_position n n' d) by (now apply centre_position). clearbody p.
  assert (N1 : 1 <= inject_Z (n - 1)) by (change 1 with (inject_Z 1); apply inj_le; lia).
  set (p0 := if Qgeb p 0 then p else 0). assert (P0 : 0 <= p0 /\ (0 <= p -> p0 == p) /\ (p < 0 -> p0 == 0)).
  { unfold p0. pose proof (Qgeb_spec p 0) as G. destruct (Qgeb p 0); repeat split; try lra; intros; lra. }
  destruct P0 as (P1 & P2 & P3). clearbody p0.
  set (q := if Qltb p0 _ then _ else _).
  assert (Q0 : 0 <= q /\ q < inject_Z (n - 1) /\ (p0 < inject_Z (n - 1) -> q == p0) /\ (inject_Z (n - 1) <= p0 -> q == inject_Z (n - 1) - (1 # 100000))).
  { unfold q. pose proof (Qltb_spec p0 (inject_Z (n - 1))) as G. destruct (Qltb p0 _); repeat split; intros; lra. }
  destruct Q0 as (Q1 & Q2 & Q3 & Q4). clearbody q.
  assert (T : truncate q = Qfloor q) by (unfold truncate; pose proof (Qgeb_spec q 0) as G; destruct (Qgeb q 0); [reflexivity|lra]).
  rewrite T. destruct (floor_bounds q) as [F1 F2]. split; [|split; [|split; [lra|]]].
  - assert (0 < Qfloor q + 1)%Z; [|lia]. apply inj_lt. rewrite inject_Z_plus. change (inject_Z 0) with 0. change (inject_Z 1) with 1. lra.
  - assert (Qfloor q < n - 1)%Z; [|lia]. apply inj_lt. lra.
  - split; [|split]; rewrite <- Ep; intros; [rewrite Q3; lra|rewrite Q3; lra|apply Q4; rewrite P2; lra].
Qed.
Lemma tent_at s f k : 0 <= f < 1 -> tent (inject_Z k - (inject_Z s + f)) == (if (k =? s)%Z then 1 - f else 0) + (if (k =? s + 1)%Z then f else 0).
Proof.
  intros Hf. unfold tent. destruct (Z.eqb_spec k s) as [->|N0]; [|destruct (Z.eqb_spec k (s + 1)) as [->|N1]].
  - rewrite (proj2 (Z.eqb_neq s (s + 1))) by lia. assert (E : Qabs (inject_Z s - (inject_Z s + f)) == f).
    { apply Qabs_case; intros; lra. } destruct (Qlt_le_dec _ _) as [H|H]; lra.
  - assert (E : Qabs (inject_Z (s + 1) - (inject_Z s + f)) == 1 - f).
    { rewrite inject_Z_plus. apply Qabs_case; intros; change (inject_Z 1) with 1 in *; lra. } destruct (Qlt_le_dec _ _) as [H|H]; lra.
  - assert (E : 1 <= Qabs (inject_Z k - (inject_Z s + f))).
    { assert (D : inject_Z k <= inject_Z s - 1 \/ inject_Z s + 2 <= inject_Z k).
      { destruct (Z_lt_le_dec k s); [left|right].
        - change 1 with (inject_Z 1). unfold Qminus. rewrite <- inject_Z_opp, <- inject_Z_plus. apply inj_le. lia.
        - change 2 with (inject_Z 2). rewrite <- inject_Z_plus. apply inj_le. lia. }
      apply Qabs_case; intros; lra. }
    destruct (Qlt_le_dec _ _) as [H|H]; lra.
Qed.
Lemma qsum_two n s u0 u1 (v : Z -> Q) : (0 <= s)%Z -> (s + 1 < n)%Z ->
  qsum n (fun k => ((if (k =? s)%Z then u0 else 0) + (if (k =? s + 1)%Z then u1 else 0)) * v k) == u0 * v s + u1 * v (s + 1)%Z.
Proof.
  intros H0 H1. rewrite (qsum_ext n _ (fun k => (if (k =? s)%Z then u0 * v k else 0) + (if (k =? s + 1)%Z then u1 * v k else 0))).
  2:{ intros k _. destruct (k =? s)%Z, (k =? s + 1)%Z; ring. }
  rewrite qsum_plus, (qsum_delta n s (fun k => u0 * v k)), (qsum_delta n (s + 1) (fun k => u1 * v k)) by lia. reflexivity.
Qed.
Global Instance tent_proper : Proper (Qeq ==> Qeq) tent.
Proof. intros a b E. unfold tent. assert (E' : Qabs a == Qabs b) by now rewrite E. destruct (Qlt_le_dec (Qabs a) 1), (Qlt_le_dec (Qabs b) 1); lra. Qed.
Lemma interpolate_nested kernel h w v py px :
  interpolate kernel h w v py px == qsum h (fun y => kernel (inject_Z y - py) * qsum w (fun x => kernel (inject_Z x - px) * v y x)).
Proof.
  unfold interpolate. apply qsum_ext. intros y _. rewrite <- qsum_scale. apply qsum_ext. intros x _. ring.
Qed.
Lemma tent_row n q (v : Z -> Q) s : (0 <= s)%Z -> (s + 1 < n)%Z -> 0 <= q - inject_Z s < 1 ->
  qsum n (fun k => tent (inject_Z k - q) * v k) == (1 - (q - inject_Z s)) * v s + (q - inject_Z s) * v (s + 1)%Z.
Proof.
  intros H0 H1 Hf. rewrite <- (qsum_two n s) by assumption. apply qsum_ext. intros k _.
  rewrite <- (tent_at s (q - inject_Z s) k Hf). assert (E : inject_Z k - q == inject_Z k - (inject_Z s + (q - inject_Z s))) by ring. now rewrite <- E.
Qed.
Section Pixels.
Context {A : Type}.
Variable to_q : A -> Q.
Variable cast : Q -> A.
Hypothesis cast_ok : forall p q, p == q -> cast p = cast q.
Variable at_ : Z -> Z -> sres A.
Variable v : Z -> Z -> A.
Variables h w h' w' : Z.
Hypothesis At : forall y x, (0 <= y < h)%Z -> (0 <= x < w)%Z -> at_ y x = SOk (v y x).
Hypothesis Hh' : (0 < h')%Z.
Hypothesis Hw' : (0 < w')%Z.
Lemma linear_pixel_ok y x : (2 <= h)%Z -> (2 <= w)%Z -> exists py px,
  linear_sample h (source_position h h' y) py /\ linear_sample w (source_position w w' x) px /\
  0 <= py < inject_Z (h - 1) /\ 0 <= px < inject_Z (w - 1) /\
  linear_pixel to_q cast h w h' w' at_ y x = SOk (cast (interpolate tent h w (fun sy sx => to_q (v sy sx)) py px)).
Proof using cast_ok At Hh' Hw'.
  intros Hh Hw. destruct (linear_position_ok h h' y Hh Hh') as (A1 & A2 & A3 & A4). destruct (linear_position_ok w w' x Hw Hw') as (B1 & B2 & B3 & B4).
  exists (linear_position h h' y), (linear_position w w' x). split; [exact A4|]. split; [exact B4|].
  assert (Bd : forall n q, (0 <= truncate q)%Z -> (truncate q + 1 < n)%Z -> 0 <= q - inject_Z (truncate q) < 1 -> 0 <= q < inject_Z (n - 1)).
  { clear. intros n q H1 H2 H3. assert (inject_Z (truncate q) + 1 <= inject_Z (n - 1)) by (change 1 with (inject_Z 1); rewrite <- inject_Z_plus; apply inj_le; lia).
    assert (0 <= inject_Z (truncate q)) by (change 0 with (inject_Z 0); now apply inj_le). lra. }
  split; [now apply Bd|]. split; [now apply Bd|]. unfold linear_pixel.
  set (py := linear_position h h' y) in *. set (px := linear_position w w' x) in *. set (ny := truncate py) in *. set (nx := truncate px) in *. clearbody py px ny nx.
  rewrite !At by lia. cbn [bind2]. f_equal. apply cast_ok. rewrite interpolate_nested.
  rewrite (tent_row h py (fun sy => qsum w (fun sx => tent (inject_Z sx - px) * to_q (v sy sx))) ny) by assumption.
  rewrite !(tent_row w px _ nx) by assumption. ring.
Qed.

Lemma keys_at s f k : 0 <= f < 1 -> let '(c0, c1, c2, c3) := cubic_coeffs f in
  keys (inject_Z k - (inject_Z s + f)) == (if (k =? s - 1)%Z then c0 else 0) + (if (k =? s)%Z then c1 else 0) + (if (k =? s + 1)%Z then c2 else 0) + (if (k =? s + 2)%Z then c3 else 0).
Proof.
  intros Hf. cbn [cubic_coeffs]. unfold keys. set (u := Qabs _). cbv zeta.
  destruct (Z_lt_le_dec k (s - 1)) as [Hlo|Hlo]; [|destruct (Z_lt_le_dec (s + 2) k) as [Hhi|Hhi]].
  - assert (U : 2 <= u).
    { assert (inject_Z k <= inject_Z s - 2) by (change 2 with (inject_Z 2); unfold Qminus; rewrite <- inject_Z_opp, <- inject_Z_plus; apply inj_le; lia). unfold u. qabs. }
    rewrite !(proj2 (Z.eqb_neq _ _)) by lia. destruct (Qlt_le_dec u 1); [lra|]. destruct (Qlt_le_dec u 2); lra.
  - assert (U : 2 <= u).
    { assert (inject_Z s + 3 <= inject_Z k) by (change 3 with (inject_Z 3); rewrite <- inject_Z_plus; apply inj_le; lia). unfold u. qabs. }
    rewrite !(proj2 (Z.eqb_neq _ _)) by lia. destruct (Qlt_le_dec u 1); [lra|]. destruct (Qlt_le_dec u 2); lra.
  - assert (K : (k = s - 1 \/ k = s \/ k = s + 1 \/ k = s + 2)%Z) by lia.
    destruct K as [->|[->|[->| ->]]]; rewrite !Z.eqb_refl, !(proj2 (Z.eqb_neq _ _)) by lia.
    + assert (U : u == 1 + f) by (unfold u, Z.sub; rewrite inject_Z_plus; change (inject_Z (- (1))) with (-1); qabs).
      destruct (Qlt_le_dec u 1); [lra|]. destruct (Qlt_le_dec u 2); [|lra]. rewrite U. ring.
    + assert (U : u == f) by (unfold u; qabs). destruct (Qlt_le_dec u 1); [|lra]. rewrite U. ring.
    + assert (U : u == 1 - f) by (unfold u; rewrite inject_Z_plus; change (inject_Z 1) with 1; qabs). destruct (Qlt_le_dec u 1); [rewrite U; ring|].
      assert (F : f == 0) by lra. destruct (Qlt_le_dec u 2); [|lra]. rewrite U, F. ring.
    + assert (U : u == 2 - f) by (unfold u; rewrite inject_Z_plus; change (inject_Z 2) with 2; qabs). destruct (Qlt_le_dec u 1); [lra|].
      destruct (Qlt_le_dec u 2); [rewrite U; ring|]. assert (F : f == 0) by lra. rewrite F. ring.
Qed.
Global Instance keys_proper : Proper (Qeq ==> Qeq) keys.
Proof.
  intros a b E. unfold keys. assert (E' : Qabs a == Qabs b) by now rewrite E. cbv zeta.
  destruct (Qlt_le_dec (Qabs a) 1), (Qlt_le_dec (Qabs b) 1); try lra; [now rewrite E'|].
  destruct (Qlt_le_dec (Qabs a) 2), (Qlt_le_dec (Qabs b) 2); try lra. now rewrite E'.
Qed.
Lemma keys_row n s f (g : Z -> Q) : (1 <= s)%Z -> (s + 2 < n)%Z -> 0 <= f < 1 -> let '(c0, c1, c2, c3) := cubic_coeffs f in
  qsum n (fun k => keys (inject_Z k - (inject_Z s + f)) * g k) == c0 * g (s - 1)%Z + c1 * g s + c2 * g (s + 1)%Z + c3 * g (s + 2)%Z.
Proof.
  intros H0 H1 Hf. pose proof (keys_at s f) as Ka. destruct (cubic_coeffs f) as [[[c0 c1] c2] c3].
  rewrite (qsum_ext n _ (fun k => (if (k =? s - 1)%Z then c0 * g k else 0) + (if (k =? s)%Z then c1 * g k else 0) + (if (k =? s + 1)%Z then c2 * g k else 0) + (if (k =? s + 2)%Z then c3 * g k else 0))).
  2:{ intros k _. rewrite (Ka k Hf). destruct (k =? s - 1)%Z, (k =? s)%Z, (k =? s + 1)%Z, (k =? s + 2)%Z; ring. }
  rewrite !qsum_plus, (qsum_delta n (s - 1) (fun k => c0 * g k)), (qsum_delta n s (fun k => c1 * g k)), (qsum_delta n (s + 1) (fun k => c2 * g k)), (qsum_delta n (s + 2) (fun k => c3 * g k)) by lia. reflexivity.
Qed.
Lemma cubic_position_ok n n' d : (4 <= n)%Z -> (0 < n')%Z -> let '(s, f) := cubic_position n n' d in
  (1 <= s)%Z /\ (s + 2 < n)%Z /\ 0 <= f < 1 /\ cubic_sample n (source_position n n' d) (inject_Z s + f).
Proof.
  intros Hn Hn'. unfold cubic_position. fold (source_position n n' d). set (p := source_position n n' d). cbv zeta.
  destruct (floor_bounds p) as [F1 F2]. set (s := Qfloor p) in *. clearbody s.
  assert (N1 : 1 <= inject_Z (n - 3)) by (change 1 with (inject_Z 1); apply inj_le; lia).
  assert (I0 : inject_Z 0 == 0) by reflexivity. assert (I1 : inject_Z 1 == 1) by reflexivity.
  destruct (Z.ltb_spec s 1) as [Hs|Hs].
  - assert (P : p < 1). { assert (inject_Z s <= inject_Z 0) by (apply inj_le; lia). lra. }
    rewrite Z.geb_leb. destruct (Z.leb_spec (n - 3) 1) as [H3|H3].
    + assert (E3 : inject_Z (n - 3) == 1) by (replace (n - 3)%Z with 1%Z by lia; reflexivity). split; [lia|]. split; [lia|]. split; [lra|]. split; [|split]; intros; lra.
    + split; [lia|]. split; [lia|]. split; [lra|]. split; [|split]; intros; lra.
  - assert (P : 1 <= p). { assert (inject_Z 1 <= inject_Z s) by (apply inj_le; lia). lra. }
    rewrite Z.geb_leb. destruct (Z.leb_spec (n - 3) s) as [H3|H3].
    + assert (inject_Z (n - 3) <= inject_Z s) by now apply inj_le. split; [lia|]. split; [lia|]. split; [lra|]. split; [|split]; intros; lra.
    + assert (inject_Z s + 1 <= inject_Z (n - 3)) by (rewrite <- I1, <- inject_Z_plus; apply inj_le; lia). split; [lia|]. split; [lia|]. split; [lra|]. split; [|split]; intros; lra.
Qed.
Lemma cubic_pixel_ok y x : (4 <= h)%Z -> (4 <= w)%Z -> exists py px,
  cubic_sample h (source_position h h' y) py /\ cubic_sample w (source_position w w' x) px /\
  cubic_pixel to_q cast h w h' w' at_ y x = SOk (cast (interpolate keys h w (fun sy sx => to_q (v sy sx)) py px)).
Proof using cast_ok At Hh' Hw'.
  intros Hh Hw. pose proof (cubic_position_ok h h' y Hh Hh') as PY. pose proof (cubic_position_ok w w' x Hw Hw') as PX. unfold cubic_pixel.
  destruct (cubic_position h h' y) as [sy fy]. destruct (cubic_position w w' x) as [sx fx]. destruct PY as (Y1 & Y2 & Y3 & Y4). destruct PX as (X1 & X2 & X3 & X4).
  exists (inject_Z sy + fy), (inject_Z sx + fx). split; [exact Y4|]. split; [exact X4|].
  pose proof (fun g => keys_row h sy fy g Y1 Y2 Y3) as RY. pose proof (fun g => keys_row w sx fx g X1 X2 X3) as RX.
  destruct (cubic_coeffs fy) as [[[c0 c1] c2] c3]. destruct (cubic_coeffs fx) as [[[x0 x1] x2] x3].
  unfold cubic_column. rewrite !At by lia. cbn [bind2]. f_equal. apply cast_ok. rewrite interpolate_nested.
  rewrite (RY (fun y0 => qsum w (fun x4 => keys (inject_Z x4 - (inject_Z sx + fx)) * to_q (v y0 x4)))).
  rewrite !RX. ring.
Qed.
End Pixels.

(** ** Averages *)
Lemma tent_between n q (v : Z -> Q) lo hi : 0 <= q < inject_Z (n - 1) -> (forall k, (0 <= k < n)%Z -> lo <= v k <= hi) ->
  lo <= qsum n (fun k => tent (inject_Z k - q) * v k) <= hi.
Proof.
  intros Hq Hv. destruct (floor_bounds q) as [F1 F2]. set (s := Qfloor q) in *. clearbody s.
  assert (S0 : (0 <= s)%Z). { assert (0 < s + 1)%Z; [|lia]. apply inj_lt. rewrite inject_Z_plus. change (inject_Z 0) with 0. change (inject_Z 1) with 1. lra. }
  assert (S1 : (s + 1 < n)%Z). { assert (s < n - 1)%Z; [|lia]. apply inj_lt. lra. }
  assert (Hf : 0 <= q - inject_Z s < 1) by lra. rewrite (tent_row n q v s S0 S1 Hf).
  pose proof (Hv s ltac:(lia)) as V0. pose proof (Hv (s + 1)%Z ltac:(lia)) as V1. set (f := q - inject_Z s) in *. clearbody f. set (a := v s) in *. set (b := v (s + 1)%Z) in *. clearbody a b. split; nra.
Qed.
Lemma interpolate_between h w v py px lo hi : 0 <= py < inject_Z (h - 1) -> 0 <= px < inject_Z (w - 1) ->
  (forall y x, (0 <= y < h)%Z -> (0 <= x < w)%Z -> lo <= v y x <= hi) -> lo <= interpolate tent h w v py px <= hi.
Proof. intros Hy Hx Hv. rewrite interpolate_nested. apply tent_between; [exact Hy|]. intros y Yr. apply tent_between; [exact Hx|]. intros x Xr. now apply Hv. Qed.
Lemma keys_constant n s f m : (1 <= s)%Z -> (s + 2 < n)%Z -> 0 <= f < 1 -> qsum n (fun k => keys (inject_Z k - (inject_Z s + f)) * m) == m.
Proof. intros H0 H1 Hf. pose proof (keys_row n s f (fun _ => m) H0 H1 Hf) as E. unfold cubic_coeffs in E. rewrite E. ring. Qed.
