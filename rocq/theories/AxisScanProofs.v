(** Max and ArgMax. *)
From Coq Require Import List ZArith Lia Bool Arith.
From Verif Require Import ShapeModel ShapeSpec ShapeProofs KernelBase KernelSpec KernelProofs CoordProofs TileModel EltwiseModel
  AxisModel AxisSpec AxisProofs.
Import ListNotations.
Local Open Scope Z_scope.

Section Scan.
Context {A : Type} (gt : A -> A -> bool).
Hypothesis W : strict_weak gt.

Definition best (f : Z -> A) (n m : Z) : Prop :=
  0 <= m < n /\ (forall k, 0 <= k < n -> gt (f k) (f m) = false) /\ (forall k, 0 <= k < m -> gt (f m) (f k) = true).

Lemma scan_from (get : Z -> sres A) f len : forall j m, (0 < j)%nat ->
  (forall k, 0 <= k < Z.of_nat (j + len) -> get k = SOk (f k)) -> best f (Z.of_nat j) m ->
  exists m', scan gt get (map Z.of_nat (seq j len)) (f m) m = SOk (f m', m') /\ best f (Z.of_nat (j + len)) m'.
Proof using W.
  destruct W as [As Nt].
  induction len as [|len IH]; intros j m Hj Hget B.
  - exists m. split; [reflexivity|]. now rewrite Nat.add_0_r.
  - cbn [seq map scan]. rewrite Hget by lia. destruct (Z.eqb_spec (Z.of_nat j) 0); [lia|].
    destruct B as (B1 & B2 & B3).
    replace (j + S len)%nat with (S j + len)%nat in * by lia.
    destruct (gt (f (Z.of_nat j)) (f m)) eqn:E.
    + apply IH; [lia|exact Hget|]. split; [lia|]. split.
      * intros k Hk. destruct (Z.eq_dec k (Z.of_nat j)) as [->|N].
        -- destruct (gt (f (Z.of_nat j)) (f (Z.of_nat j))) eqn:E2; [|reflexivity]. pose proof (As _ _ E2). congruence.
        -- apply (Nt _ (f m)); [apply B2; lia|now apply As].
      * intros k Hk. destruct (gt (f (Z.of_nat j)) (f k)) eqn:E2; [reflexivity|]. rewrite (Nt _ _ _ E2 (B2 k ltac:(lia))) in E. discriminate.
    + apply IH; [lia|exact Hget|]. split; [lia|]. split; [|exact B3].
      intros k Hk. destruct (Z.eq_dec k (Z.of_nat j)) as [->|N]; [exact E|apply B2; lia].
Qed.

Lemma scan_ok (get : Z -> sres A) f n zero : 0 < n -> (forall k, 0 <= k < n -> get k = SOk (f k)) ->
  exists m, scan gt get (upto n) zero 0 = SOk (f m, m) /\ best f n m.
Proof using W.
  intros Hn Hget. unfold upto. destruct (Z.to_nat n) as [|len] eqn:E; [lia|]. cbn [seq map scan].
  change (Z.of_nat 0) with 0. rewrite Hget by lia. cbn [Z.eqb].
  destruct (scan_from get f len 1 0) as (m & H & B).
  - lia.
  - intros k Hk. apply Hget. lia.
  - split; [lia|]. split; [|intros; lia]. intros k Hk. replace k with 0 by lia.
    destruct (gt (f 0) (f 0)) eqn:E2; [|reflexivity]. pose proof (proj1 W _ _ E2). congruence.
  - exists m. split; [exact H|]. replace n with (Z.of_nat (1 + len)) by lia. exact B.
Qed.
End Scan.

(** a read outside is a read outside *)
Lemma scan_undef {A} (gt : A -> A -> bool) (get : Z -> sres A) ms : forall v i,
  (forall m, In m ms -> get m <> SErr) -> (exists m, In m ms /\ get m = SUndef) -> scan gt get ms v i = SUndef.
Proof.
  induction ms as [|m ms IH]; intros v i H (m' & Hin & E); [destruct Hin|]. cbn [scan].
  destruct (get m) as [a| |] eqn:Em; [|exfalso; eapply H; [now left|exact Em]|reflexivity].
  destruct Hin as [E'|Hin]; [rewrite E' in Em; congruence|].
  assert (G : forall v' i', scan gt get ms v' i' = SUndef) by (intros; apply IH; [intros x Hx; apply H; now right|eauto]).
  destruct (m =? 0); [apply G|]. destruct (gt a v); apply G.
Qed.

Lemma scan_total {A} (gt : A -> A -> bool) (get : Z -> sres A) ms : forall v i, (forall m, In m ms -> exists a, get m = SOk a) ->
  exists r, scan gt get ms v i = SOk r.
Proof.
  induction ms as [|m ms IH]; intros v i H; [eexists; reflexivity|]. cbn [scan]. destruct (H m) as (a & ->); [now left|].
  assert (G : forall v' i', exists r, scan gt get ms v' i' = SOk r) by (intros; apply IH; intros x Hx; apply H; now right).
  destruct (m =? 0); [apply G|]. destruct (gt a v); apply G.
Qed.

Definition scanned {A} (gt : A -> A -> bool) (zero : A) (get : Z -> sres A) d w (p : Z) : A * Z :=
  match scan gt (fun m => get (p mod w + m * w + p / w * (w * d))) (upto d) zero 0 with SOk r => r | _ => (zero, 0) end.

Lemma scan_exec {A B} (gt : A -> A -> bool) (zero : A) (get : Z -> sres A) (g : A * Z -> B) S d T :
  nonneg_shape (S ++ d :: T) -> (forall q, 0 <= q < elements (S ++ d :: T) -> exists a, get q = SOk a) ->
  exec (fresh (elements S * elements T)) (map (map_event g) (scan_run gt zero get (S ++ d :: T) (length S)))
  = SOk (map Some (map (fun p => g (scanned gt zero get d (elements T) p)) (upto (elements S * elements T)))).
Proof.
  intros N Hget. apply Forall_app in N as [Ns N]. inversion N as [|? ? Nd Nt]; subst.
  pose proof (elements_nonneg _ Ns) as Es. pose proof (elements_nonneg _ Nt) as Et.
  rewrite elements_app in Hget. cbn [elements] in Hget.
  unfold scan_run. rewrite firstn_len, skipn_len, nth_len, !prod_elements.
  apply exec_all.
  - intros p v H. apply in_map_iff in H. destruct H as ((p' & v') & E & H). unfold map_event in E. cbn [fst snd] in E. injection E as -> <-.
    apply in_flat_map in H. destruct H as (i & Hi & H). apply in_map_iff in H. destruct H as (k & [= <- <-] & Hk).
    apply In_upto in Hi, Hk. split; [nia|]. unfold scanned.
    assert (E1 : (i * elements T + k) mod elements T = k) by (rewrite Z.add_comm, Z.mod_add by lia; apply Z.mod_small; lia).
    assert (E2 : (i * elements T + k) / elements T = i) by (rewrite Z.div_add_l, Z.div_small by lia; lia).
    rewrite E1, E2.
    destruct (scan_total gt (fun m => get (k + m * elements T + i * (elements T * d))) (upto d) zero 0) as (r & ->); [|reflexivity].
    intros m Hm. apply In_upto in Hm. apply Hget.
    assert (0 <= i * d + m < elements S * d) by nia.
    assert (0 <= (i * d + m) * elements T) by nia.
    assert ((i * d + m) * elements T + elements T <= elements S * d * elements T) by nia.
    replace (k + m * elements T + i * (elements T * d)) with ((i * d + m) * elements T + k) by ring.
    replace (elements S * (d * elements T)) with (elements S * d * elements T) by ring. lia.
  - intros p Hp. rewrite map_map. apply in_map_iff.
    assert (0 < elements T) by nia.
    exists (p, scan gt (fun m => get (p mod elements T + m * elements T + p / elements T * (elements T * d))) (upto d) zero 0).
    split; [reflexivity|]. apply in_flat_map. exists (p / elements T). split.
    + apply In_upto. pose proof (Z.div_mod p (elements T) ltac:(lia)). pose proof (Z.mod_pos_bound p (elements T) ltac:(lia)). nia.
    + apply in_map_iff. exists (p mod elements T). split.
      * f_equal. rewrite Z.mul_comm. symmetry. apply Z.div_mod. lia.
      * apply In_upto. apply Z.mod_pos_bound. lia.
Qed.

(** the best along the axis *)
Lemma scanned_best {A} (gt : A -> A -> bool) zero (data : list A) (get : Z -> sres A) S d T s t : strict_weak gt ->
  Forall (fun d => 0 <= d) (S ++ d :: T) -> 0 < d -> Z.of_nat (length data) = elements (S ++ d :: T) ->
  (forall q, 0 <= q < elements (S ++ d :: T) -> get q = load data q) -> inside S s -> inside T t ->
  exists m, scanned gt zero get d (elements T) (position S s * elements T + position T t)
            = (nth (Z.to_nat (position (S ++ d :: T) (s ++ m :: t))) data zero, m) /\
    best gt (fun k => nth (Z.to_nat (position (S ++ d :: T) (s ++ k :: t))) data zero) d m.
Proof.
  intros W N Hd Hl Hget Hs Ht.
  pose proof (position_bound _ _ Hs) as Bs. pose proof (position_bound _ _ Ht) as Bt.
  unfold scanned.
  rewrite Z.add_comm, Z.mod_add, (Z.mod_small (position T t)) by lia.
  rewrite Z.add_comm, Z.div_add_l, Z.div_small by lia. rewrite Z.add_0_r.
  destruct (scan_ok gt W (fun m => get (position T t + m * elements T + position S s * (elements T * d)))
    (fun k => nth (Z.to_nat (position (S ++ d :: T) (s ++ k :: t))) data zero) d zero Hd) as (m & -> & B); [|eauto].
  intros k Hk. rewrite position_mid by (now apply inside_length).
  replace (position T t + k * elements T + position S s * (elements T * d)) with ((position S s * d + k) * elements T + position T t) by ring.
  assert (0 <= (position S s * d + k) * elements T + position T t < elements (S ++ d :: T)).
  { rewrite elements_app. cbn [elements]. assert (0 <= position S s * d + k < elements S * d) by nia. nia. }
  rewrite Hget by assumption.
  destruct (load_ok data ((position S s * d + k) * elements T + position T t) ltac:(lia)) as (a & -> & E). now rewrite (nth_error_nth _ _ zero E).
Qed.

Lemma elt_nth {A} (x : tensor A) c zero : wf x -> inside (t_shape x) c -> elt x c = Some (nth (Z.to_nat (position (t_shape x) c)) (t_data x) zero).
Proof.
  intros [_ Wl] H. unfold elt. apply nth_error_nth'. pose proof (position_bound _ _ H). lia.
Qed.

Lemma inside_mid S d T s k t : inside S s -> 0 <= k < d -> inside T t -> inside (S ++ d :: T) (s ++ k :: t).
Proof. intros H1 H2 H3. apply Forall2_app; [exact H1|]. now constructor. Qed.

Lemma coordinates_one d : coordinates [d] = map (fun k => [k]) (upto d).
Proof. change (flat_map (fun k => map (cons k) [[]]) (upto d) = map (fun k : Z => [k]) (upto d)). generalize (upto d) as l. induction l as [|k ks IH]; [reflexivity|]. simpl in *. now rewrite IH. Qed.

Theorem max_ok {A} (gt : A -> A -> bool) (zero : A) dim keep (x : tensor A) S d T : strict_weak gt ->
  wf x -> t_shape x = S ++ d :: T -> axis_of dim (length (t_shape x)) (length S) -> 0 < d -> tile_supports (t_dtype x) = true ->
  exists out, max_run gt zero dim keep x = SOk (filled out) /\ wf out /\ t_dtype out = t_dtype x /\
    reduced (greatest gt) S [d] T (if keep then [d] else []) x out.
Proof.
  intros W Wx Es Ha Hd Hs. unfold max_run. rewrite (fix_dim_ok _ _ _ Ha), Hs. cbn [negb].
  assert (N := proj1 Wx). rewrite Es in N.
  assert (Hget : forall q, 0 <= q < elements (S ++ d :: T) -> exists a, load (t_data x) q = SOk a).
  { intros q Hq. destruct (load_ok (t_data x) q) as (a & -> & _); [rewrite (proj2 Wx), Es; exact Hq|eauto]. }
  set (V := fun p => fst (scanned gt zero (load (t_data x)) d (elements T) p)).
  set (o := S ++ map (fun _ => 1) (if keep then [d] else []) ++ T).
  assert (Eo : (if keep then set_one (length S) (t_shape x) else erase (length S) (t_shape x)) = o).
  { rewrite Es. unfold o. destruct keep; [apply set_one_app|apply erase_app]. }
  assert (Ee : elements o = elements S * elements T) by (unfold o; rewrite elements_app, ones_between; reflexivity).
  rewrite Eo, prod_elements, Ee, Es.
  pose proof (scan_exec gt zero (load (t_data x)) fst S d T N Hget) as E. rewrite E. clear E.
  exists (Tn (t_dtype x) o (map V (upto (elements o)))).
  split; [unfold filled; cbn [t_dtype t_shape t_data]; rewrite Ee; reflexivity|].
  split.
  { apply wf_map. unfold o. apply Forall_app in N as [N1 N2]. inversion N2; subst. apply Forall_app. split; [exact N1|].
    apply Forall_app. split; [destruct keep; repeat constructor; lia|assumption]. }
  split; [reflexivity|]. split; [exact Es|]. split; [reflexivity|].
  intros s t Hins Hint.
  destruct (scanned_best gt zero (t_data x) (load (t_data x)) S d T s t W N Hd) as (m & Em & Bm); auto; [now rewrite (proj2 Wx), Es|].
  exists (map (fun k => nth (Z.to_nat (position (S ++ d :: T) (s ++ k :: t))) (t_data x) zero) (upto d)),
         (nth (Z.to_nat (position (S ++ d :: T) (s ++ m :: t))) (t_data x) zero).
  split.
  { unfold along. rewrite coordinates_one, !map_map. apply map_ext_in. intros k Hk. apply In_upto in Hk. cbn [app].
    rewrite (elt_nth x _ zero Wx); rewrite Es; [reflexivity|now apply inside_mid]. }
  split.
  { rewrite elt_map.
    - unfold o. rewrite position_out by exact Hins. unfold V. now rewrite Em.
    - unfold o. apply Forall2_app; [exact Hins|]. apply Forall2_app; [destruct keep; cbn; repeat constructor; lia|exact Hint]. }
  destruct Bm as (B1 & B2 & _). split.
  - apply in_map_iff. exists m. split; [reflexivity|now apply In_upto].
  - intros w Hw. apply in_map_iff in Hw. destruct Hw as (k & <- & Hk). apply In_upto in Hk. now apply B2.
Qed.

(** ArgMax, on the values it sees: the int32 words of its input *)
Theorem argmax_ok dim (x words : tensor Z) S d T : 
  wf words -> t_shape x = t_shape words ->
  (forall q, 0 <= q < elements (t_shape words) -> load_int32 (t_data x) q = load (t_data words) q) ->
  t_shape words = S ++ d :: T -> axis_of dim (length (t_shape words)) (length S) -> 0 < d ->
  exists out, argmax_run dim x = SOk (filled out) /\ wf out /\ t_dtype out = 5 /\ t_shape out = S ++ T /\
    forall s t, inside S s -> inside T t ->
      exists m, elt out (s ++ t) = Some m /\ first_max Z.gtb d (fun k => elt words (s ++ k :: t)) m.
Proof.
  intros Wx Ex Hw Es Ha Hd. unfold argmax_run. rewrite Ex, (fix_dim_ok _ _ _ Ha).
  assert (N := proj1 Wx). rewrite Es in *.
  assert (Wk : strict_weak Z.gtb).
  { split; intros *; rewrite !Z.gtb_ltb; intros; rewrite ?Z.ltb_ge, ?Z.ltb_lt in *; lia. }
  assert (Hget : forall q, 0 <= q < elements (S ++ d :: T) -> exists a, load_int32 (t_data x) q = SOk a).
  { intros q Hq. rewrite Hw by exact Hq. destruct (load_ok (t_data words) q) as (a & -> & _); [rewrite (proj2 Wx), Es; exact Hq|eauto]. }
  rewrite erase_app, prod_elements, elements_app.
  pose proof (scan_exec Z.gtb 0 (load_int32 (t_data x)) snd S d T N Hget) as E. rewrite E. clear E.
  set (V := fun p => snd (scanned Z.gtb 0 (load_int32 (t_data x)) d (elements T) p)).
  exists (Tn 5 (S ++ T) (map V (upto (elements (S ++ T))))).
  split; [unfold filled; cbn [t_dtype t_shape t_data]; rewrite elements_app; reflexivity|].
  split.
  { apply wf_map. apply Forall_app in N as [N1 N2]. inversion N2; subst. now apply Forall_app. }
  split; [reflexivity|]. split; [reflexivity|].
  intros s t Hins Hint.
  destruct (scanned_best Z.gtb 0 (t_data words) (load_int32 (t_data x)) S d T s t Wk N Hd) as (m & Em & Bm); auto; [now rewrite (proj2 Wx), Es|].
  exists m. split.
  { rewrite elt_map; [|now apply Forall2_app]. rewrite position_app by (now apply inside_length). unfold V. now rewrite Em. }
  destruct Bm as (B1 & B2 & B3).
  assert (El : forall k, 0 <= k < d -> elt words (s ++ k :: t) = Some (nth (Z.to_nat (position (S ++ d :: T) (s ++ k :: t))) (t_data words) 0)).
  { intros k Hk. rewrite (elt_nth words _ 0 Wx); rewrite Es; [reflexivity|now apply inside_mid]. }
  split; [exact B1|]. eexists. split; [apply El; exact B1|]. split.
  - intros k Hk. eexists. split; [apply El; exact Hk|]. now apply B2.
  - intros k Hk. eexists. split; [apply El; lia|]. now apply B3.
Qed.

(** too few bytes *)
Theorem argmax_short dim (x : tensor Z) S d T :
  t_shape x = S ++ d :: T -> positive_shape (S ++ d :: T) -> axis_of dim (length (t_shape x)) (length S) ->
  Z.of_nat (length (t_data x)) < 4 * elements (t_shape x) -> argmax_run dim x = SUndef.
Proof.
  intros Es P Ha Hl. unfold argmax_run. rewrite (fix_dim_ok _ _ _ Ha), Es.
  assert (X : forall q, load_int32 (t_data x) q <> SErr).
  { intros q. unfold load_int32. destruct (load (t_data x) (4 * q)), (load (t_data x) (4 * q + 1)), (load (t_data x) (4 * q + 2)), (load (t_data x) (4 * q + 3)); discriminate. }
  assert (Y : load_int32 (t_data x) (elements (S ++ d :: T) - 1) = SUndef).
  { pose proof (elements_pos _ P) as E. unfold load_int32.
    rewrite (load_out (t_data x) (4 * (elements (S ++ d :: T) - 1) + 3)) by (rewrite Es in Hl; lia).
    repeat match goal with |- context [match ?l with _ => _ end] => destruct l end; reflexivity. }
  assert (P' := P). apply Forall_app in P' as [Ps P']. inversion P' as [|? ? Pd Pt]; subst.
  pose proof (elements_pos _ Ps) as E1. pose proof (elements_pos _ Pt) as E2.
  assert (NE : forall v i ms get, (forall m, get m <> SErr) -> scan Z.gtb get ms v i <> SErr).
  { clear. intros v i ms get H. revert v i. induction ms as [|m ms IH]; intros v i; cbn [scan]; [discriminate|].
    destruct (get m) as [a| |] eqn:E; [|exfalso; eapply H; eauto|discriminate]. destruct (m =? 0); [apply IH|]. destruct (Z.gtb a v); apply IH. }
  rewrite exec_undef; [reflexivity| |].
  - intros p v H. apply in_map_iff in H. destruct H as ((p' & v') & E & H). unfold map_event in E. cbn [fst snd] in E. injection E as -> <-.
    unfold scan_run in H. apply in_flat_map in H. destruct H as (i & _ & H). apply in_map_iff in H. destruct H as (k & [= <- <-] & _).
    match goal with |- lift1 _ ?s <> _ => destruct s eqn:Q end; cbn [lift1]; try discriminate. exfalso. eapply NE; [|exact Q]. intros; apply X.
  - exists (elements S * elements T - 1). apply in_map_iff.
    exists (elements S * elements T - 1, SUndef). split; [reflexivity|].
    unfold scan_run. rewrite firstn_len, skipn_len, nth_len, !prod_elements.
    apply in_flat_map. exists (elements S - 1). split; [apply In_upto; lia|]. apply in_map_iff. exists (elements T - 1). split; [|apply In_upto; lia].
    f_equal; [ring|]. apply scan_undef; [intros; apply X|]. exists (d - 1). split; [apply In_upto; lia|].
    rewrite <- Y. f_equal. rewrite elements_app. cbn [elements]. ring.
Qed.
