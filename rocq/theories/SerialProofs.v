From Coq Require Import String Ascii.
From Coq Require Import List ZArith Bool Lia.
From Verif Require Import ShapeSpec ShapeProofs TensorModel SerialModel SerialSpec.
Import ListNotations.
Local Open Scope Z_scope.

Lemma all_some_map {A} (l : list A) : all_some (map Some l) = Some l.
Proof. induction l as [|x l IH]; simpl; [reflexivity|]. now rewrite IH. Qed.

Lemma read_into_full (old : list (option Z)) (a rest : stream) :
  length a = length old -> read_into old (a ++ rest) = (map Some a, rest).
Proof.
  intro E. unfold read_into. rewrite <- E.
  rewrite firstn_app, Nat.sub_diag, firstn_all, skipn_app, Nat.sub_diag, skipn_all. simpl.
  rewrite app_nil_r. rewrite E, skipn_all, app_nil_r. reflexivity.
Qed.

Lemma le_value_w32 n : 0 <= n < 4294967296 -> le_value (map Some (w32 n)) = Some n.
Proof.
  intros H. unfold w32. cbn [map le_value]. f_equal.
  Z.to_euclidean_division_equations. lia.
Qed.

Lemma le_value_w32_mod n : le_value (map Some (w32 n)) = Some (n mod 4294967296).
Proof.
  unfold w32. cbn [map le_value]. f_equal.
  Z.to_euclidean_division_equations. lia.
Qed.

Lemma w32_length n : length (w32 n) = 4%nat.
Proof. reflexivity. Qed.

Lemma read32 old n rest : length old = 4%nat ->
  read_into old (w32 n ++ rest) = (map Some (w32 n), rest).
Proof. intros H. apply read_into_full. now rewrite H. Qed.

Lemma read8 n rest : read_into (uninit 1) (w8 n ++ rest) = (map Some (w8 n), rest).
Proof. apply read_into_full. reflexivity. Qed.

Lemma to_int32_id x : -2147483648 <= x <= 2147483647 -> to_int32 (x mod 4294967296) = x.
Proof.
  intros H. unfold to_int32. rewrite Z.mod_mod by lia.
  destruct (Z.ltb_spec (x mod 4294967296) 2147483648);
  Z.to_euclidean_division_equations; lia.
Qed.

Lemma read_sizes_ok sizes : forall buf rest, length buf = 4%nat ->
  Forall (fun x => 0 <= x <= int_max) sizes ->
  read_sizes (length sizes) buf (concat (map w32 sizes) ++ rest) = ROk sizes rest.
Proof.
  unfold int_max. induction sizes as [|x l IH]; intros buf rest HB HF; cbn [length read_sizes map concat].
  - reflexivity.
  - rewrite <- app_assoc, read32 by auto.
    inversion HF as [|? ? H1 H2]; subst.
    rewrite le_value_w32 by lia. rewrite IH by auto. cbn [rbind].
    rewrite <- (Z.mod_small x 4294967296) at 1 by lia.
    rewrite to_int32_id by lia. reflexivity.
Qed.

Lemma elements_nonneg l : Forall (fun x => 0 <= x <= int_max) l -> 0 <= elements l.
Proof. induction 1; simpl; nia. Qed.

Lemma count_from_ok sizes : forall acc, 0 <= acc ->
  Forall (fun x => 0 <= x <= int_max) sizes ->
  (forall k, acc * elements (firstn k sizes) <= int_max) ->
  count_from acc sizes = Some (acc * elements sizes).
Proof.
  unfold int_max. induction sizes as [|x l IH]; intros acc HA HF HK; cbn [count_from].
  - cbn [elements]. now rewrite Z.mul_1_r.
  - inversion HF as [|? ? H1 H2]; subst.
    pose proof (HK 1%nat) as K1. cbn [firstn elements] in K1. rewrite Z.mul_1_r in K1.
    assert (0 <= acc * x) by nia.
    destruct (Z.leb_spec (-2147483648) (acc * x)); [|lia].
    destruct (Z.leb_spec (acc * x) 2147483647); [|lia]. cbn [andb].
    rewrite IH; [cbn [elements]; f_equal; ring | auto | auto |].
    intro k. specialize (HK (S k)). cbn [firstn elements] in HK. lia.
Qed.

Lemma count_ok sizes : Forall (fun x => 0 <= x <= int_max) sizes ->
  (forall k, elements (firstn k sizes) <= int_max) -> count sizes = Some (elements sizes).
Proof.
  intros H1 H2. unfold count. rewrite count_from_ok; auto; try lia.
  - f_equal. lia.
  - intro k. specialize (H2 k). lia.
Qed.

Lemma sizeof_type_bytes d : 0 <= d <= 32 -> sizeof d = type_bytes d.
Proof.
  intros H. assert (F : forallb (fun n => sizeof (Z.of_nat n) =? type_bytes (Z.of_nat n)) (seq 0 33) = true) by (vm_compute; reflexivity).
  rewrite forallb_forall in F. specialize (F (Z.to_nat d)). rewrite Z2Nat.id in F by lia.
  apply Z.eqb_eq. apply F. apply in_seq. lia.
Qed.

Lemma serialize_plain_wf p : well_formed p ->
  serialize_plain p = Some (w8 (p_dtype p) ++ w32 (Z.of_nat (length (p_sizes p)))
              ++ concat (map w32 (p_sizes p)) ++ p_data p).
Proof.
  intros [H1 H2 H3 H4 H5]. rewrite sizeof_type_bytes in H5 by exact H1. unfold serialize_plain. rewrite count_ok by auto.
  rewrite <- H5. destruct (Z.leb_spec 0 (Z.of_nat (length (p_data p)))); [|lia].
  rewrite Z.leb_refl. cbn [andb]. now rewrite Nat2Z.id, firstn_all.
Qed.

Lemma externalize_plain_ok p rest s : well_formed p -> serialize_plain p = Some s ->
  externalize_plain (s ++ rest) = ROk p rest.
Proof.
  intros W E. rewrite serialize_plain_wf in E by auto.
  assert (Es : s = w8 (p_dtype p) ++ w32 (Z.of_nat (length (p_sizes p)))
              ++ concat (map w32 (p_sizes p)) ++ p_data p) by congruence. clear E. subst s.
  destruct W as [H1 H2 H3 H4 H5]. rewrite sizeof_type_bytes in H5 by exact H1.
  unfold externalize_plain. rewrite <- app_assoc, read8.
  cbn [w8 map le_value]. rewrite Z.mod_small by lia. rewrite Z.mul_0_r, Z.add_0_r.
  rewrite <- app_assoc, read32 by reflexivity.
  rewrite le_value_w32 by lia.
  destruct (Z.ltb_spec 7 (Z.of_nat (length (p_sizes p)))); [lia|].
  rewrite Nat2Z.id. rewrite <- app_assoc, read_sizes_ok by auto. cbn [rbind].
  rewrite count_ok by auto. rewrite <- H5.
  destruct (Z.ltb_spec (Z.of_nat (length (p_data p))) 0); [lia|].
  rewrite read_into_full by (unfold uninit; rewrite repeat_length, Nat2Z.id; reflexivity).
  rewrite all_some_map. destruct p; reflexivity.
Qed.

Lemma read_plains_ok : forall ps body rest,
  (forall p, In p ps -> well_formed p) ->
  seq_opt (map serialize_plain ps) = Some body ->
  read_plains (length ps) (body ++ rest) = ROk ps rest.
Proof.
  induction ps as [|p ps IH]; intros body rest W E; cbn [map seq_opt] in E.
  - injection E as <-. reflexivity.
  - destruct (serialize_plain p) as [s|] eqn:Ep; [|discriminate].
    destruct (seq_opt (map serialize_plain ps)) as [r|] eqn:Er; [|discriminate].
    assert (body = s ++ r) by congruence. subst body.
    cbn [length read_plains]. rewrite <- app_assoc.
    rewrite (externalize_plain_ok p _ s) by (auto; apply W; now left). cbn [rbind].
    rewrite (IH r rest); auto. intros q Hq; apply W; now right.
Qed.

Lemma seq_opt_total {A} (f : A -> option stream) l :
  (forall x, In x l -> exists s, f x = Some s) -> exists s, seq_opt (map f l) = Some s.
Proof.
  induction l as [|x l IH]; intros H; cbn [map seq_opt]; eauto.
  destruct (H x (or_introl eq_refl)) as [s ->].
  destruct IH as [r ->]; eauto. intros y Hy; apply H; now right.
Qed.

Lemma flat_fields (t : tensor plain) : flat t -> map simple (map t_head (t_fields t)) = t_fields t.
Proof.
  unfold flat. intro H. rewrite map_map. rewrite <- map_id. apply map_ext_in.
  intros [h f] Hf. specialize (H _ Hf). cbn [t_fields] in H. subst f. reflexivity.
Qed.

Lemma tensor_writes t : well_formed_tensor t -> exists s, serialize_tensor t = Some s.
Proof.
  intros (W1 & W2 & W3). unfold serialize_tensor.
  destruct (seq_opt_total (fun f => serialize_plain (t_head f)) (unpack t)) as [s ->]; eauto.
  intros f [<-|Hf]; rewrite serialize_plain_wf; eauto.
Qed.

Lemma heads_of_fields t :
  map (fun f => serialize_plain (t_head f)) (unpack t)
  = map serialize_plain (t_head t :: map t_head (t_fields t)).
Proof. unfold unpack. cbn [map]. f_equal. now rewrite map_map. Qed.

(** the general form: what is read back is the list of heads *)
Lemma tensor_reads_heads t this s rest : well_formed_tensor t -> serialize_tensor t = Some s ->
  externalize_tensor this (s ++ rest)
  = ROk (T (t_head t) (map simple (map t_head (t_fields t)))) rest.
Proof.
  intros (W1 & W2 & W3) E. unfold serialize_tensor in E. rewrite heads_of_fields in E.
  destruct (seq_opt _) as [body|] eqn:Eb; [|discriminate].
  assert (s = w32 (Z.of_nat (fields_count t)) ++ body) by congruence. subst s. clear E.
  unfold externalize_tensor. rewrite <- app_assoc, read32 by reflexivity.
  rewrite le_value_w32 by lia. rewrite Nat2Z.id.
  assert (El : fields_count t = length (t_head t :: map t_head (t_fields t))).
  { cbn [length]. rewrite map_length. reflexivity. }
  rewrite El. rewrite (read_plains_ok _ body rest); auto.
  intros p [<-|Hp]; auto. apply in_map_iff in Hp as (f & <- & Hf). auto.
Qed.

Lemma tensor_round_trip t this rest : well_formed_tensor t -> flat t ->
  exists s, serialize_tensor t = Some s /\ externalize_tensor this (s ++ rest) = ROk t rest.
Proof.
  intros W F. destruct (tensor_writes t W) as [s Es]. exists s. split; auto.
  rewrite (tensor_reads_heads t this s rest) by auto. rewrite flat_fields by auto.
  destruct t; reflexivity.
Qed.

(** ** Bubble *)
Lemma str_eqb_eq a b : str_eqb a b = true <-> a = b.
Proof. unfold str_eqb. destruct (list_eq_dec Z.eq_dec a b); split; congruence. Qed.
Lemma str_eqb_refl a : str_eqb a a = true.
Proof. now apply str_eqb_eq. Qed.
Lemma str_eqb_neq a b : a <> b -> str_eqb a b = false.
Proof. intro H. destruct (str_eqb a b) eqn:E; auto. apply str_eqb_eq in E. congruence. Qed.

Lemma find_param_In m k v : find_param m k = Some v -> In (k, v) m.
Proof.
  induction m as [|[k' v'] r IH]; simpl; [discriminate|].
  destruct (str_eqb k k') eqn:E; intro H.
  - apply str_eqb_eq in E. left. congruence.
  - right; auto.
Qed.

Lemma find_param_None m k : find_param m k = None <-> ~ In k (map fst m).
Proof.
  induction m as [|[k' v'] r IH]; simpl; [tauto|].
  destruct (str_eqb k k') eqn:E.
  - apply str_eqb_eq in E. subst. split; [discriminate|]. intro H; exfalso; apply H; now left.
  - rewrite IH. split; [|tauto]. intros H [H1|H1]; [|tauto]. subst. rewrite str_eqb_refl in E. discriminate.
Qed.

Lemma find_set m k v q :
  find_param (set_param m k v) q = if str_eqb q k then Some v else find_param m q.
Proof.
  induction m as [|[k' v'] r IH]; simpl.
  - destruct (str_eqb q k); reflexivity.
  - destruct (str_eqb k k') eqn:E; simpl.
    + apply str_eqb_eq in E. subst k'. destruct (str_eqb q k); reflexivity.
    + destruct (str_eqb q k') eqn:E2.
      * apply str_eqb_eq in E2. subst k'. destruct (str_eqb q k) eqn:E3; auto.
        apply str_eqb_eq in E3. subst. rewrite str_eqb_refl in E. discriminate.
      * exact IH.
Qed.

Lemma set_param_keys m k v : map fst (set_param m k v) =
  if find_param m k then map fst m else map fst m ++ [k].
Proof.
  induction m as [|[k' v'] r IH]; simpl; auto.
  destruct (str_eqb k k') eqn:E; simpl.
  - reflexivity.
  - rewrite IH. destruct (find_param r k); reflexivity.
Qed.

Lemma set_param_NoDup m k v : NoDup (map fst m) -> NoDup (map fst (set_param m k v)).
Proof.
  intro H. rewrite set_param_keys. destruct (find_param m k) eqn:E; auto.
  apply find_param_None in E.
  apply NoDup_rev in H. apply NoDup_rev in H. rewrite rev_involutive in H.
  rewrite <- (rev_involutive (map fst m ++ [k])). apply NoDup_rev. rewrite rev_app_distr. simpl.
  constructor; [rewrite <- in_rev; auto | now apply NoDup_rev].
Qed.

Lemma set_param_in m k v x w : In (x, w) (set_param m k v) -> (x = k /\ w = v) \/ In (x, w) m.
Proof.
  induction m as [|[k' v'] r IH]; simpl.
  - intros [H|[]]. left. split; congruence.
  - destruct (str_eqb k k') eqn:E; simpl.
    + apply str_eqb_eq in E. subst. intros [H|H]; [left; split; congruence|auto].
    + intros [H|H]; auto. destruct (IH H); auto.
Qed.

Lemma erase_param_incl m k kv : In kv (erase_param m k) -> In kv m.
Proof.
  induction m as [|[k' v'] r IH]; simpl; auto.
  destruct (str_eqb k k'); simpl; [auto|]. intros [H|H]; auto.
Qed.

Lemma erase_param_NoDup m k : NoDup (map fst m) -> NoDup (map fst (erase_param m k)).
Proof.
  induction m as [|[k' v'] r IH]; simpl; auto. intro H. inversion H as [|? ? H1 H2]; subst.
  destruct (str_eqb k k'); auto. simpl. constructor; auto.
  intro X. apply H1. apply in_map_iff in X as ([a b] & <- & Hx).
  apply erase_param_incl in Hx. apply (in_map fst) in Hx. exact Hx.
Qed.

Lemma find_erase m k q : NoDup (map fst m) -> q <> k -> find_param (erase_param m k) q = find_param m q.
Proof.
  intros H N. induction m as [|[k' v'] r IH]; simpl; auto.
  simpl in H. inversion H as [|? ? H1 H2]; subst.
  destruct (str_eqb k k') eqn:E; simpl.
  - apply str_eqb_eq in E. subst k'. rewrite (str_eqb_neq q k) by auto. reflexivity.
  - destruct (str_eqb q k'); auto.
Qed.

Lemma find_filter m q : is_retention q = true ->
  find_param (filter (fun kv => is_retention (fst kv)) m) q = find_param m q.
Proof.
  intro H. induction m as [|[k' v'] r IH]; simpl; auto.
  destruct (is_retention k') eqn:E; simpl.
  - now rewrite IH.
  - destruct (str_eqb q k') eqn:E2; auto. apply str_eqb_eq in E2. congruence.
Qed.

Lemma filter_NoDup_keys f (m : list (list Z * tensor plain)) : NoDup (map fst m) -> NoDup (map fst (filter f m)).
Proof.
  induction m as [|kv r IH]; simpl; auto. intro H. inversion H as [|? ? H1 H2]; subst.
  destruct (f kv); simpl; auto. constructor; auto. intro X. apply H1.
  apply in_map_iff in X as (a & <- & Hx). apply filter_In in Hx as [Hx _]. now apply in_map.
Qed.

(** parameters that can be written *)
Definition param_ok (kv : list Z * tensor plain) : Prop :=
  Z.of_nat (length (fst kv)) <= int_max /\ well_formed_tensor (snd kv) /\ flat (snd kv).

Definition params_ok (m : list (list Z * tensor plain)) : Prop :=
  NoDup (map fst m) /\ (forall kv, In kv m -> param_ok kv).

Lemma read_param_ok kv prev rest : param_ok kv ->
  exists s, write_param kv = Some s /\ read_param prev (s ++ rest) = ROk kv rest.
Proof.
  destruct kv as [k v]. intros (H1 & H2 & H3). cbn [fst snd] in *. unfold int_max in *.
  destruct (tensor_round_trip v prev rest H2 H3) as (s & E1 & E2).
  unfold write_param. cbn [fst snd]. rewrite E1. eexists; split; [reflexivity|].
  unfold read_param. rewrite <- app_assoc, read32 by reflexivity.
  rewrite le_value_w32 by lia. rewrite Nat2Z.id. rewrite <- app_assoc.
  rewrite read_into_full by (unfold zeros; now rewrite repeat_length).
  rewrite all_some_map, E2. reflexivity.
Qed.

Lemma insert_fresh m k v : ~ In k (map fst m) -> insert_param m k v = m ++ [(k, v)].
Proof. intro H. unfold insert_param. apply find_param_None in H. now rewrite H. Qed.

Lemma read_params_ok : forall l prev m rest,
  (forall kv, In kv l -> param_ok kv) -> NoDup (map fst (m ++ l)) ->
  exists s, seq_opt (map write_param l) = Some s /\
            read_params (length l) prev m (s ++ rest) = ROk (m ++ l) rest.
Proof.
  induction l as [|kv l IH]; intros prev m rest H1 H2; cbn [map seq_opt length read_params].
  - exists []. rewrite app_nil_r. auto.
  - destruct (IH (snd kv) (m ++ [kv]) rest) as (r & E3 & E4).
    { intros x Hx; apply H1; now right. }
    { now rewrite <- app_assoc. }
    destruct (read_param_ok kv prev (r ++ rest)) as (s & E1 & E2); [apply H1; now left|].
    rewrite E1, E3. exists (s ++ r). split; auto. rewrite <- app_assoc, E2. cbn [rbind].
    rewrite insert_fresh.
    + destruct kv as [k v]. cbn [fst snd] in *. rewrite E4. now rewrite <- app_assoc.
    + rewrite map_app in H2. simpl in H2. apply NoDup_remove_2 in H2.
      intro X. apply H2. apply in_or_app. now left.
Qed.

(** ** Histories keep the attributes and the reserved parameters in step *)
Record consistent (b : bubble) : Prop := {
  co_op : find_param (b_params b) p_op = Some (tensor_of_string (b_op b));
  co_name : find_param (b_params b) p_name = Some (tensor_of_string (b_name b));
  co_shape : match find_param (b_params b) p_shape with
             | Some t => t = tensor_of_ints (b_shape b)
             | None => b_shape b = []
             end;
  co_count : find_param (b_params b) p_outcount = None;
  co_params : params_ok (b_params b);
  co_shape_ok : shape_ok (b_shape b);
  co_nonempty : True
}.

Lemma wf_one_size d n data : 0 <= d <= 32 -> 0 <= n <= int_max ->
  Z.of_nat (length data) = n * sizeof d -> well_formed (mkPlain d [n] data).
Proof.
  intros H1 H2 H3. split; cbn [p_dtype p_sizes p_data].
  - auto.
  - simpl; lia.
  - repeat constructor; lia.
  - intros k. unfold int_max in *. destruct k as [|k]; [|destruct k as [|k]]; cbn [firstn elements]; lia.
  - cbn [elements]. lia.
Qed.

Lemma wf_string s : string_ok s -> well_formed_tensor (tensor_of_string s) /\ flat (tensor_of_string s).
Proof.
  unfold string_ok. intro H. split.
  - split; [|split].
    + apply wf_one_size; [lia|lia|]. change (sizeof 13) with 1. lia.
    + intros f [].
    + reflexivity.
  - intros f [].
Qed.

Lemma concat_w32_length l : length (concat (map w32 l)) = (4 * length l)%nat.
Proof. induction l; simpl in *; lia. Qed.

Lemma wf_ints s : (length s <= 7)%nat ->
  well_formed_tensor (tensor_of_ints s) /\ flat (tensor_of_ints s).
Proof.
  unfold tensor_of_ints. intros H. split.
  - split; [|split].
    + apply wf_one_size; [lia|unfold int_max; lia|]. change (sizeof 5) with 4.
      rewrite concat_w32_length. lia.
    + intros f [].
    + reflexivity.
  - intros f [].
Qed.

Lemma params_ok_set m k v : params_ok m -> param_ok (k, v) -> params_ok (set_param m k v).
Proof.
  intros [H1 H2] H3. split; [now apply set_param_NoDup|].
  intros [x w] Hx. apply set_param_in in Hx as [[-> ->]|Hx]; auto.
Qed.

Lemma string_param_ok k s : Z.of_nat (length k) <= int_max -> string_ok s -> param_ok (k, tensor_of_string s).
Proof. intros H1 H2. destruct (wf_string s H2). split; auto. Qed.

Lemma ints_param_ok k s : Z.of_nat (length k) <= int_max -> (length s <= 7)%nat -> param_ok (k, tensor_of_ints s).
Proof. intros H1 H2. destruct (wf_ints s H2). split; auto. Qed.

Lemma retention_neq k q : is_retention k = false -> is_retention q = true -> q <> k.
Proof. congruence. Qed.

Lemma make_consistent op name shape : string_ok op -> string_ok name -> shape_ok shape ->
  consistent (make_bubble op name shape).
Proof.
  intros H1 H2 H3. unfold make_bubble, retention.
  cbn [b_params b_op b_name b_shape].
  set (m2 := set_param (set_param [] p_op (tensor_of_string op)) p_name (tensor_of_string name)).
  assert (P : params_ok m2).
  { apply params_ok_set; [apply params_ok_set|].
    - split; [constructor|intros kv []].
    - apply string_param_ok; auto. vm_compute. discriminate.
    - apply string_param_ok; auto. vm_compute. discriminate. }
  destruct shape as [|x l]; split; cbn [b_params b_op b_name b_shape]; auto; try exact I.
  - unfold m2. rewrite !find_set.
    change (str_eqb p_shape p_op) with false. change (str_eqb p_shape p_name) with false.
    cbn [find_param]. unfold tensor_of_ints. reflexivity.
  - rewrite find_set, str_eqb_refl. reflexivity.
  - apply params_ok_set; auto. apply ints_param_ok; [vm_compute; discriminate|]. apply H3.
Qed.

Lemma step_consistent b c : consistent b -> call_ok c -> consistent (bstep b c).
Proof.
  intros [A B C D E F _] H.
  destruct c; cbn [bstep call_ok] in *.
  - destruct H as (H1 & H2 & H3 & H4).
    split; cbn [b_params b_op b_name b_shape]; rewrite ?find_set; auto;
      try (rewrite str_eqb_neq by (apply retention_neq; auto); auto).
    apply params_ok_set; auto. split; auto.
  - destruct E as [E1 E2].
    split; cbn [b_params b_op b_name b_shape]; try rewrite find_erase by (auto; apply retention_neq; auto); auto.
    split; [now apply erase_param_NoDup|]. intros kv Hk. apply E2. eapply erase_param_incl; eauto.
  - destruct E as [E1 E2].
    split; cbn [b_params b_op b_name b_shape]; try rewrite find_filter by reflexivity; auto.
    split; [now apply filter_NoDup_keys|]. intros kv Hk. apply filter_In in Hk as [Hk _]. auto.
  - split; cbn [b_params b_op b_name b_shape]; rewrite ?find_set; auto.
    apply params_ok_set; auto. apply string_param_ok; auto. vm_compute; discriminate.
  - split; cbn [b_params b_op b_name b_shape]; rewrite ?find_set; auto.
    apply params_ok_set; auto. apply string_param_ok; auto. vm_compute; discriminate.
  - split; cbn [b_params b_op b_name b_shape]; rewrite ?find_set; auto.
    + rewrite str_eqb_refl. reflexivity.
    + apply params_ok_set; auto. apply ints_param_ok; [vm_compute; discriminate|]. apply H.
  - split; cbn [b_params b_op b_name b_shape]; rewrite ?find_set; auto.
    apply params_ok_set; auto. apply ints_param_ok; [vm_compute; discriminate|]. simpl; lia.
  - contradiction.
Qed.

Lemma set_param_length m k v : (length (set_param m k v) <= S (length m))%nat.
Proof. induction m as [|[k' v'] r IH]; simpl; [lia|]. destruct (str_eqb k k'); simpl; lia. Qed.
Lemma erase_param_length m k : (length (erase_param m k) <= length m)%nat.
Proof. induction m as [|[k' v'] r IH]; simpl; [lia|]. destruct (str_eqb k k'); simpl; lia. Qed.
Lemma filter_length {A} (f : A -> bool) l : (length (filter f l) <= length l)%nat.
Proof. induction l as [|x l IH]; simpl; [lia|]. destruct (f x); simpl; lia. Qed.

Lemma step_length b c : (length (b_params (bstep b c)) <= S (length (b_params b)))%nat.
Proof.
  destruct c; cbn [bstep b_params];
    try apply set_param_length.
  - pose proof (erase_param_length (b_params b) k). lia.
  - pose proof (filter_length (fun kv => is_retention (fst kv)) (b_params b)). lia.
  - lia.
Qed.

Lemma fold_consistent calls : forall b, consistent b -> Forall call_ok calls ->
  consistent (fold_left bstep calls b).
Proof.
  induction calls as [|c l IH]; intros b H F; simpl; auto.
  inversion F; subst. apply IH; auto. apply step_consistent; auto.
Qed.

Lemma fold_length calls : forall b,
  (length (b_params (fold_left bstep calls b)) <= length calls + length (b_params b))%nat.
Proof.
  induction calls as [|c l IH]; intros b; simpl; [lia|].
  specialize (IH (bstep b c)). pose proof (step_length b c). lia.
Qed.

Lemma ints_of_concat l : Forall (fun x => -2147483648 <= x <= int_max) l ->
  ints_of (length l) (concat (map w32 l)) = l.
Proof.
  unfold int_max. induction 1 as [|x l H1 H2 IH]; [reflexivity|].
  cbn [length map concat].
  change (w32 x ++ concat (map w32 l)) with
    (x mod 256 :: (x / 256) mod 256 :: (x / 65536) mod 256 :: (x / 16777216) mod 256 :: concat (map w32 l)).
  cbn [ints_of]. rewrite IH. f_equal.
  transitivity (to_int32 (x mod 4294967296)); [|now apply to_int32_id]. f_equal.
  clear. Z.to_euclidean_division_equations. lia.
Qed.

Lemma consistent_round_trip cast_other to_int b rest :
  consistent b -> Z.of_nat (length (b_params b)) < 4294967296 ->
  exists s, serialize_bubble b = Some s /\
            externalize_bubble cast_other to_int [] (s ++ rest) = ROk b rest.
Proof.
  intros [A B C D E F _] HL. destruct E as [E1 E2].
  destruct (read_params_ok (b_params b) (simple void_plain) [] rest) as (s & R1 & R2); auto.
  unfold serialize_bubble. rewrite R1. eexists; split; [reflexivity|].
  unfold externalize_bubble. rewrite <- app_assoc, read32 by reflexivity.
  rewrite le_value_w32 by lia. rewrite Nat2Z.id, R2. cbn [rbind app].
  rewrite A, B, D.
  assert (TS : forall v, to_string (tensor_of_string v) = Some v).
  { intro v. unfold to_string, tensor_of_string, simple. cbn [t_head p_dtype p_sizes p_data].
    change (negb (13 =? 13)) with false. rewrite Nat2Z.id, firstn_all. reflexivity. }
  rewrite !TS. destruct (find_param (b_params b) p_shape) as [t|].
  - subst t. unfold cast_int32, tensor_of_ints, simple. cbn [t_head p_dtype p_sizes p_data].
    change (5 =? 5) with true. destruct F as [F1 F2].
    assert (K : count [Z.of_nat (length (b_shape b))] = Some (Z.of_nat (length (b_shape b)))).
    { rewrite count_ok.
      - cbn [elements]. f_equal. lia.
      - repeat constructor; unfold int_max; lia.
      - intros [|[|k]]; cbn [firstn elements]; unfold int_max; lia. }
    rewrite K. rewrite Nat2Z.id, ints_of_concat by auto.
    destruct (Z.ltb_spec 7 (Z.of_nat (length (b_shape b)))); [lia|].
    destruct b; reflexivity.
  - rewrite <- C. destruct b; reflexivity.
Qed.

Lemma bubble_round_trip cast_other to_int op name shape calls rest :
  string_ok op -> string_ok name -> shape_ok shape -> Forall call_ok calls ->
  Z.of_nat (length calls) <= int_max ->
  let b := bbuild op name shape calls in
  exists s, serialize_bubble b = Some s /\
            externalize_bubble cast_other to_int [] (s ++ rest) = ROk b rest.
Proof.
  intros H1 H2 H3 H4 H5 b. apply consistent_round_trip.
  - apply fold_consistent; auto. now apply make_consistent.
  - pose proof (fold_length calls (make_bubble op name shape)).
    assert (length (b_params (make_bubble op name shape)) <= 3)%nat.
    { unfold make_bubble, retention. cbn [b_params b_op b_name b_shape].
      destruct shape; simpl; lia. }
    unfold int_max in H5. unfold b, bbuild. lia.
Qed.
