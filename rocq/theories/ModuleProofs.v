From Coq Require Import List ZArith Bool Lia Permutation.
From Verif Require Import StackModel GraphSpec GraphModel GraphProofs TensorModel SerialModel SerialSpec
  SerialProofs ModuleModel ModuleSpec.
Import ListNotations.

Lemma mem_In n l : mem n l = true <-> In n l.
Proof.
  unfold mem. rewrite existsb_exists. split.
  - intros (x & H1 & H2). apply Nat.eqb_eq in H2. now subst.
  - intros H. exists n. now rewrite Nat.eqb_refl.
Qed.
Lemma mem_notIn n l : mem n l = false <-> ~ In n l.
Proof. rewrite <- mem_In. destruct (mem n l); split; congruence. Qed.

(** ** graph_walker terminates *)
Definition pending (g : mgraph) (walked : list node) : nat :=
  sum (map (fun n => length (mg_ins g n)) (filter (fun n => negb (mem n walked)) (mg_nodes g))).

Lemma sum_filter_mono {A} (w : A -> nat) (p q : A -> bool) l :
  (forall x, p x = true -> q x = true) -> sum (map w (filter p l)) <= sum (map w (filter q l)).
Proof.
  intro H. induction l as [|x l IH]; cbn [filter]; [lia|].
  specialize (H x). destruct (p x).
  - rewrite H by reflexivity. cbn [map sum fold_right]. unfold sum in *. lia.
  - destruct (q x); cbn [map sum fold_right]; unfold sum in *; lia.
Qed.

Lemma pending_step g n walked : In n (mg_nodes g) -> mem n walked = false ->
  pending g (n :: walked) + length (mg_ins g n) <= pending g walked.
Proof.
  unfold pending. induction (mg_nodes g) as [|x l IH]; [intros []|].
  intros Hn Hw.
  assert (MONO : forall l', sum (map (fun k => length (mg_ins g k)) (filter (fun k => negb (mem k (n :: walked))) l'))
     <= sum (map (fun k => length (mg_ins g k)) (filter (fun k => negb (mem k walked)) l'))).
  { intro l'. apply sum_filter_mono. intros y. unfold mem. cbn [existsb].
    destruct (Nat.eqb y n); cbn [orb negb]; [discriminate|auto]. }
  destruct (Nat.eq_dec x n) as [->|Hne].
  - cbn [filter]. rewrite Hw. cbn [negb].
    assert (E : mem n (n :: walked) = true) by (apply mem_In; now left).
    rewrite E. cbn [negb map sum fold_right]. specialize (MONO l). unfold sum in *. lia.
  - destruct Hn as [Hn|Hn]; [congruence|]. specialize (IH Hn Hw).
    cbn [filter].
    assert (E : mem x (n :: walked) = mem x walked).
    { unfold mem. cbn [existsb]. destruct (Nat.eqb_spec x n); [congruence|reflexivity]. }
    rewrite E. destruct (mem x walked); cbn [negb map sum fold_right]; unfold sum in *; lia.
Qed.

Lemma walk_adequate : forall fuel g q walked inputs,
  length q + pending g walked <= fuel -> walk fuel g q walked inputs <> WFuel.
Proof.
  induction fuel as [|k IH]; intros g q walked inputs H; destruct q as [|n q]; cbn [walk]; try discriminate.
  - cbn [length] in H. lia.
  - cbn [length] in H.
    destruct (mem n walked) eqn:Ew; [apply IH; lia|].
    destruct (mem n (mg_nodes g)) eqn:En; cbn [negb]; [|discriminate].
    apply mem_In in En. pose proof (pending_step g n walked En Ew) as P.
    destruct (str_eqb _ op_param); [apply IH; lia|].
    destruct (str_eqb _ op_const); [apply IH; lia|].
    destruct (mg_ins g n) as [|i l] eqn:Ei; [discriminate|].
    apply IH. rewrite app_length. lia.
Qed.

Lemma pending_nil g : pending g [] = sum (map (fun n => length (mg_ins g n)) (mg_nodes g)).
Proof.
  unfold pending. assert (E : forall l, filter (fun n => negb (mem n [])) l = l).
  { induction l as [|x l IH]; [reflexivity|]. cbn [filter]. change (mem x []) with false. cbn [negb]. now rewrite IH. }
  now rewrite E.
Qed.

Lemma graph_walker_total g outputs : graph_walker g outputs <> WFuel.
Proof. apply walk_adequate. rewrite pending_nil. unfold walk_fuel. lia. Qed.

Lemma walk_more : forall fuel fuel' g q walked inputs,
  fuel <= fuel' -> walk fuel g q walked inputs <> WFuel ->
  walk fuel' g q walked inputs = walk fuel g q walked inputs.
Proof.
  induction fuel as [|k IH]; intros fuel' g q walked inputs H E; destruct q as [|n q]; cbn [walk] in *.
  - destruct fuel'; reflexivity.
  - congruence.
  - destruct fuel'; reflexivity.
  - destruct fuel' as [|k']; [lia|]. cbn [walk].
    destruct (mem n walked); [apply IH; auto; lia|].
    destruct (mem n (mg_nodes g)); cbn [negb] in *; [|reflexivity].
    destruct (str_eqb _ op_param); [apply IH; auto; lia|].
    destruct (str_eqb _ op_const); [apply IH; auto; lia|].
    destruct (mg_ins g n); [reflexivity|apply IH; auto; lia].
Qed.

(** ** renaming commutes with the walk *)
Section Rename.
Variables (g g' : mgraph) (f : node -> node) (L : list node).
Hypothesis f_inj : forall a b, In a L -> In b L -> f a = f b -> a = b.
Hypothesis closed : forall n i, In n L -> In i (mg_ins g n) -> In i L.
Hypothesis nodes' : forall n, In n L -> In (f n) (mg_nodes g').
Hypothesis bub' : forall n, In n L -> mg_bub g' (f n) = mg_bub g n.
Hypothesis ins' : forall n, In n L -> mg_ins g' (f n) = map f (mg_ins g n).

Lemma mem_map n l : In n L -> incl l L -> mem (f n) (map f l) = mem n l.
Proof.
  intros H1 H2. destruct (mem n l) eqn:E.
  - apply mem_In in E. apply mem_In. now apply in_map.
  - apply mem_notIn in E. apply mem_notIn. intro H. apply in_map_iff in H as (x & H3 & H4).
    apply f_inj in H3; auto. now subst.
Qed.

Lemma walk_renamed : forall fuel q walked inputs r,
  incl q L -> incl walked L -> walk fuel g q walked inputs = WOk r ->
  walk fuel g' (map f q) (map f walked) (map f inputs) = WOk (map f r).
Proof.
  induction fuel as [|k IH]; intros q walked inputs r Hq Hw E; destruct q as [|n q]; cbn [walk map] in *.
  - congruence.
  - discriminate.
  - congruence.
  - assert (Hn : In n L) by (apply Hq; now left).
    assert (Hq' : incl q L) by (intros x Hx; apply Hq; now right).
    rewrite mem_map by auto.
    destruct (mem n walked); [apply IH; auto|].
    destruct (mem n (mg_nodes g)) eqn:En; cbn [negb] in E; [|discriminate].
    assert (E' : mem (f n) (mg_nodes g') = true) by (apply mem_In; auto). rewrite E'. cbn [negb].
    rewrite bub' by auto.
    assert (Hw' : incl (n :: walked) L) by (intros x [<-|Hx]; auto).
    destruct (str_eqb _ op_param).
    { change (f n :: map f walked) with (map f (n :: walked)).
      change [f n] with (map f [n]). rewrite <- map_app. apply IH; auto. }
    destruct (str_eqb _ op_const).
    { change (f n :: map f walked) with (map f (n :: walked)). apply IH; auto. }
    rewrite ins' by auto. destruct (mg_ins g n) as [|i l] eqn:Ei; [discriminate|].
    cbn [map]. change (f i :: map f l) with (map f (i :: l)).
    change (f n :: map f walked) with (map f (n :: walked)). rewrite <- map_app. apply IH; auto.
    intros x Hx. apply in_app_or in Hx as [Hx|Hx]; auto. apply (closed n); auto. now rewrite Ei.
Qed.

Lemma graph_walker_renamed outputs r : incl outputs L ->
  graph_walker g outputs = WOk r -> graph_walker g' (map f outputs) = WOk (map f r).
Proof.
  intros H E. unfold graph_walker in *.
  set (F := Nat.max (walk_fuel g outputs) (walk_fuel g' (map f outputs))).
  assert (E1 : walk F g outputs [] [] = WOk r).
  { rewrite <- E. apply walk_more; [unfold F; lia|]. rewrite E. discriminate. }
  apply walk_renamed in E1; auto; [|intros ? []].
  rewrite <- E1. symmetry. cbn [map]. apply walk_more; [unfold F; lia|].
  apply graph_walker_total.
Qed.
End Rename.

(** ** positions *)
Lemma index_of_Some l n i : index_of l n = Some i -> nth_error l i = Some n.
Proof.
  revert i. induction l as [|x r IH]; simpl; intros i E; [discriminate|].
  destruct (Nat.eqb_spec n x) as [->|H].
  - injection E as <-. reflexivity.
  - destruct (index_of r n) as [j|]; [|discriminate]. injection E as <-. simpl. auto.
Qed.

Lemma index_of_In l n : In n l -> exists i, index_of l n = Some i.
Proof.
  induction l as [|x r IH]; simpl; [intros []|]. intros H.
  destruct (Nat.eqb_spec n x) as [->|Hne]; eauto.
  destruct H as [H|H]; [congruence|]. destruct (IH H) as [i ->]. eauto.
Qed.

Definition pos (l : list node) (n : node) : nat := match index_of l n with Some i => i | None => 0 end.

Lemma pos_nth l n : In n l -> nth_error l (pos l n) = Some n.
Proof. intro H. destruct (index_of_In _ _ H) as [i E]. unfold pos. rewrite E. now apply index_of_Some. Qed.

Lemma pos_lt l n : In n l -> pos l n < length l.
Proof. intro H. apply nth_error_Some. rewrite pos_nth by auto. discriminate. Qed.

Lemma pos_inj l a b : In a l -> In b l -> pos l a = pos l b -> a = b.
Proof. intros Ha Hb E. apply pos_nth in Ha. apply pos_nth in Hb. rewrite E in Ha. congruence. Qed.

Lemma indices_ok l ns : incl ns l -> indices l ns = Some (map (pos l) ns).
Proof.
  induction ns as [|n r IH]; intros H; cbn [indices map]; [reflexivity|].
  destruct (index_of_In l n) as [i E]; [apply H; now left|].
  rewrite E, IH by (intros x Hx; apply H; now right).
  unfold pos at 2. rewrite E. reflexivity.
Qed.

Lemma NoDup_pos l k n : NoDup l -> nth_error l k = Some n -> pos l n = k.
Proof.
  intros H E. assert (Hn : In n l) by (eapply nth_error_In; eauto).
  eapply NoDup_nth_error; eauto.
  - now apply pos_lt.
  - rewrite pos_nth by auto. congruence.
Qed.

(** ** lists of indices *)
Lemma value_or_0_w32 n : (0 <= n < 4294967296)%Z -> value_or_0 (map Some (w32 n)) = n.
Proof. intro H. unfold value_or_0. now rewrite le_value_w32. Qed.

Lemma read_u32s_ok l : forall rest,
  (forall i, In i l -> (Z.of_nat i < 4294967296)%Z) ->
  read_u32s (length l) (concat (map (fun i => w32 (Z.of_nat i)) l) ++ rest) = (map Z.of_nat l, rest).
Proof.
  induction l as [|i l IH]; intros rest H; cbn [length read_u32s map concat]; [reflexivity|].
  rewrite <- app_assoc, read32 by reflexivity.
  rewrite IH by (intros; apply H; now right).
  rewrite value_or_0_w32; [reflexivity|]. specialize (H i (or_introl eq_refl)). lia.
Qed.

Lemma read_list_ok l rest : (Z.of_nat (length l) < 4294967296)%Z ->
  (forall i, In i l -> (Z.of_nat i < 4294967296)%Z) ->
  read_list (write_list l ++ rest) = (map Z.of_nat l, rest).
Proof.
  intros H1 H2. unfold read_list, write_list. rewrite <- app_assoc, read32 by reflexivity.
  rewrite value_or_0_w32 by lia. rewrite Nat2Z.id. now apply read_u32s_ok.
Qed.

(** ** nodes *)
Section Nodes.
Variable cast_other : plain -> option (list Z).
Variable to_int : plain -> option Z.

Lemma built_ok b rest : built b ->
  exists s, serialize_bubble b = Some s /\ externalize_bubble cast_other to_int [] (s ++ rest) = ROk b rest.
Proof.
  intros (op & name & shape & calls & H1 & H2 & H3 & H4 & H5 & ->).
  now apply bubble_round_trip.
Qed.

Variable g : mgraph.
Variable L : list node.
Hypothesis Hbuilt : forall n, In n L -> built (mg_bub g n).
Hypothesis Hclosed : forall n, In n L -> incl (mg_ins g n) L.
Hypothesis Hlen : (Z.of_nat (length L) < 4294967296)%Z.
Hypothesis Hins : forall n, In n L -> (Z.of_nat (length (mg_ins g n)) < 4294967296)%Z.

Lemma pos_small n : In n L -> (Z.of_nat (pos L n) < 4294967296)%Z.
Proof. intro H. apply pos_lt in H. lia. Qed.

Lemma read_nodes_ok : forall l buf rest, incl l L -> length buf = 4 ->
  exists s, seq_opt (map (serialize_node g L) l) = Some s /\
    read_nodes cast_other to_int (length l) buf (s ++ rest)
    = ROk (map (fun n => (mg_bub g n, map Z.of_nat (map (pos L) (mg_ins g n)))) l) rest.
Proof.
  induction l as [|n l IH]; intros buf rest H HB; cbn [map seq_opt length read_nodes].
  - exists []. auto.
  - assert (Hn : In n L) by (apply H; now left).
    destruct (IH (map Some (w32 (Z.of_nat (length (map (pos L) (mg_ins g n)))))) rest) as (r & E1 & E2).
    { intros x Hx; apply H; now right. }
    { reflexivity. }
    unfold serialize_node at 1. rewrite indices_ok by auto.
    destruct (built_ok (mg_bub g n) (write_list (map (pos L) (mg_ins g n)) ++ r ++ rest) (Hbuilt n Hn))
      as (sb & E3 & E4).
    rewrite E3, E1. eexists; split; [reflexivity|].
    rewrite <- !app_assoc. rewrite E4. cbn [rbind].
    unfold write_list at 1. rewrite <- app_assoc, read32 by auto.
    rewrite value_or_0_w32 by (rewrite map_length; specialize (Hins n Hn); lia).
    rewrite Nat2Z.id. rewrite read_u32s_ok.
    + rewrite E2. reflexivity.
    + intros i Hi. apply in_map_iff in Hi as (x & <- & Hx). apply pos_small. now apply (Hclosed n Hn).
Qed.

Definition table : list (bubble * list Z) :=
  map (fun n => (mg_bub g n, map Z.of_nat (map (pos L) (mg_ins g n)))) L.

Lemma table_in_range l : incl l L -> forallb (in_table (length table)) (map Z.of_nat (map (pos L) l)) = true.
Proof.
  intros H. apply forallb_forall. intros i Hi.
  apply in_map_iff in Hi as (x & <- & Hx). apply in_map_iff in Hx as (y & <- & Hy).
  unfold in_table, table. rewrite map_length. pose proof (pos_lt L y (H y Hy)).
  apply andb_true_intro; split; [apply Z.leb_le; lia | apply Z.ltb_lt; lia].
Qed.

Lemma link_table : exists g', link_nodes table = Some g' /\
  mg_nodes g' = seq 0 (length L) /\
  (forall n, In n L -> mg_bub g' (pos L n) = mg_bub g n) /\
  (forall n, In n L -> mg_ins g' (pos L n) = map (pos L) (mg_ins g n)).
Proof.
  unfold link_nodes.
  assert (E : forallb (fun p => forallb (in_table (length table)) (snd p)) table = true).
  { apply forallb_forall. intros p Hp. unfold table in Hp.
    apply in_map_iff in Hp as (n & <- & Hn). cbn [snd]. apply table_in_range. auto. }
  rewrite E. eexists; split; [reflexivity|]. cbn [mg_nodes mg_bub mg_ins].
  assert (NTH : forall n, In n L -> nth (pos L n) table (empty_bubble, [])
     = (mg_bub g n, map Z.of_nat (map (pos L) (mg_ins g n)))).
  { intros n Hn. apply nth_error_nth. unfold table.
    apply (map_nth_error (fun n => (mg_bub g n, map Z.of_nat (map (pos L) (mg_ins g n))))). now apply pos_nth. }
  split; [|split].
  - unfold table. now rewrite map_length.
  - intros n Hn. now rewrite NTH.
  - intros n Hn. rewrite NTH by auto. cbn [snd]. rewrite map_map.
    rewrite <- (map_id (map (pos L) (mg_ins g n))) at 2. apply map_ext. intro. now rewrite Nat2Z.id.
Qed.
End Nodes.

(** ** the saved node list *)
Lemma add_inputs_In inputs : forall nodes n,
  In n (add_inputs inputs nodes) <-> In n nodes \/ In n inputs.
Proof.
  induction inputs as [|i r IH]; intros nodes n; cbn [add_inputs]; [simpl; tauto|].
  rewrite IH. destruct (mem i nodes) eqn:E.
  - apply mem_In in E. simpl. split; [tauto|]. intros [H|[<-|H]]; auto.
  - rewrite in_app_iff. simpl. tauto.
Qed.

Lemma NoDup_snoc {A} (l : list A) x : NoDup l -> ~ In x l -> NoDup (l ++ [x]).
Proof.
  intros H N. apply (Permutation_NoDup (l := x :: l)).
  - apply Permutation_cons_append.
  - constructor; auto.
Qed.

Lemma add_inputs_NoDup inputs : forall nodes, NoDup nodes -> NoDup (add_inputs inputs nodes).
Proof.
  induction inputs as [|i r IH]; intros nodes H; cbn [add_inputs]; auto. apply IH.
  destruct (mem i nodes) eqn:E; auto. apply mem_notIn in E. now apply NoDup_snoc.
Qed.

Lemma reach_reachable g a b : reach (shape_graph g) a b <-> reachable g a b.
Proof.
  split; induction 1; try constructor.
  - eapply reachable_step; eauto.
  - eapply reach_step; eauto.
Qed.

Lemma reachable_trans g a b c : reachable g a b -> reachable g b c -> reachable g a c.
Proof. induction 1; intros; auto. eapply reachable_step; eauto. Qed.

(** ** round trip *)
Section RoundTrip.
Variable cast_other : plain -> option (list Z).
Variable to_int : plain -> option Z.
Variable m : module.
Hypothesis H_acyclic : acyclic_graph (m_graph m).
Hypothesis H_built : forall n, part_of m n -> built (mg_bub (m_graph m) n).
Hypothesis H_inputs : forall i, In i (m_inputs m) -> mg_ins (m_graph m) i = [].
Hypothesis H_fan : forall n, part_of m n -> (Z.of_nat (length (mg_ins (m_graph m) n)) < 4294967296)%Z.
Hypothesis H_nin : (Z.of_nat (length (m_inputs m)) < 4294967296)%Z.
Hypothesis H_nout : (Z.of_nat (length (m_outputs m)) < 4294967296)%Z.
Hypothesis H_count : forall l, NoDup l -> (forall n, In n l -> part_of m n) -> (Z.of_nat (length l) < 4294967296)%Z.
Variable params : list node.
Hypothesis H_walk : graph_walker (m_graph m) (m_outputs m) = WOk params.
Hypothesis H_cover : forall p, In p params -> In p (m_inputs m).

Lemma part_of_in n i : part_of m n -> In i (mg_ins (m_graph m) n) -> part_of m i.
Proof.
  intros [H|(o & H1 & H2)] Hi.
  - rewrite H_inputs in Hi by auto. contradiction.
  - right. exists o. split; auto. eapply reachable_trans; eauto. eapply reachable_step; eauto. constructor.
Qed.

Lemma save_nodes fuel sched :
  list_reference_nodes fuel (shape_graph (m_graph m)) (m_outputs m) = Some sched ->
  let L := add_inputs (m_inputs m) (map fst sched) in
  NoDup L /\ (forall n, In n L <-> part_of m n).
Proof.
  intros E L. apply list_reference_nodes_ok in E as [S1 S2 S3]. split.
  - now apply add_inputs_NoDup.
  - intro n. unfold L. rewrite add_inputs_In, S1. unfold part_of.
    split.
    + intros [(o & H1 & H2)|H]; [right|now left]. exists o. split; auto. now apply reach_reachable.
    + intros [H|(o & H1 & H2)]; [now right|left]. exists o. split; auto. now apply reach_reachable.
Qed.

Lemma save_terminates : exists N, forall fuel, N <= fuel ->
  exists sched, list_reference_nodes fuel (shape_graph (m_graph m)) (m_outputs m) = Some sched.
Proof.
  destruct H_acyclic as [rank HR].
  exists (Ws (shape_graph (m_graph m)) rank (m_outputs m)).
  intros fuel Hf. exact (list_reference_nodes_terminates (shape_graph (m_graph m)) rank (m_outputs m) fuel HR Hf).
Qed.

Lemma header_read rest :
  read_into (zeros 4) (header_bytes ++ rest) = (map Some (w32 0), w32 module_code ++ repeat 0%Z 120 ++ rest).
Proof. unfold header_bytes. rewrite <- !app_assoc. apply read32. reflexivity. Qed.

Lemma module_round_trip : exists N, forall fuel, N <= fuel -> forall rest,
  exists bytes f m', save fuel m = Some bytes /\
    load_file cast_other to_int (bytes ++ rest) = ROk m' rest /\ renamed f m m'.
Proof.
  destruct save_terminates as [N HN]. exists N. intros fuel Hf rest.
  destruct (HN fuel Hf) as [sched Es]. destruct (save_nodes fuel sched Es) as [L1 L2].
  unfold save. rewrite Es. set (L := add_inputs (m_inputs m) (map fst sched)) in *. clearbody L.
  set (g := m_graph m) in *.
  assert (Hi : incl (m_inputs m) L) by (intros x Hx; apply L2; now left).
  assert (Ho : incl (m_outputs m) L).
  { intros x Hx. apply L2. right. exists x. split; auto. constructor. }
  assert (Hclosed : forall n, In n L -> incl (mg_ins g n) L).
  { intros n Hn i Hx. apply L2. apply L2 in Hn. eapply part_of_in; eauto. }
  assert (Hlen : (Z.of_nat (length L) < 4294967296)%Z) by (apply H_count; [auto|intros n Hn; now apply L2]).
  assert (Hb : forall n, In n L -> built (mg_bub g n)) by (intros n Hn; apply H_built; now apply L2).
  assert (Hfan : forall n, In n L -> (Z.of_nat (length (mg_ins g n)) < 4294967296)%Z)
    by (intros n Hn; apply H_fan; now apply L2).
  rewrite !indices_ok by auto. unfold serialize_nodes.
  destruct (read_nodes_ok cast_other to_int g L Hb Hclosed Hlen Hfan L (zeros 4) rest) as (body & E1 & E2);
    [apply incl_refl|reflexivity|].
  rewrite E1.
  destruct (link_table g L Hclosed) as (g' & G1 & G2 & G3 & G4).
  pose (m' := mkModule g' (map (pos L) (m_inputs m)) (map (pos L) (m_outputs m))).
  exists (header_bytes ++ write_list (map (pos L) (m_inputs m)) ++
          write_list (map (pos L) (m_outputs m)) ++ w32 (Z.of_nat (length L)) ++ body), (pos L), m'.
  split; [reflexivity|]. split.
  - unfold load_file. rewrite <- !app_assoc. rewrite header_read.
    rewrite read32 by reflexivity. rewrite (read_into_full (zeros 120)) by reflexivity.
    rewrite value_or_0_w32 by (unfold module_code; lia). rewrite Z.eqb_refl. cbn [negb].
    rewrite read_list_ok; [|now rewrite map_length|
      intros i Hx; apply in_map_iff in Hx as (x & <- & Hx); apply pos_small; auto].
    rewrite read_list_ok; [|now rewrite map_length|
      intros i Hx; apply in_map_iff in Hx as (x & <- & Hx); apply pos_small; auto].
    rewrite read32 by reflexivity. rewrite value_or_0_w32 by lia. rewrite Nat2Z.id.
    rewrite E2. cbn [rbind]. change (map (fun n => (mg_bub g n, map Z.of_nat (map (pos L) (mg_ins g n)))) L)
      with (table g L). rewrite G1.
    rewrite !table_in_range by auto. cbn [andb].
    assert (ID : forall l, map Z.to_nat (map Z.of_nat l) = l).
    { intro l. rewrite map_map. rewrite <- (map_id l) at 2. apply map_ext. intro. apply Nat2Z.id. }
    rewrite !ID. unfold module_load.
    rewrite (graph_walker_renamed g g' (pos L) L) with (r := params); auto.
    + unfold sort_nodes. cbn [m_inputs m_graph m_outputs].
      assert (F : forallb (fun n => mem n (map (pos L) (m_inputs m))) (map (pos L) params) = true).
      { apply forallb_forall. intros x Hx. apply mem_In. apply in_map_iff in Hx as (y & <- & Hy).
        apply in_map. now apply H_cover. }
      unfold node in *. rewrite F. reflexivity.
    + intros a b. apply pos_inj.
    + intros n i Hn Hx. eapply Hclosed; eauto.
    + intros n Hn. rewrite G2. apply in_seq. pose proof (pos_lt L n Hn). lia.
  - split; unfold m'; cbn [m_graph m_inputs m_outputs]; auto.
    + intros a b Ha Hb'. apply pos_inj; now apply L2.
    + intro k. rewrite G2, in_seq. split.
      * intros [_ Hk]. destruct (nth_error L k) as [n|] eqn:En.
        -- exists n. split; [apply L2; eapply nth_error_In; eauto|]. symmetry. now apply NoDup_pos.
        -- apply nth_error_None in En. lia.
      * intros (n & Hn & ->). apply L2 in Hn. apply pos_lt in Hn. lia.
    + intros n Hn. apply G3. now apply L2.
    + intros n Hn. apply G4. now apply L2.
Qed.
End RoundTrip.
