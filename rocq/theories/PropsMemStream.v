(** C171: streams in memory. *)
From Coq Require Import List Arith Bool Lia ZArith.
From Verif Require Import MemStreamModel MemStreamSpec.
Import ListNotations.

Section Streams.
Context {B : Type}.

Lemma drop_drop (l : list B) a b : skipn a (skipn b l) = skipn (b + a) l.
Proof. revert l. induction b as [|b IH]; intros l; [reflexivity|]. destruct l as [|x l]; [now rewrite skipn_nil, !skipn_nil|]. cbn [Nat.add skipn]. apply IH. Qed.

(** As long as no read asks for more than has been written and not yet read, a
    stream answers as a queue, for every interleaving of reads and writes; its
    string is all that was written. *)
Lemma queue_inv (ops : list (op B)) : forall (buf : list B) g, g <= length buf -> never_short (skipn g buf) ops ->
  let r := run both (Stream buf g (length buf) false) ops in
  snd r = queue (skipn g buf) ops /\ s_buf (fst r) = buf ++ written ops /\ s_fail (fst r) = false.
Proof.
  induction ops as [|o ops IH]; intros buf g Hg N; cbv zeta.
  - cbn. rewrite app_nil_r. auto.
  - destruct o as [n|l|b|]; cbn [never_short] in N; try contradiction.
    + destruct N as [N1 N2]. cbn [run both]. unfold std_read. cbn [s_fail s_get s_buf s_put].
      rewrite firstn_length_le by exact N1. rewrite Nat.eqb_refl. cbn [negb].
      rewrite drop_drop in N2. rewrite skipn_length in N1. specialize (IH buf (g + n) ltac:(lia) N2). cbv zeta in IH.
      destruct (run both (Stream buf (g + n) (length buf) false) ops) as [s2 rs]. cbn [fst snd queue] in *. rewrite drop_drop. destruct IH as (-> & -> & ->). auto.
    + cbn [run both]. unfold std_write. cbn [s_fail s_get s_buf s_put].
      rewrite firstn_all, (skipn_all2 buf), app_nil_r by lia. rewrite <- app_length.
      assert (Es : skipn g (buf ++ l) = skipn g buf ++ l) by (rewrite skipn_app; replace (g - length buf) with 0 by lia; reflexivity).
      rewrite <- Es in N. specialize (IH (buf ++ l) g ltac:(rewrite app_length; lia) N). cbv zeta in IH.
      destruct (run both (Stream (buf ++ l) g (length (buf ++ l)) false) ops) as [s2 rs]. cbn [fst snd queue] in *. rewrite Es in IH. destruct IH as (-> & -> & ->).
      split; [reflexivity|]. split; [|reflexivity]. unfold written. cbn [map concat]. now rewrite app_assoc.
Qed.
Theorem C171_queue_partial (ops : list (op B)) : never_short [] ops ->
  snd (run both (make []) ops) = queue [] ops /\ s_buf (fst (run both (make []) ops)) = written ops.
Proof. intros N. destruct (queue_inv ops [] 0 (le_n 0) N) as (H1 & H2 & _). auto. Qed.

(** A stream that only reads gives its string back however it is cut into reads;
    past its end there is nothing more. *)
Definition only_reads (ops : list (op B)) : Prop := Forall (fun o => exists n, o = Read n) ops.
Lemma reader_inv ops : only_reads ops -> forall (buf : list B) g p f, g <= length buf -> (f = true -> g = length buf) ->
  snd (run reader (Stream buf g p f) ops) = queue (skipn g buf) ops.
Proof.
  induction 1 as [|o ops (n & ->) _ IH]; intros buf g p f Hg Hf; [reflexivity|]. cbn [run]. unfold reader at 1. cbn [both]. unfold std_read. cbn [s_fail s_get s_buf s_put queue].
  destruct f.
  - rewrite (Hf eq_refl). specialize (IH buf (length buf) p true (le_n _) (fun _ => eq_refl)). destruct (run reader _ ops) as [s2 rs]. cbn [snd] in *. rewrite IH, skipn_all, firstn_nil, skipn_nil. reflexivity.
  - set (m := length (firstn n (skipn g buf))). assert (Em : m = Nat.min n (length buf - g)) by (unfold m; now rewrite firstn_length, skipn_length).
    assert (Es : skipn n (skipn g buf) = skipn (g + m) buf).
    { rewrite drop_drop. destruct (Nat.le_gt_cases n (length buf - g)); [now replace m with n by lia|]. now rewrite !skipn_all2 by lia. }
    assert (IH' : snd (run reader (Stream buf (g + m) p (negb (m =? n))) ops) = queue (skipn (g + m) buf) ops).
    { apply IH; [lia|]. intros E. apply negb_true_iff, Nat.eqb_neq in E. lia. }
    clear IH. destruct (run reader _ ops) as [s2 rs]. cbn [snd] in *. now rewrite IH', Es.
Qed.
Theorem C171_reader (buffer : list B) ops : only_reads ops -> snd (run reader (make buffer) ops) = queue buffer ops.
Proof. intros H. apply (reader_inv ops H buffer 0 0 false); [lia|discriminate]. Qed.
Theorem C171_reader_all (buffer : list B) ops : only_reads ops ->
  got (snd (run reader (make buffer) ops)) = firstn (list_sum (map (fun o => match o with Read n => n | _ => 0 end) ops)) buffer.
Proof.
  intros H. rewrite C171_reader by exact H. revert buffer. induction H as [|o ops (n & ->) _ IH]; intros buffer; [reflexivity|].
  cbn [queue map list_sum fold_right]. unfold got in *. cbn [map concat]. rewrite IH. fold (list_sum (map (fun o : op B => match o with Read n0 => n0 | _ => 0 end) ops)). set (k := list_sum _). clearbody k. clear.
  revert buffer. induction n as [|n IH]; intros [|b buffer]; cbn [firstn skipn app Nat.add]; try reflexivity.
  - now rewrite firstn_nil.
  - f_equal. apply IH.
Qed.

(** A stream that only writes holds what was written since it was last emptied. *)
Fixpoint held (acc : list B) (ops : list (op B)) : list B :=
  match ops with
  | [] => acc
  | Write l :: ops' => held (acc ++ l) ops'
  | Clear :: ops' => held [] ops'
  | _ :: ops' => held acc ops'
  end.
Theorem C171_writer_partial ops : Forall (fun o => (exists l, o = Write l) \/ o = Clear) ops ->
  forall rs s, run writer (make []) ops = (s, rs) -> s_buf s = held [] ops /\ Forall2 (fun o r => forall l, o = Write l -> r = Wrote (length l)) ops rs.
Proof.
  assert (G : Forall (fun o => (exists l, o = Write l) \/ o = Clear) ops -> forall (acc : list B) g, s_buf (fst (run writer (Stream acc g (length acc) false) ops)) = held acc ops /\
    Forall2 (fun o r => forall l, o = Write l -> r = Wrote (length l)) ops (snd (run writer (Stream acc g (length acc) false) ops))).
  { induction 1 as [|o ops H _ IH]; intros acc g; [split; [reflexivity|constructor]|]. destruct H as [(l & ->)| ->].
    - cbn [run writer both held]. unfold std_write. cbn [s_fail s_get s_buf s_put]. rewrite firstn_all, (skipn_all2 acc), app_nil_r by lia. rewrite <- app_length.
      specialize (IH (acc ++ l) g). destruct (run writer _ ops) as [s2 rs2]. cbn [fst snd] in *. destruct IH as [I1 I2]. split; [exact I1|]. constructor; [|exact I2]. intros l' E. injection E as <-. reflexivity.
    - cbn [run writer both held]. unfold std_str. cbn [s_fail]. specialize (IH [] 0). cbn [length] in IH. destruct (run writer _ ops) as [s2 rs2]. cbn [fst snd] in *. destruct IH as [I1 I2]. split; [exact I1|]. constructor; [|exact I2]. intros l' E. discriminate. }
  intros F rs s E. specialize (G F [] 0). unfold make in E. cbn [length] in G. rewrite E in G. exact G.
Qed.

(** After one read that found too little the stream is dead: whatever follows, it
    reports every write as complete, and no read ever gives a byte again, not even
    after clear() or str(buffer). *)
Theorem C171_dead_refuted (s : stream B) n ops : s_fail s = false -> length (s_buf s) - s_get s < n ->
  let r := run both (fst (both s (Read n))) ops in
  got (snd r) = [] /\ Forall2 (fun o a => forall l, o = Write l -> a = Wrote (length l)) ops (snd r) /\
  (forall l, Forall (fun o => o = Write l) ops -> s_buf (fst r) = s_buf s).
Proof.
  intros F H. cbv zeta. assert (D : s_fail (fst (both s (Read n))) = true /\ s_buf (fst (both s (Read n))) = s_buf s).
  { cbn [both]. unfold std_read. rewrite F. cbn [fst s_fail s_buf]. split; [|reflexivity]. apply negb_true_iff, Nat.eqb_neq. rewrite firstn_length, skipn_length. lia. }
  destruct D as [D1 D2]. rewrite <- D2. clear D2. revert D1. generalize (fst (both s (Read n))). clear s F H n. intros s Ds. revert s Ds. induction ops as [|o ops IH]; intros s Ds.
  - cbn. split; [reflexivity|]. split; [constructor|]. reflexivity.
  - cbn [run]. assert (D : s_fail (fst (both s o)) = true /\ (forall l, snd (both s o) = Got l -> l = []) /\ (forall l, o = Write l -> snd (both s o) = Wrote (length l) /\ s_buf (fst (both s o)) = s_buf s)).
    { destruct o as [n|l|b|]; cbn [both]; unfold std_read, std_write, std_str; rewrite ?Ds; cbn [fst snd s_fail s_buf]; (split; [try exact Ds; reflexivity|]); split; intros l' E; try discriminate; injection E as <-; auto. }
    destruct D as (D1 & D3 & D4). destruct (both s o) as [s1 a]. cbn [fst snd] in *. specialize (IH s1 D1). destruct (run both s1 ops) as [s2 rs]. cbn [fst snd] in *.
    destruct IH as (I1 & I2 & I3). split; [|split].
    + unfold got in *. cbn [map concat]. rewrite I1, app_nil_r. destruct a; try reflexivity. now apply D3.
    + constructor; [|exact I2]. intros l E. now apply D4.
    + intros l Fo. inversion Fo as [|? ? E Fo']; subst. rewrite (I3 l Fo'). now apply (D4 l).
Qed.
(** Setting the string of a writing stream does nothing. *)
Theorem C171_writer_str_refuted (s : stream B) b : writer s (SetStr b) = (s, Done).
Proof. reflexivity. Qed.
(** What is written to a stream made with a string goes over the string, not after it. *)
Theorem C171_overwrite_refuted (buffer l : list B) : s_buf (fst (both (make buffer) (Write l))) = l ++ skipn (length l) buffer.
Proof. reflexivity. Qed.
End Streams.
Print Assumptions C171_queue_partial.
Print Assumptions C171_reader.
Print Assumptions C171_reader_all.
Print Assumptions C171_writer_partial.
Print Assumptions C171_dead_refuted.
Print Assumptions C171_writer_str_refuted.
Print Assumptions C171_overwrite_refuted.

Example C171_example :
  never_short ([] : list nat) [Write [1; 2; 3]; Read 2; Write [4]; Read 2] /\
  snd (run both (make []) [Write [1; 2; 3]; Read 2; Write [4]; Read 2]) = [Wrote 3; Got [1; 2]; Wrote 1; Got [3; 4]] /\
  snd (run both (make []) [Write [1; 2; 3]; Read 4; Write [4]; Read 1; SetStr [7; 8]; Read 1]) = [Wrote 3; Got [1; 2; 3]; Wrote 1; Got []; Done; Got []] /\
  snd (run reader (make [1; 2; 3]) [Read 2; Read 2; Read 1]) = [Got [1; 2]; Got [3]; Got []] /\
  s_buf (fst (run writer (make []) [Write [1; 2]; Clear; Write [3]; Write [4]])) = [3; 4].
Proof. repeat match goal with |- _ /\ _ => split end; try reflexivity; cbn; lia. Qed.
