(** C121, C122: image filters. *)
From Coq Require Import ZArith List Bool String Lia.
From Verif Require Import FilterModel FilterSpec FilterProofs.
Import ListNotations.
Open Scope Z_scope.

Section Props.
Context {F V : Type}.
Variable recip : F -> F.
Variable sizes : V -> list Z.
Variable reshape : V -> list Z -> option V.
Variable constant : ctensor F -> V.
Variable layer : string -> list (string * ctensor F) -> list V -> option V.

Let after := after recip sizes reshape constant layer.
Let react := react recip sizes reshape constant layer.
Let run := run sizes reshape constant layer.
Let pipeline := pipeline recip sizes reshape constant layer.

(** C121.  Whatever was called before - steps added, clears, compilations and
    runs, failed or not - running the filter applies exactly the steps added
    since the last clear, in order, to the image seen with four axes; when the
    program cannot be compiled now the run throws and returns nothing else. *)
Theorem image_filter_runs_added_steps : forall h image ok,
  (ok = true -> snd (run (after h) image ok) = pipeline (added h) image) /\
  (snd (run (after h) image ok) = None \/
   snd (run (after h) image ok) = pipeline (added h) image).
Proof.
  intros h image ok.
  pose proof (good_after recip sizes reshape constant layer h) as G.
  pose proof (run_good recip sizes reshape constant layer _ _ image ok G) as R.
  destruct (good_compile recip constant layer _ _ ok G) as (_ & _ & K).
  change (snd (run (after h) image ok) =
          if snd (compile (after h) ok) then pipeline (added h) image else None) in R.
  change (ok = true -> snd (compile (after h) ok) = true) in K.
  split.
  - intros O. rewrite R, (K O). reflexivity.
  - rewrite R. destruct (snd (compile (after h) ok)); [right|left]; reflexivity.
Qed.

(** The view of the image has four axes and the same number of elements; a
    rank-3 image is one image [height, width, channels] of a batch. *)
Theorem image_filter_view : forall shape, shape <> [] ->
  List.length (four_axes shape) = 4%nat /\
  fold_right Z.mul 1 (four_axes shape) = fold_right Z.mul 1 shape.
Proof.
  intros sh N. destruct sh as [|a [|b [|c [|d r]]]]; try congruence;
  (split; [reflexivity|]); cbn [four_axes List.length app firstn skipn fold_right]; lia.
Qed.

(** C122.  What a client expects of a clone: it exists, and whatever is called on
    it next, running it applies the steps of the original and those added to the
    clone since. *)
Definition clone_keeps_steps (h : list (@event F V)) : Prop :=
  exists s', clone (after h) = Some s' /\
  forall h2 image, snd (run (fold_left react h2 s') image true) =
                   pipeline (added_from (added h) h2) image.

Definition quiet (e : @event F V) : Prop :=
  match e with Compile _ | Run _ _ => True | _ => False end.

(** Proved part: the clone of a filter that has steps and was run or compiled
    after its last step gives the same results as the original, however often it
    is run, and after a clear it is an ordinary filter. *)
Theorem image_filter_clone_partial : forall h e,
  (exists image, e = Run image true) \/ e = Compile true ->
  added h <> [] ->
  exists s', clone (after (h ++ [e])) = Some s' /\
  (forall h2 image ok, Forall quiet h2 ->
     snd (run (fold_left react h2 s') image ok) = pipeline (added h) image) /\
  (forall h2 h3 image, Forall quiet h2 ->
     snd (run (fold_left react (h2 ++ Clear :: h3) s') image true) =
     pipeline (added h3) image).
Proof.
  intros h e E N.
  assert (St : after (h ++ [e]) = fst (compile (after h) true)).
  { unfold after, FilterModel.after. rewrite fold_left_app. cbn [fold_left].
    destruct E as [[im Hi]|Hi]; subst e; [|reflexivity].
    cbn [FilterModel.react]. apply run_state. }
  pose proof (good_after recip sizes reshape constant layer h) as G.
  destruct (good_compile recip constant layer _ _ true G) as (_ & P & K).
  change (snd (compile (after h) true) = true ->
          the_program (fst (compile (after h) true)) = program_of recip (added h)) in P.
  change (true = true -> snd (compile (after h) true) = true) in K.
  specialize (P (K eq_refl)). rewrite St. unfold clone. rewrite P.
  destruct (program_of recip (added h)) as [p|] eqn:PO.
  2:{ destruct (added h); [congruence|discriminate]. }
  eexists; split; [reflexivity|].
  set (s' := State (the_graph (@clear F)) (Some p) true).
  assert (Q : forall h2, Forall quiet h2 -> fold_left react h2 s' = s').
  { induction h2 as [|x r IH]; intros H; [reflexivity|].
    inversion H as [|? ? Hx Hr]; subst. cbn [fold_left].
    replace (react s' x) with s'; [apply IH; exact Hr|].
    destruct x as [c| |ok|im ok]; try contradiction; [reflexivity|].
    symmetry. unfold react. cbn [FilterModel.react]. rewrite run_state. reflexivity. }
  split.
  - intros h2 image ok H. rewrite (Q h2 H).
    apply run_program; [reflexivity|exact (eq_sym PO)].
  - intros h2 h3 image H. rewrite fold_left_app, (Q h2 H). cbn [fold_left].
    exact (proj1 (image_filter_runs_added_steps h3 image true) eq_refl).
Qed.

End Props.

(** A concrete interpretation: an image is its shape and a list of numbers, a
    layer multiplies by, or subtracts, a constant. *)
Definition cst (t : ctensor Z) : list Z * list Z :=
  match t with FloatT s d => (s, d) | IntT s d => (s, d) end.
Definition lay (name : string) (_ : list (string * ctensor Z))
  (args : list (list Z * list Z)) : option (list Z * list Z) :=
  match args with
  | [x] => Some x
  | [x; (_, [c])] =>
      if String.eqb name "mul" then Some (fst x, map (Z.mul c) (snd x))
      else if String.eqb name "sub" then Some (fst x, map (fun v => v - c) (snd x))
      else None
  | _ => None
  end.
Definition resh (x : list Z * list Z) (s : list Z) : option (list Z * list Z) :=
  if fold_right Z.mul 1 s =? fold_right Z.mul 1 (fst x) then Some (s, snd x) else None.

Notation Run' := (run fst resh cst lay).
Notation After := (after (fun x : Z => - x) fst resh cst lay).
Notation img := ([1; 2; 1], [5; 6]).

(** A run, a step added after it, a failed run, another step, a run: the three
    steps (v * 2 - 3) * 10 are applied. *)
Definition busy : list (@event Z (list Z * list Z)) :=
  [Add ToFloat; Clear; Add (Scale 2); Run img true; Add (SubMean [3]); Run img false;
   Compile true; Add (Scale 10)].
Example busy_added : added busy = [Scale 2; SubMean [3]; Scale 10].
Proof. reflexivity. Qed.
Example busy_run : snd (Run' (After busy) img true) = Some ([1; 1; 2; 1], [70; 90]).
Proof. vm_compute. reflexivity. Qed.
Example busy_fails : snd (Run' (After busy) img false) = None.
Proof. vm_compute. reflexivity. Qed.
Example empty_run : snd (Run' (After [Compile true]) img true) = Some img.
Proof. vm_compute. reflexivity. Qed.

(** Cloning a filter that was never compiled, or has no step, dereferences a null
    program. *)
Theorem image_filter_clone_refuted_null :
  clone (After []) = None /\ clone (After [Add (Scale 2)]) = None /\
  clone (After [Run img true]) = None.
Proof. vm_compute. repeat split. Qed.

(** A step added after the last run is lost in the clone. *)
Theorem image_filter_clone_refuted_stale :
  let h := [Add (Scale 2); Run img true; Add (SubMean [3])] in
  exists s', clone (After h) = Some s' /\
  snd (Run' s' img true) = Some ([1; 1; 2; 1], [10; 12]) /\
  snd (Run' (After h) img true) = Some ([1; 1; 2; 1], [7; 9]).
Proof.
  exists (State [PParam] (Some (Program [PParam; PConst (FloatT [1] [2]); POp "mul" [] [0%nat; 1%nat]] [2%nat])) true).
  vm_compute. repeat split.
Qed.

(** A step added to the clone replaces all the steps of the original. *)
Theorem image_filter_clone_refuted_append :
  let h := [Add (Scale 2); Run img true] in
  exists s', clone (After h) = Some s' /\
  snd (Run' (fold_left (react (fun x : Z => - x) fst resh cst lay) [Add (SubMean [3])] s') img true)
    = Some ([1; 1; 2; 1], [2; 3]) /\
  snd (Run' (After (h ++ [Add (SubMean [3])])) img true) = Some ([1; 1; 2; 1], [7; 9]).
Proof.
  exists (State [PParam] (Some (Program [PParam; PConst (FloatT [1] [2]); POp "mul" [] [0%nat; 1%nat]] [2%nat])) true).
  vm_compute. repeat split.
Qed.

(** So the full statement fails. *)
Theorem image_filter_clone_refuted :
  ~ (forall h : list (@event Z (list Z * list Z)),
       added h <> [] -> clone_keeps_steps (fun x : Z => - x) fst resh cst lay h).
Proof.
  intros H. destruct (H [Add (Scale 2)]) as (s' & C & _); [discriminate|].
  vm_compute in C. discriminate C.
Qed.

(** The hypotheses of the proved part are met. *)
Example clone_applies :
  exists s', clone (After ([Add (Scale 2); Add ToFloat] ++ [Run img true])) = Some s' /\
  snd (Run' s' img false) = Some ([1; 1; 2; 1], [10; 12]).
Proof.
  destruct (image_filter_clone_partial (fun x : Z => - x) fst resh cst lay
              [Add (Scale 2); Add ToFloat] (Run img true)) as (s' & C & R & _).
  - left. eexists. reflexivity.
  - discriminate.
  - exists s'. split; [exact C|].
    refine (eq_trans (R [] img false (Forall_nil _)) _).
    vm_compute. reflexivity.
Qed.

Print Assumptions image_filter_runs_added_steps.
Print Assumptions image_filter_view.
Print Assumptions image_filter_clone_partial.
Print Assumptions image_filter_clone_refuted.
Print Assumptions image_filter_clone_refuted_null.
Print Assumptions image_filter_clone_refuted_stale.
Print Assumptions image_filter_clone_refuted_append.
