(** Model of the CPU prior_box operator (src/kernels/cpu/prior_box.cpp).
    Numbers are of an abstract type with the operations the code uses, so the
    rounding of every single operation is left open.  Products of sizes are
    assumed to fit in an int, sizes of tensors are not negative. *)
From Coq Require Import List ZArith Bool.
From Verif Require Import ShapeModel KernelBase LoopModel.
Import ListNotations.
Local Open Scope Z_scope.

Section PriorBox.
Variable R : Type.
Variables zero one two tenth : R.                 (* 0, 1., 2., 0.1 *)
Variables add sub mul div : R -> R -> R.
Variable sqrt : R -> R.
Variable ofZ : Z -> R.                            (* int to float *)
Variable whole : R -> R.                          (* float to int, used as a number again: 176, 191, 113 *)
Variable lt : R -> R -> bool.
Variable close : R -> R -> bool.                  (* fabs(a - b) < 1e-6 (61, 205) *)

(** the attributes (30-42); images and steps already resolved to "given or
    not", see [init] *)
Record attrs := Attrs {
  a_min : list R; a_max : list R; a_ratio : list R; a_flip : bool; a_clip : bool;
  a_variance : list R; a_offset : R;
  a_img_h : option Z; a_img_w : option Z; a_img_size : option Z;
  a_step_h : option R; a_step_w : option R; a_step : option R
}.

(** the members (15-28) *)
Record prior_box := Prior {
  b_min : list R; b_max : list R; b_ratios : list R; b_num : Z; b_clip : bool; b_variance : list R;
  b_img : option (Z * Z);         (* height, width; none: both members zero *)
  b_step : option (R * R);
  b_offset : R
}.

(** 52-72 *)
Fixpoint ratios (flip : bool) (given acc : list R) : list R :=
  match given with
  | [] => acc
  | ar :: rest =>
      if existsb (close ar) acc then ratios flip rest acc
      else ratios flip rest (acc ++ ar :: if flip then [div one ar] else [])
  end.

(** 77-85, the check of each maximum *)
Fixpoint above (mins maxs : list R) : bool :=
  match mins, maxs with
  | m :: ms, M :: Ms => lt m M && above ms Ms
  | _, _ => true
  end.

Definition positive (x : R) : bool := lt zero x.

(** 86-100; [old] is the member before: it is not cleared *)
Definition variances (old given : list R) : option (list R) :=
  match given with
  | [] => Some (old ++ [tenth])
  | [v] => if positive v then Some (old ++ [v]) else None
  | _ => if Nat.eqb (length given) 4 && forallb positive given then Some (old ++ given) else None
  end.

(** 102-119 *)
Definition image (a : attrs) : option (option (Z * Z)) :=
  match a_img_h a, a_img_w a, a_img_size a with
  | None, None, None => Some None
  | None, None, Some s => if 0 <? s then Some (Some (s, s)) else None
  | Some h, Some w, None => if (0 <? h) && (0 <? w) then Some (Some (h, w)) else None
  | _, _, _ => None                (* both kinds given, or get() of a missing attribute *)
  end.

(** 121-138: step_h and step_w pass through an int, step does not *)
Definition steps (a : attrs) : option (option (R * R)) :=
  match a_step_h a, a_step_w a, a_step a with
  | None, None, None => Some None
  | None, None, Some s => if positive s then Some (Some (s, s)) else None
  | Some h, Some w, None => if positive (whole h) && positive (whole w) then Some (Some (whole h, whole w)) else None
  | _, _, _ => None
  end.

(** PriorBox::init (44-141), on an object whose member variance_ is [old] *)
Definition init (old : list R) (a : attrs) : option prior_box :=
  if Nat.eqb (length (a_min a)) 0 || negb (forallb positive (a_min a)) then None else
  let rs := ratios (a_flip a) (a_ratio a) [one] in
  let num := Z.of_nat (length rs) * Z.of_nat (length (a_min a)) in
  if negb (Nat.eqb (length (a_max a)) 0) && negb (Nat.eqb (length (a_max a)) (length (a_min a)) && above (a_min a) (a_max a)) then None else
  match variances old (a_variance a), image a, steps a with
  | Some v, Some im, Some st =>
      Some (Prior (a_min a) (a_max a) rs (num + Z.of_nat (length (a_max a))) (a_clip a) v im st (a_offset a))
  | _, _, _ => None
  end.

(** 179-186 and its repetitions: the four stores for one box *)
Definition corners (cx cy bw bh iw ih : R) : list R :=
  [div (sub cx (div bw two)) iw; div (sub cy (div bh two)) ih; div (add cx (div bw two)) iw; div (add cy (div bh two)) ih].

(** 202-219 *)
Fixpoint rest_of_priors (rs : list R) (m cx cy iw ih : R) : list R :=
  match rs with
  | [] => []
  | ar :: rest =>
      if close ar one then rest_of_priors rest m cx cy iw ih
      else corners cx cy (mul m (sqrt ar)) (div m (sqrt ar)) iw ih ++ rest_of_priors rest m cx cy iw ih
  end.

(** 175-220: what one cell stores, for the sizes still to come *)
Fixpoint cell (b : prior_box) (mins maxs : list R) (cx cy iw ih : R) : list R :=
  match mins with
  | [] => []
  | m0 :: mins' =>
      let m := whole m0 in
      corners cx cy m m iw ih ++
      match maxs with
      | [] => []
      | M0 :: _ => let s := sqrt (mul m (whole M0)) in corners cx cy s s iw ih
      end ++
      rest_of_priors (b_ratios b) m cx cy iw ih ++
      cell b mins' (tl maxs) cx cy iw ih
  end.

(** 170-222: all values, in the order idx counts *)
Definition all_boxes (b : prior_box) (lh lw : Z) (sh sw iw ih : R) : list R :=
  flat_map (fun h => flat_map (fun w =>
    cell b (b_min b) (b_max b) (mul (add (ofZ w) (b_offset b)) sw) (mul (add (ofZ h) (b_offset b)) sh) iw ih) (upto lw)) (upto lh).

(** 224-228: std::min(std::max(x, 0), 1) in place; reading an element nobody
    wrote is undefined *)
Definition clamp (x : R) : R := let y := if lt x zero then zero else x in if lt one y then one else y.
Fixpoint clip (n : nat) (m : list (option R)) : sres (list (option R)) :=
  match n, m with
  | O, _ => SOk m
  | S n', Some x :: r => match clip n' r with SOk r' => SOk (Some (clamp x) :: r') | SErr => SErr | SUndef => SUndef end
  | S _, _ => SUndef
  end.

(** 229-249 *)
Definition variance_stores (b : prior_box) (lh lw dim : Z) : list (event R) :=
  match b_variance b with
  | [v] => map (fun k => (dim + k, SOk v)) (upto dim)
  | _ => map (fun kc => (dim + fst kc, load (b_variance b) (nth 3 (snd kc) 0))) (counted (loops [lh; lw; b_num b; 4]))
  end.

(** PriorBox::run (165-253) on a feature map of shape [feat] and, if there is
    one, an image of shape [img] *)
Definition run (b : prior_box) (feat : list Z) (img : option (list Z)) : sres (raw_tensor R) :=
  match nth_error feat 2, nth_error feat 3 with
  | Some lh, Some lw =>
      let dim := lh * lw * b_num b * 4 in
      let sizes := match b_img b with
                   | Some p => SOk p
                   | None => match img with
                             | None => SErr
                             | Some s => match nth_error s 2, nth_error s 3 with
                                         | Some h, Some w => SOk (h, w)
                                         | _, _ => SUndef
                                         end
                             end
                   end in
      match sizes with
      | SErr => SErr
      | SUndef => SUndef
      | SOk (ih, iw) =>
          let st := match b_step b with
                    | Some p => p
                    | None => (div (ofZ ih) (ofZ lh), div (ofZ iw) (ofZ lw))
                    end in
          let values := all_boxes b lh lw (fst st) (snd st) (ofZ iw) (ofZ ih) in
          match exec (fresh (2 * dim)) (map (fun kv => (fst kv, SOk (snd kv))) (counted values)) with
          | SErr => SErr
          | SUndef => SUndef
          | SOk m =>
              match (if b_clip b then clip (Z.to_nat dim) m else SOk m) with
              | SErr => SErr
              | SUndef => SUndef
              | SOk m' =>
                  match exec m' (variance_stores b lh lw dim) with
                  | SErr => SErr
                  | SUndef => SUndef
                  | SOk m'' => SOk (Tn 10 [1; 2; dim] m'')
                  end
              end
          end
      end
  | _, _ => SUndef
  end.
End PriorBox.
