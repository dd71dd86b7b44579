(** Model of convolution by Winograd's method:
    src/backend/base/base_conv2d_winograd.cpp 33-165,
    src/kernels/cpu/conv2d_winograd.cpp 11-105,
    src/kernels/cpu/winograd_algorithm.cpp 52-930 (winograd_f23 and
    winograd_f63), KernelCommonFunc::in_out_pad_and_fix_size and
    winograd_mode_select_on_arm (src/kernels/common/function.cpp 13-77,
    153-174) and PadAlgorithm::pad2d, cut2d (src/kernels/cpu/pad2d_algorithm.cpp
    87-250).

    Simplifications: as in GemmModel the numbers are abstract and exact and
    loops shared among threads run in order; float literals are quotients of
    integers.  winograd_f23 and winograd_f63 are the same text but for the tile
    size and the three transforms, so they are one definition here.  The output
    buffer that is rounded up to whole tiles is filled from the (uninitialised)
    output before it is overwritten; the model starts with uninitialised
    memory.  A shape with a negative size is [SUndef]. *)
From Coq Require Import List ZArith Bool.
From Verif Require Import ShapeModel KernelBase LoopModel EltwiseModel GemmModel ConvModel PoolingModel.
Import ListNotations.
Local Open Scope Z_scope.

Inductive wino_mode := F23 | F63.

(** function.cpp 153-174 *)
Definition mode_select (channels outs h w : Z) : wino_mode :=
  if 65536 <=? channels * outs then (if (16 <? h) && (16 <? w) then F63 else F23) else F23.

(** include/kernels/common/math.h: round_up *)
Definition round_up (x t : Z) : Z := (x + t - 1) / t * t.

Section Winograd.
Context {R : Type} (rO rI : R) (radd rmul rsub rdiv : R -> R -> R) (ropp : R -> R).
Variable near : R -> R -> bool.

Local Notation "a +! b" := (radd a b) (at level 50, left associativity).
Local Notation "a -! b" := (rsub a b) (at level 50, left associativity).
Local Notation "a *! b" := (rmul a b) (at level 40, left associativity).

(** an integer literal *)
Fixpoint num (p : positive) : R :=
  match p with
  | xH => rI
  | xO p => (rI +! rI) *! num p
  | xI p => rI +! (rI +! rI) *! num p
  end.
Definition quot (a b : positive) : R := rdiv (num a) (num b).

(** a table of computed values *)
Definition table (l : list R) (i : Z) : R := nth (Z.to_nat i) l rO.

(** ** The transforms in one dimension *)

(** winograd_algorithm.cpp 68-73 and 88-93 (a row of G times a vector) *)
Definition g_row (u : Z -> R) (g : R * R * R) : R := let '(a, b, c) := g in u 0 *! a +! u 1 *! b +! u 2 *! c.
Definition g23 (u : Z -> R) : Z -> R :=
  table (map (g_row u) [(rI, rO, rO); (quot 1 2, quot 1 2, quot 1 2);
                        (quot 1 2, rdiv (ropp rI) (num 2), quot 1 2); (rO, rO, rI)]).
(** 512-521 *)
Definition g63 (u : Z -> R) : Z -> R :=
  let m29 := rdiv (ropp (num 2)) (num 9) in
  table (map (g_row u) [(rI, rO, rO); (m29, m29, m29); (m29, quot 2 9, m29);
                        (quot 1 90, quot 1 45, quot 2 45); (quot 1 90, rdiv (ropp rI) (num 45), quot 2 45);
                        (quot 1 45, quot 1 90, quot 1 180); (quot 1 45, rdiv (ropp rI) (num 90), quot 1 180);
                        (rO, rO, rI)]).

(** 193-211: the same combination down the columns and along the rows *)
Definition b23 (v : Z -> R) : Z -> R := table [v 0 -! v 2; v 1 +! v 2; v 2 -! v 1; v 1 -! v 3].
(** 621-641: along a row *)
Definition b63_row (v : Z -> R) : Z -> R :=
  let tmp12_a := v 2 +! v 6 -! v 4 *! quot 17 4 in
  let tmp12_b := v 1 +! v 5 -! v 3 *! quot 17 4 in
  let tmp34_a := v 6 +! v 2 *! quot 1 4 -! v 4 *! quot 5 4 in
  let tmp34_b := v 1 *! quot 1 2 -! v 3 *! quot 5 2 +! v 5 *! num 2 in
  let tmp56_a := v 6 +! (v 2 -! v 4 *! quot 5 4) *! num 4 in
  let tmp56_b := v 1 *! num 2 -! v 3 *! quot 5 2 +! v 5 *! quot 1 2 in
  table [v 0 -! v 6 +! (v 4 -! v 2) *! quot 21 4; tmp12_a +! tmp12_b; tmp12_a -! tmp12_b;
         tmp34_a +! tmp34_b; tmp34_a -! tmp34_b; tmp56_a +! tmp56_b; tmp56_a -! tmp56_b;
         v 7 -! v 1 +! (v 3 -! v 5) *! quot 21 4].
(** 656-675: down a column *)
Definition b63_col (v : Z -> R) : Z -> R :=
  let tmp12_a := v 2 +! v 6 -! v 4 *! quot 17 4 in
  let tmp12_b := v 1 -! v 3 *! quot 17 4 +! v 5 in
  let tmp34_a := v 6 +! v 2 *! quot 1 4 -! v 4 *! quot 5 4 in
  let tmp34_b := v 1 *! quot 1 2 -! v 3 *! quot 5 2 +! v 5 *! num 2 in
  let tmp56_a := v 6 +! (v 2 -! v 4 *! quot 5 4) *! num 4 in
  let tmp56_b := v 1 *! num 2 -! v 3 *! quot 5 2 +! v 5 *! quot 1 2 in
  table [v 0 -! v 6 +! (v 4 -! v 2) *! quot 21 4; tmp12_a +! tmp12_b; tmp12_a -! tmp12_b;
         tmp34_a +! tmp34_b; tmp34_a -! tmp34_b; tmp56_a +! tmp56_b; tmp56_a -! tmp56_b;
         v 7 -! v 1 +! (v 3 -! v 5) *! quot 21 4].

(** 323-337: rows first, then columns, by the same formulas *)
Definition a23 (t : Z -> R) : Z -> R := table [t 0 +! t 1 +! t 2; t 1 -! t 2 -! t 3].
(** 759-773, 799-813 *)
Definition a63 (t : Z -> R) : Z -> R :=
  let re0 := t 1 +! t 2 in let re1 := t 1 -! t 2 in
  let re2 := t 3 +! t 4 in let re3 := t 3 -! t 4 in
  let re4 := t 5 +! t 6 in let re5 := t 5 -! t 6 in
  table [t 0 +! re0 +! re2 +! re4 *! num 32; re1 +! re3 +! re3 +! re5 *! num 16;
         re0 +! re2 *! num 4 +! re4 *! num 8; re1 +! re3 *! num 8 +! re5 *! num 4;
         re0 +! re2 *! num 16 +! re4 +! re4; re1 +! re3 *! num 32 +! re5 +! t 7].

(** ** The transforms of a tile *)
Definition matrix2 := Z -> Z -> R.
Definition tile (m : wino_mode) : Z := match m with F23 => 2 | F63 => 6 end.

(** 84-103, 529-546: tmp[r][j] from the rows of the kernel, then the columns *)
Definition kernel_tile (m : wino_mode) (k : matrix2) : matrix2 := fun i j =>
  match m with
  | F23 => g23 (fun r => g23 (k r) j) i
  | F63 => g63 (fun r => g63 (k r) j) i
  end.
(** 193-211 (columns first), 618-676 (rows first) *)
Definition input_tile (m : wino_mode) (d : matrix2) : matrix2 := fun i j =>
  match m with
  | F23 => b23 (fun s => b23 (fun r => d r s) i) j
  | F63 => b63_col (fun r => b63_row (d r) j) i
  end.
(** 304-337, 738-814 *)
Definition output_tile (m : wino_mode) (t : matrix2) : matrix2 := fun i j =>
  match m with
  | F23 => a23 (fun r => a23 (t r) j) i
  | F63 => a63 (fun r => a63 (t r) j) i
  end.

(** [a x b] numbers read one by one *)
Definition read_tile (a b : Z) (rd : Z -> Z -> sres R) : sres matrix2 :=
  lift1 (fun l i j => nth (Z.to_nat (i * b + j)) l rO)
    (each (map (fun c => match c with [i; j] => rd i j | _ => SUndef end) (loops [a; b]))).

(** a value computed from a tile *)
Definition at_ (m : sres matrix2) (i j : Z) : sres R := lift1 (fun f => f i j) m.

(** ** The stages *)

(** 52-118, 494-561: the kernel; [a] is the size of an input tile *)
Definition kernel_trans (m : wino_mode) (w : Z -> sres R) (outs ins : Z) : list (event R) :=
  let a := tile m + 2 in
  flat_map (fun pq => match pq with
    | [p; q] =>
        let k := read_tile 3 3 (fun i j => w (p * (ins * 9) + q * 9 + (3 * i + j))) in
        map (fun ij => match ij with
          | [i; j] => ((i * a + j) * (outs * ins) + (p * ins + q), at_ (lift1 (kernel_tile m) k) i j)
          | _ => (0, SUndef)
          end) (loops [a; a])
    | _ => []
    end) (loops [outs; ins]).
Definition kernel_pack (m : wino_mode) (kt : Z -> sres R) (outs ins : Z) : list (event R) :=
  let a := tile m + 2 in
  flat_map (fun i => shift (i * (outs * ins)) (pack8_A outs ins (fun p => kt (i * (outs * ins) + p)) ins)) (upto (a * a)).
Definition transform_kernel (m : wino_mode) (w : Z -> sres R) (outs ins : Z) : sres (list (option R)) :=
  let a := tile m + 2 in
  bind (exec (fresh (outs * ins * (a * a))) (kernel_trans m w outs ins)) (fun kt =>
  exec (fresh (outs * ins * (a * a))) (kernel_pack m (read kt) outs ins)).

(** pad2d_algorithm.cpp 121-178: one row that holds part of the image, behind
    [dst] elements; [src] is where its elements are *)
Definition pad_row (x : Z -> sres R) (sw out_w left : Z) (pv : R) (src dst : Z) : list (event R) :=
  let w0 := Z.max 0 left in
  let w1 := if sw <? 12 then Z.max w0 (left + sw) else w0 + sw in
  map (fun w => (dst + w, SOk pv)) (range 0 left) ++
  (if sw <? 12 then map (fun w => (dst + w, x (src + (w - left)))) (range w0 (left + sw))
   else map (fun l => (dst + left + l, x (src + l))) (upto sw)) ++
  map (fun w => (dst + w, SOk pv)) (range w1 out_w).
Definition pad_plane (x : Z -> sres R) (sh sw out_h out_w top left : Z) (pv : R) : list (event R) :=
  let h0 := Z.max 0 top in
  let h1 := Z.max h0 (top + sh) in
  let fill r := map (fun w => (r * out_w + w, SOk pv)) (range 0 out_w) in
  flat_map fill (range 0 h0) ++
  flat_map (fun r => pad_row x sw out_w left pv ((r - h0) * sw) (r * out_w)) (range h0 h1) ++
  flat_map fill (range h1 out_h).
Definition pad2d (x : Z -> sres R) (n c sh sw top bottom left right : Z) (pv : R) : list (event R) :=
  let out_h := sh + top + bottom in
  let out_w := sw + left + right in
  flat_map (fun bc => match bc with
    | [b; ch] => shift ((b * c + ch) * (out_h * out_w))
                   (pad_plane (fun p => x ((b * c + ch) * (sh * sw) + p)) sh sw out_h out_w top left pv)
    | _ => []
    end) (loops [n; c]).

(** winograd_algorithm.cpp 160-245, 594-683 *)
Definition input_trans (m : wino_mode) (x : Z -> sres R) (n c h w tiles : Z) : list (event R) :=
  let t := tile m in let a := t + 2 in
  let stride := c * tiles in
  flat_map (fun bc => match bc with
    | [b; ch] =>
        flat_map (fun khw =>
          let '(tile_index, (y0, x0)) := khw in
          let d := read_tile a a (fun i j => x ((b * c + ch) * (h * w) + ((y0 + i) * w + (x0 + j)))) in
          map (fun ij => match ij with
            | [i; j] => (b * (stride * (a * a)) + ch * tiles + tile_index + (i * a + j) * stride, at_ (lift1 (input_tile m) d) i j)
            | _ => (0, SUndef)
            end) (loops [a; a]))
        (counted (list_prod (steps 0 (h - 2) t) (steps 0 (w - 2) t)))
    | _ => []
    end) (loops [n; c]).

(** 424-446, 909-931: one product for every image and every place of a tile *)
Definition products (m : wino_mode) (kt xt : Z -> sres R) (n outs ins tiles : Z) : sres (list (event R)) :=
  let a := tile m + 2 in
  bind (each (map (fun bi => match bi with
    | [b; i] =>
        lift1 (shift (b * (a * a * (outs * tiles)) + i * (outs * tiles)))
          (packed_gemm rO rI radd rmul near true outs tiles ins rI
             (fun p => kt (i * (outs * ins) + p)) (fun p => xt (b * (a * a * (ins * tiles)) + i * (ins * tiles) + p)) rO false true)
    | _ => SUndef
    end) (loops [n; a * a]))) (fun trs => SOk (concat trs)).

(** 270-343, 712-818 *)
Definition output_trans (m : wino_mode) (o : Z -> sres R) (n outs oh ow tiles : Z) : list (event R) :=
  let t := tile m in let a := t + 2 in
  let stride := outs * tiles in
  flat_map (fun bc => match bc with
    | [b; c] =>
        flat_map (fun khw =>
          let '(tile_offset, (y0, x0)) := khw in
          let d := read_tile a a (fun i j => o (b * (a * a * stride) + c * tiles + tile_offset + (i * a + j) * stride)) in
          map (fun ij => match ij with
            | [i; j] => ((b * outs + c) * (oh * ow) + ((y0 + i) * ow + (x0 + j)), at_ (lift1 (output_tile m) d) i j)
            | _ => (0, SUndef)
            end) (loops [t; t]))
        (counted (list_prod (steps 0 (oh - (t - 1)) t) (steps 0 (ow - (t - 1)) t)))
    | _ => []
    end) (loops [n; outs]).

(** pad2d_algorithm.cpp 181-248 with nothing cut at the top and the left *)
Definition cut2d (x : Z -> sres R) (n c sh sw oh ow : Z) : list (event R) :=
  map (fun kc => (fst kc,
    match snd kc with
    | [b; ch; i; j] => x ((b * c + ch) * (sh * sw) + (i * sw + j))
    | _ => SUndef
    end)) (counted (loops [n; c; oh; ow])).

(** winograd_algorithm.cpp 357-456, 843-940 with function.cpp 13-77;
    [kt] reads the transformed kernel *)
Definition winograd (m : wino_mode) (x kt : Z -> sres R) (n ins h w outs oh ow : Z) (pt pb pl pr : Z) (pv : R) : sres (list (option R)) :=
  let t := tile m in let a := t + 2 in
  let oh' := round_up oh t in let ow' := round_up ow t in
  let ih := Z.max (h + pt + pb) (oh' - 1 + 3) in
  let iw := Z.max (w + pl + pr) (ow' - 1 + 3) in
  bind (if negb (ih =? h) || negb (iw =? w)
        then bind (exec (fresh (n * ins * ih * iw)) (pad2d x n ins h w pt (ih - h - pt) pl (iw - w - pl) pv)) (fun p => SOk (read p))
        else SOk x) (fun x' =>
  let tiles := Z.quot oh' t * Z.quot ow' t in
  bind (exec (fresh (n * (a * a) * ins * tiles)) (input_trans m x' n ins ih iw tiles)) (fun xt =>
  bind (products m kt (read xt) n outs ins tiles) (fun stores =>
  bind (exec (fresh (n * (a * a) * outs * tiles)) stores) (fun ot =>
  bind (exec (fresh (n * outs * oh' * ow')) (output_trans m (read ot) n outs oh' ow' tiles)) (fun out =>
  if negb (oh' =? oh) || negb (ow' =? ow)
  then exec (fresh (n * outs * oh * ow)) (cut2d (read out) n outs oh' ow' oh ow)
  else SOk out))))).

(** ** The operator *)

(** m_kernel_transformed, m_winograd_mode and m_k_transformed *)
Definition wino_state := (bool * option (wino_mode * list (option R)))%type.

(** base_conv2d_winograd.cpp 45-82 *)
Definition wino_init (nchw : bool) (padding : list Z) : option (Z * Z * Z * Z) :=
  let p i := nth i padding 0 in
  if negb (Nat.eqb (length padding) 8) then None else
  if nchw then
    if (p 0%nat =? 0) && (p 1%nat =? 0) && (p 2%nat =? 0) && (p 3%nat =? 0) then Some (p 4%nat, p 5%nat, p 6%nat, p 7%nat) else None
  else
    if (p 0%nat =? 0) && (p 1%nat =? 0) && (p 6%nat =? 0) && (p 7%nat =? 0) then Some (p 2%nat, p 3%nat, p 4%nat, p 5%nat) else None.

(** conv2d_winograd.cpp 84-105 *)
Definition wino_forward (nchw : bool) (m : wino_mode) (kt : list (option R)) (pt pb pl pr : Z) (pv : R)
    (n x1 x2 x3 outs oh ow : Z) (x : tensor R) : sres (raw_tensor R) :=
  if negb nchw then SErr else
  if negb (t_dtype x =? 10) then SErr else
  bind (winograd m (load (t_data x)) (read kt) n x1 x2 x3 outs oh ow pt pb pl pr pv) (fun o =>
  SOk (Tn (t_dtype x) [n; outs; oh; ow] o)).

(** base_conv2d_winograd.cpp 84-165, conv2d_winograd.cpp 66-82: one run; the
    state afterwards and the result.  The transformed kernel is allocated and
    kept before its type is checked. *)
Definition wino_run (nchw : bool) (padding : list Z) (pv : R) (st : wino_state) (x w : tensor R) : wino_state * sres (raw_tensor R) :=
  match wino_init nchw padding, t_shape x, t_shape w with
  | Some (pt, pb, pl, pr), [n; x1; x2; x3], [outs; w1; w2; w3] =>
      let h := if nchw then x2 else x1 in let wd := if nchw then x3 else x2 in
      match forward (Window pt pb pl pr 1 1 1 1) h wd 3 3 with
      | SOk (oh, ow) =>
          if (oh <? 0) || (ow <? 0) then (st, SUndef) else
          let m := mode_select x1 outs x2 x3 in
          let a := tile m + 2 in
          let fresh_st : wino_state := (fst st, Some (m, fresh (outs * w1 * (a * a)))) in
          match st with
          | (true, Some (m, kt)) => (st, wino_forward nchw m kt pt pb pl pr pv n x1 x2 x3 outs oh ow x)
          | _ =>
              if negb (t_dtype w =? 10) then (fresh_st, SErr) else
              match transform_kernel m (load (t_data w)) outs w1 with
              | SOk kt => ((true, Some (m, kt)), wino_forward nchw m kt pt pb pl pr pv n x1 x2 x3 outs oh ow x)
              | SErr => (fresh_st, SErr)
              | SUndef => (fresh_st, SUndef)
              end
          end
      | SErr => (st, SErr)
      | SUndef => (st, SUndef)
      end
  | _, _, _ => (st, SErr)
  end.

(** earlier runs of the same object *)
Fixpoint wino_runs (nchw : bool) (padding : list Z) (pv : R) (st : wino_state) (args : list (tensor R * tensor R)) : wino_state :=
  match args with
  | [] => st
  | (x, w) :: args => wino_runs nchw padding pv (fst (wino_run nchw padding pv st x w)) args
  end.
End Winograd.
