(** Model of space-to-batch and batch-to-space:
    src/backend/base/base_spacetobatch4d.cpp, base_batchtospace4d.cpp and
    src/kernels/cpu/spacetobatch4d.cpp 14-70, batchtospace4d.cpp 14-66.

    The paddings and crops are (top, bottom, left, right); [zero] is the
    element whose bytes are zero.  Divisions are C++'s (truncating).
    Simplification: the attributes are 32-bit integers already. *)
From Coq Require Import List ZArith Bool.
From Verif Require Import ShapeModel KernelBase TileModel LoopModel.
Import ListNotations.
Local Open Scope Z_scope.

(** base_spacetobatch4d.cpp 48, base_batchtospace4d.cpp 50 *)
Definition block_ok (bh bw : Z) : bool := (1 <=? bh) && (1 <=? bw).

(** spacetobatch4d.cpp 14-70: oc = c; memset, then the loops *)
Definition s2b_stores {A} (data : list A) (N C H W oC oH oW pt pl bh bw : Z) : list (event A) :=
  let output_number_step := oC * oH * oW in
  let output_channels_step := oH * oW in
  let output_height_step := oW in
  map (fun kc =>
    let '(at_input_i, c) := kc in
    match c with
    | [n; c; h; w] =>
        let oh := Z.quot (h + pt) bh in
        let pre_compute := Z.rem (h + pt) bh * bw in
        let on := (pre_compute + Z.rem (w + pl) bw) * N + n in
        let ow := Z.quot (w + pl) bw in
        (on * output_number_step + c * output_channels_step + oh * output_height_step + ow, load data at_input_i)
    | _ => (-1, SUndef)
    end) (counted (loops [N; C; H; W])).

(** base_spacetobatch4d.cpp 17-24, 51-81; spacetobatch4d.cpp 73-95 *)
Definition s2b_run {A} (zero : A) (pt pb pl pr bh bw : Z) (x : tensor A) : sres (raw_tensor A) :=
  if negb (block_ok bh bw) then SErr else
  match t_shape x with
  | [N; C; H; W] =>
      if negb ((Z.rem (H + pt + pb) bh =? 0) && (Z.rem (W + pl + pr) bw =? 0)) then SErr else
      let o := [N * bh * bw; C; Z.quot (H + pt + pb) bh; Z.quot (W + pl + pr) bw] in
      if negb (tile_supports (t_dtype x)) then SErr else
      match exec (map Some (repeat zero (Z.to_nat (prod o))))
              (s2b_stores (t_data x) N C H W C (Z.quot (H + pt + pb) bh) (Z.quot (W + pl + pr) bw) pt pl bh bw) with
      | SOk m => SOk (Tn (t_dtype x) o m)
      | SErr => SErr
      | SUndef => SUndef
      end
  | _ => SErr
  end.

(** batchtospace4d.cpp 14-66 *)
Definition b2s_stores {A} (data : list A) (C H W N oC oH oW ct cl bh bw : Z) : list (event A) :=
  let input_number_step := C * H * W in
  let input_channels_step := H * W in
  let input_height_step := W in
  map (fun kc =>
    (fst kc,
     match snd kc with
     | [n; c; h; w] =>
         let ih := Z.quot (h + ct) bh in
         let pre_compute := Z.rem (h + ct) bh * bw in
         let i_n := (pre_compute + Z.rem (w + cl) bw) * N + n in
         let iw := Z.quot (w + cl) bw in
         load data (i_n * input_number_step + c * input_channels_step + ih * input_height_step + iw)
     | _ => SUndef
     end)) (counted (loops [N; oC; oH; oW])).

(** base_batchtospace4d.cpp 17-25, 53-83; batchtospace4d.cpp 69-91 *)
Definition b2s_run {A} (ct cb cl cr bh bw : Z) (x : tensor A) : sres (raw_tensor A) :=
  if negb (block_ok bh bw) then SErr else
  match t_shape x with
  | [N; C; H; W] =>
      if negb ((0 <? N) && (Z.rem N (bh * bw) =? 0)) then SErr else
      let o := [Z.quot N (bh * bw); C; H * bh - ct - cb; W * bw - cl - cr] in
      if negb (tile_supports (t_dtype x)) then SErr else
      match exec (fresh (prod o))
              (b2s_stores (t_data x) C H W (Z.quot N (bh * bw)) C (H * bh - ct - cb) (W * bw - cl - cr) ct cl bh bw) with
      | SOk m => SOk (Tn (t_dtype x) o m)
      | SErr => SErr
      | SUndef => SUndef
      end
  | _ => SErr
  end.
