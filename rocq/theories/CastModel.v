(** Model of the conversions of tensors to other element types and to C++
    values: src/core/tensor_builder.cpp 22-38 (from, to_string), 40-146 (cast,
    clone), 148-199 (to_int, to_uint, to_bool), 266-290 (support).

    Numbers: a finite floating point number v * 2^-1074 is kept as the integer
    v (1074 is large enough for every double); an integer n is n * 2^1074; the
    sign of zero is not kept.  static_cast follows [conv.integral] (modulo 2^n,
    as every compiler does), [conv.fpint] (towards zero, undefined if it does
    not fit), [conv.double] (to nearest, ties to even).  [to_half] and [of_half]
    are the conversions of class ieee754_float, modelled in HalfModel.
    char is signed.  Memory views are taken to be the same data. *)
From Coq Require Import Ascii String List ZArith Bool.
From Verif Require Import ShapeModel KernelBase EltwiseModel.
Import ListNotations.
Local Open Scope Z_scope.

Definition scale : Z := 2 ^ 1074.
Inductive num := Num (v : Z) | Inf (negative : bool) | NaN.

(** dtype.h 12-47 and dtype<...>::declare: the integer types *)
Definition range (t : Z) : option (Z * Z) :=
  if t =? 1 then Some (-128, 127) else if t =? 2 then Some (0, 255)
  else if t =? 3 then Some (- 2 ^ 15, 2 ^ 15 - 1) else if t =? 4 then Some (0, 2 ^ 16 - 1)
  else if t =? 5 then Some (- 2 ^ 31, 2 ^ 31 - 1) else if t =? 6 then Some (0, 2 ^ 32 - 1)
  else if t =? 7 then Some (- 2 ^ 63, 2 ^ 63 - 1) else if t =? 8 then Some (0, 2 ^ 64 - 1)
  else if t =? 13 then Some (-128, 127) else if t =? 14 then Some (0, 2 ^ 16 - 1) else if t =? 15 then Some (0, 2 ^ 32 - 1)
  else if t =? 21 then Some (0, 255) else None.
(** 266-290 *)
Definition support (t : Z) : bool := match range t with Some _ => true | None => (t =? 9) || (t =? 10) || (t =? 11) end.

Definition wrap (lo hi z : Z) : Z := lo + (z - lo) mod (hi - lo + 1).

(** to nearest, ties to even, in units of 2^d *)
Definition nearest (d v : Z) : Z :=
  let u := 2 ^ d in let q := v / u in let r := v mod u in
  if (2 * r <? u) || ((2 * r =? u) && Z.even q) then q * u else (q + 1) * u.
(** precision [p], least exponent [emin], overflow at 2^emax *)
Definition round (p emin emax : Z) (x : num) : num :=
  match x with
  | Num v =>
      let d := Z.max (Z.log2 (Z.abs v) - (p - 1)) (emin + 1074) in
      let w := nearest d v in
      if 2 ^ (emax + 1074) <=? Z.abs w then Inf (v <? 0) else Num w
  | _ => x
  end.
Definition round32 : num -> num := round 24 (-149) 128.
Definition round64 : num -> num := round 53 (-1074) 1024.

Section Cast.
Variables to_half of_half : num -> num.

(** static_cast<DST>(SRC) *)
Definition to_integer (lo hi : Z) (x : num) : sres num :=
  match x with
  | Num v => let t := Z.quot v scale in if (lo <=? t) && (t <=? hi) then SOk (Num (t * scale)) else SUndef
  | _ => SUndef
  end.
Definition convert (src dst : Z) (x : num) : sres num :=
  let y := if src =? 9 then of_half x else x in
  match range dst, range src with
  | Some (lo, hi), Some _ => match y with Num v => SOk (Num (wrap lo hi (v / scale) * scale)) | _ => SUndef end
  | Some (lo, hi), None => to_integer lo hi y
  | None, rs =>
      if dst =? 10 then SOk (round32 y) else if dst =? 11 then SOk (round64 y) else
      (* ieee754_float(float), ieee754_float(double): the types up to 16 bits, and 32-bit characters, go through float *)
      SOk (to_half (if (src =? 5) || (src =? 6) || (src =? 7) || (src =? 8) || (src =? 11) then round64 y else round32 y))
  end.

(** 45-55: four elements in one round, then the rest *)
Definition cast_loop (src dst : Z) (x : list num) (size : Z) : list (event num) :=
  let one i := (i, match load x i with SOk v => convert src dst v | SErr => SErr | SUndef => SUndef end) in
  flat_map (fun i => [one (i * 4); one (i * 4 + 1); one (i * 4 + 2); one (i * 4 + 3)]) (upto (size / 4)) ++
  map one (steps (size / 4 * 4) size 1).
(** 120-146 *)
Definition cast (dst : Z) (x : tensor num) : sres (raw_tensor num) :=
  let src := t_dtype x in
  if src =? dst then SOk (Tn src (t_shape x) (map Some (t_data x))) else
  if negb (support src && support dst) then SErr else
  match exec (fresh (prod (t_shape x))) (cast_loop src dst (t_data x) (prod (t_shape x))) with
  | SOk m => SOk (Tn dst (t_shape x) m)
  | SErr => SErr
  | SUndef => SUndef
  end.

(** ** Text *)

(** 22-27: int(length) of longer strings is not modelled *)
Definition from (s : string) : tensor num :=
  Tn 13 [Z.of_nat (String.length s)] (map (fun c => Num (wrap (-128) 127 (Z.of_nat (nat_of_ascii c)) * scale)) (list_ascii_of_string s)).
(** 29-38 *)
Definition to_char (x : num) : ascii := match x with Num v => ascii_of_nat (Z.to_nat ((v / scale) mod 256)) | _ => "000"%char end.
Definition to_string (x : tensor num) : sres string :=
  if negb (t_dtype x =? 13) then SErr else
  match t_shape x with
  | [n] => SOk (string_of_list_ascii (firstn (Z.to_nat n) (map to_char (t_data x))))
  | _ => SErr
  end.

(** strtol(s, nullptr, 10) *)
Definition is_space (c : ascii) : bool := let n := nat_of_ascii c in (Nat.eqb n 32) || (Nat.leb 9 n && Nat.leb n 13).
Definition digit (c : ascii) : option Z :=
  let n := nat_of_ascii c in if (Nat.leb 48 n && Nat.leb n 57) then Some (Z.of_nat n - 48) else None.
Fixpoint skip_spaces (s : string) : string :=
  match s with String c r => if is_space c then skip_spaces r else s | EmptyString => s end.
Fixpoint digits (acc : Z) (s : string) : Z :=
  match s with
  | EmptyString => acc
  | String c r => match digit c with Some d => digits (acc * 10 + d) r | None => acc end
  end.
Definition clamp (lo hi z : Z) : Z := if z <? lo then lo else if hi <? z then hi else z.
Definition strtol (s : string) : Z :=
  clamp (- 2 ^ 63) (2 ^ 63 - 1)
    match skip_spaces s with
    | String "-"%char r => - digits 0 r
    | String "+"%char r => digits 0 r
    | r => digits 0 r
    end.
(** c_str(): up to the first NUL *)
Fixpoint c_str (s : string) : string :=
  match s with
  | EmptyString => EmptyString
  | String c r => if Ascii.eqb c "000"%char then EmptyString else String c (c_str r)
  end.

Definition first (r : sres (raw_tensor num)) : sres num :=
  match r with
  | SOk t => match t_data t with Some v :: _ => SOk v | _ => SUndef end
  | SErr => SErr
  | SUndef => SUndef
  end.
(** 156-164: to_string fails for text that is not one-dimensional, and then the
    first character is converted *)
Definition to_int (x : tensor num) : sres Z :=
  let number := if prod (t_shape x) =? 0 then SErr else
    match first (cast 5 x) with SOk (Num v) => SOk (v / scale) | SOk _ => SUndef | SErr => SErr | SUndef => SUndef end in
  if t_dtype x =? 13 then
    match to_string x with SOk s => SOk (wrap (- 2 ^ 31) (2 ^ 31 - 1) (strtol (c_str s))) | _ => number end
  else number.
(** 196-210 *)
Definition lower (c : ascii) : ascii := let n := nat_of_ascii c in if Nat.leb 65 n && Nat.leb n 90 then ascii_of_nat (n + 32) else c.
Fixpoint to_lower (s : string) : string := match s with EmptyString => EmptyString | String c r => String (lower c) (to_lower r) end.
Definition to_bool (x : tensor num) : sres bool :=
  let number := if prod (t_shape x) =? 0 then SErr else
    match first (cast 21 x) with SOk (Num v) => SOk (negb (v / scale =? 0)) | SOk _ => SUndef | SErr => SErr | SUndef => SUndef end in
  if t_dtype x =? 13 then match to_string x with SOk s => SOk (String.eqb (to_lower s) "true") | _ => number end
  else number.
End Cast.
