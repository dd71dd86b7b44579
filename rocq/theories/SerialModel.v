(** Model of the binary (de)serialisers: binio (include/module/io/stream.h
    42-72), Tensor (src/core/tensor.cpp 314-388), Bubble (src/module/bubble.cpp
    50-75, 85-250) and the tensor builders it uses (src/core/tensor_builder.cpp
    21-40, 117-150).

    A byte is an integer; memory and strings are lists of bytes; files are
    lists of bytes (little-endian host).  A file read may be short: the bytes
    that were not read keep their previous value, [None] for an indeterminate
    one (an uninitialised variable).  Using an indeterminate value is the
    outcome [RUndef]; an exception is [RErr]. *)
From Coq Require Import String Ascii.
From Coq Require Import List ZArith Bool.
From Verif Require Import TensorModel.
Import ListNotations.
Local Open Scope Z_scope.

Definition stream := list Z.

Inductive rres (A : Type) := ROk (a : A) (rest : stream) | RErr | RUndef.
Arguments ROk {A} _ _.
Arguments RErr {A}.
Arguments RUndef {A}.

Definition rbind {A B} (r : rres A) (f : A -> stream -> rres B) : rres B :=
  match r with ROk a s => f a s | RErr => RErr | RUndef => RUndef end.

(** characters of a literal *)
Definition lit (s : string) : list Z :=
  map (fun a => Z.of_nat (nat_of_ascii a)) (list_ascii_of_string s).

Definition str_eqb (a b : list Z) : bool := if list_eq_dec Z.eq_dec a b then true else false.

(** binio::write<uint32_t> / <uint8_t> (60-62): the conversion to the
    unsigned type keeps the value modulo 2^32 / 2^8 *)
Definition w32 (n : Z) : stream :=
  [n mod 256; (n / 256) mod 256; (n / 65536) mod 256; (n / 16777216) mod 256].
Definition w8 (n : Z) : stream := [n mod 256].

(** binio::read (44-52): [old] is the previous contents of the buffer *)
Definition read_into (old : list (option Z)) (s : stream) : list (option Z) * stream :=
  let got := firstn (length old) s in
  (map Some got ++ skipn (length got) old, skipn (length old) s).

Definition uninit (n : nat) : list (option Z) := repeat None n.
Definition zeros (n : nat) : list (option Z) := repeat (Some 0) n.

(** value of a little-endian buffer, [None] if a byte is indeterminate *)
Fixpoint le_value (b : list (option Z)) : option Z :=
  match b with
  | [] => Some 0
  | Some x :: t => match le_value t with Some v => Some (x + 256 * v) | None => None end
  | None :: _ => None
  end.

Fixpoint all_some {A} (l : list (option A)) : option (list A) :=
  match l with
  | [] => Some []
  | Some x :: t => match all_some t with Some r => Some (x :: r) | None => None end
  | None :: _ => None
  end.

(** conversion uint32_t -> int32_t *)
Definition to_int32 (n : Z) : Z := if n mod 4294967296 <? 2147483648 then n mod 4294967296
                                   else n mod 4294967296 - 4294967296.

(** include/core/dtype.h 52-92 *)
Definition type_bytes (d : Z) : Z :=
  nth (Z.to_nat d)
    [0; 1; 1; 2; 2; 4; 4; 8; 8; 2; 4; 8; 8; 1; 2; 4; 1; 2; 4; 8; 16; 1; 4; 8; 16;
     1; 1; 1; 1; 1; 1; 1; 1] 0.

(** the memory and prototype of one tensor; [p_data] is the memory the
    prototype describes *)
Record plain := mkPlain { p_dtype : Z; p_sizes : list Z; p_data : list Z }.
Definition void_plain : plain := mkPlain 0 [] [].

(** Prototype::count (include/core/tensor.h 76-80): [int] arithmetic; [None]
    is a signed overflow *)
Fixpoint count_from (acc : Z) (sizes : list Z) : option Z :=
  match sizes with
  | [] => Some acc
  | x :: r => let p := acc * x in
              if (-2147483648 <=? p) && (p <=? 2147483647) then count_from p r else None
  end.
Definition count (sizes : list Z) : option Z := count_from 1 sizes.

(** tensor.cpp 315-335; [None]: overflow in count, or reading outside the
    memory *)
Definition serialize_plain (p : plain) : option stream :=
  match count (p_sizes p) with
  | None => None
  | Some c =>
      let n := c * type_bytes (p_dtype p) in
      if (0 <=? n) && (n <=? Z.of_nat (length (p_data p))) then
        Some (w8 (p_dtype p) ++ w32 (Z.of_nat (length (p_sizes p)))
              ++ concat (map w32 (p_sizes p)) ++ firstn (Z.to_nat n) (p_data p))
      else None
  end.

(** tensor.cpp 352-355: the loop over the sizes; the variable [size_buffer]
    keeps its previous contents on a short read *)
Fixpoint read_sizes (n : nat) (buf : list (option Z)) (s : stream) : rres (list Z) :=
  match n with
  | O => ROk [] s
  | S k => let (buf', s') := read_into buf s in
           match le_value buf' with
           | None => RUndef
           | Some v => rbind (read_sizes k buf' s') (fun l s'' => ROk (to_int32 v :: l) s'')
           end
  end.

(** tensor.cpp 337-363.  shape.resize(n) writes n entries into a buffer of 7
    (include/utils/otl.h 270-273, 369-371).  A negative byte count becomes a
    huge allocation, which fails.  Memory obtained from the allocator is not
    initialised, so a short read leaves indeterminate contents. *)
Definition externalize_plain (s : stream) : rres plain :=
  let (db, s1) := read_into (uninit 1) s in
  match le_value db with
  | None => RUndef
  | Some d =>
      let (nb, s2) := read_into (uninit 4) s1 in
      match le_value nb with
      | None => RUndef
      | Some n =>
          if 7 <? n then RUndef else
          rbind (read_sizes (Z.to_nat n) nb s2) (fun sizes s3 =>
          match count sizes with
          | None => RUndef
          | Some c =>
              let bytes := c * type_bytes d in
              if bytes <? 0 then RErr else
              let (mem, s4) := read_into (uninit (Z.to_nat bytes)) s3 in
              match all_some mem with
              | None => RUndef
              | Some m => ROk (mkPlain d sizes m) s4
              end
          end)
      end
  end.

Fixpoint seq_opt (l : list (option stream)) : option stream :=
  match l with
  | [] => Some []
  | Some x :: t => match seq_opt t with Some r => Some (x ++ r) | None => None end
  | None :: _ => None
  end.

(** tensor.cpp 365-373: of every field only its own memory and prototype are
    written *)
Definition serialize_tensor (t : tensor plain) : option stream :=
  match seq_opt (map (fun f => serialize_plain (t_head f)) (unpack t)) with
  | Some body => Some (w32 (Z.of_nat (fields_count t)) ++ body)
  | None => None
  end.

Fixpoint read_plains (n : nat) (s : stream) : rres (list plain) :=
  match n with
  | O => ROk [] s
  | S k => rbind (externalize_plain s) (fun p s' =>
           rbind (read_plains k s') (fun l s'' => ROk (p :: l) s''))
  end.

(** tensor.cpp 375-388 *)
Definition externalize_tensor (this : tensor plain) (s : stream) : rres (tensor plain) :=
  let (nb, s1) := read_into (uninit 4) s in
  match le_value nb with
  | None => RUndef
  | Some n => rbind (read_plains (Z.to_nat n) s1) (fun ps s2 =>
              ROk (pack void_plain this (map simple ps)) s2)
  end.

(** ** Bubble *)

(** tensor_builder.cpp 21-26, 302-309 (from a string, a shape, one int32) *)
Definition tensor_of_string (v : list Z) : tensor plain :=
  simple (mkPlain 13 [Z.of_nat (length v)] v).
Definition tensor_of_ints (v : list Z) : tensor plain :=
  simple (mkPlain 5 [Z.of_nat (length v)] (concat (map w32 v))).

(** tensor_builder.cpp 28-40 *)
Definition to_string (t : tensor plain) : option (list Z) :=
  let p := t_head t in
  if negb (p_dtype p =? 13) then None else
  match p_sizes p with
  | [n] => Some (firstn (Z.to_nat n) (p_data p))
  | _ => None
  end.

(** the int32_t elements of INT32 memory *)
Fixpoint ints_of (n : nat) (d : list Z) : list Z :=
  match n with
  | O => []
  | S k => match d with
           | a :: b :: c :: e :: r =>
               to_int32 (a + 256 * (b + 256 * (c + 256 * e))) :: ints_of k r
           | _ => []
           end
  end.

Record bubble := mkBubble {
  b_op : list Z; b_name : list Z; b_shape : list Z;
  b_params : list (list Z * tensor plain)     (* unordered_map, in iteration order *)
}.

Definition p_op := lit "#op".
Definition p_name := lit "#name".
Definition p_shape := lit "#shape".
Definition p_dt := lit "#dtype".
Definition p_outcount := lit "#output_count".

Fixpoint find_param (m : list (list Z * tensor plain)) (k : list Z) : option (tensor plain) :=
  match m with
  | [] => None
  | (k', v) :: r => if str_eqb k k' then Some v else find_param r k
  end.

(** bubble.cpp 74-81 (and operator[] = v) *)
Fixpoint set_param (m : list (list Z * tensor plain)) (k : list Z) (v : tensor plain) :=
  match m with
  | [] => [(k, v)]
  | (k', v') :: r => if str_eqb k k' then (k', v) :: r else (k', v') :: set_param r k v
  end.

(** unordered_map::insert: an existing key is kept *)
Definition insert_param (m : list (list Z * tensor plain)) (k : list Z) (v : tensor plain) :=
  match find_param m k with Some _ => m | None => m ++ [(k, v)] end.

Fixpoint erase_param (m : list (list Z * tensor plain)) (k : list Z) :=
  match m with
  | [] => []
  | (k', v') :: r => if str_eqb k k' then r else (k', v') :: erase_param r k
  end.

(** bubble.cpp 126-134 *)
Definition retention (b : bubble) : bubble :=
  let m1 := set_param (b_params b) p_op (tensor_of_string (b_op b)) in
  let m2 := set_param m1 p_name (tensor_of_string (b_name b)) in
  let m3 := match b_shape b with [] => m2 | _ => set_param m2 p_shape (tensor_of_ints (b_shape b)) end in
  mkBubble (b_op b) (b_name b) (b_shape b) m3.

(** bubble.cpp 46-64: the constructors (a missing argument is empty) *)
Definition make_bubble (op name shape : list Z) : bubble :=
  retention (mkBubble op name shape []).

Inductive bcall :=
| BSet (k : list Z) (v : tensor plain)
| BClear (k : list Z)
| BClearParams
| BOp (s : list Z)
| BName (s : list Z)
| BShape (s : list Z)
| BDtype (d : Z)
| BMove.

Definition is_retention (k : list Z) : bool :=
  match k with c :: _ => c =? 35 | [] => false end.

(** 74-81, 97-104 (clear throws when the key is absent: unchanged), 106-117,
    232-252, and a move into another object (35-44): m_shape is not moved *)
Definition bstep (b : bubble) (c : bcall) : bubble :=
  match c with
  | BSet k v => mkBubble (b_op b) (b_name b) (b_shape b) (set_param (b_params b) k v)
  | BClear k => mkBubble (b_op b) (b_name b) (b_shape b) (erase_param (b_params b) k)
  | BClearParams =>
      mkBubble (b_op b) (b_name b) (b_shape b)
        (filter (fun kv => is_retention (fst kv)) (b_params b))
  | BOp s => mkBubble s (b_name b) (b_shape b) (set_param (b_params b) p_op (tensor_of_string s))
  | BName s => mkBubble (b_op b) s (b_shape b) (set_param (b_params b) p_name (tensor_of_string s))
  | BShape s => mkBubble (b_op b) (b_name b) s (set_param (b_params b) p_shape (tensor_of_ints s))
  | BDtype d => mkBubble (b_op b) (b_name b) (b_shape b) (set_param (b_params b) p_dt (tensor_of_ints [d]))
  | BMove => mkBubble (b_op b) (b_name b) [] (b_params b)
  end.

Definition bbuild (op name shape : list Z) (calls : list bcall) : bubble :=
  fold_left bstep calls (make_bubble op name shape).

(** bubble.cpp 136-149, 170-177 *)
Definition write_param (kv : list Z * tensor plain) : option stream :=
  match serialize_tensor (snd kv) with
  | Some body => Some (w32 (Z.of_nat (length (fst kv))) ++ fst kv ++ body)
  | None => None
  end.

Definition serialize_bubble (b : bubble) : option stream :=
  match seq_opt (map write_param (b_params b)) with
  | Some body => Some (w32 (Z.of_nat (length (b_params b))) ++ body)
  | None => None
  end.

(** bubble.cpp 151-168; [prev] is the tensor object reused by the loop
    (184-188).  The name buffer is zero-initialised. *)
Definition read_param (prev : tensor plain) (s : stream) : rres (list Z * tensor plain) :=
  let (nb, s1) := read_into (uninit 4) s in
  match le_value nb with
  | None => RUndef
  | Some n =>
      let (cs, s2) := read_into (zeros (Z.to_nat n)) s1 in
      match all_some cs with
      | None => RUndef
      | Some k => rbind (externalize_tensor prev s2) (fun v s3 => ROk (k, v) s3)
      end
  end.

Fixpoint read_params (n : nat) (prev : tensor plain) (m : list (list Z * tensor plain)) (s : stream)
  : rres (list (list Z * tensor plain)) :=
  match n with
  | O => ROk m s
  | S k => rbind (read_param prev s) (fun kv s' =>
           read_params k (snd kv) (insert_param m (fst kv) (snd kv)) s')
  end.

Section Externalize.
(** tensor::cast(INT32, v) for a tensor that is not INT32, and tensor::to_int
    (tensor_builder.cpp 117-158): conversions of numbers and text that the
    properties do not depend on; [None] is an exception *)
Variable cast_other : plain -> option (list Z).
Variable to_int : plain -> option Z.

(** tensor_builder.cpp 117-120: INT32 is returned as it is *)
Definition cast_int32 (p : plain) : option (list Z) :=
  if p_dtype p =? 5 then
    match count (p_sizes p) with
    | Some c => Some (ints_of (Z.to_nat c) (p_data p))
    | None => None
    end
  else cast_other p.

(** bubble.cpp 179-214; [old_shape] is m_shape before the call.  operator[]
    inserts an empty tensor for a missing key, on which to_string throws. *)
Definition externalize_bubble (old_shape : list Z) (s : stream) : rres bubble :=
  let (nb, s1) := read_into (uninit 4) s in
  match le_value nb with
  | None => RUndef
  | Some n =>
      rbind (read_params (Z.to_nat n) (simple void_plain) [] s1) (fun m s2 =>
      let str_of k := match find_param m k with Some t => to_string t | None => None end in
      match str_of p_op, str_of p_name with
      | Some op, Some name =>
          let count_ok := match find_param m p_outcount with
                          | None => true
                          | Some t => match to_int (t_head t) with Some 1 => true | _ => false end
                          end in
          if count_ok then
            match find_param m p_shape with
            | None => ROk (mkBubble op name old_shape m) s2
            | Some t =>
                match cast_int32 (t_head t) with
                | None => RErr
                | Some l => if 7 <? Z.of_nat (length l) then RUndef
                            else ROk (mkBubble op name l m) s2
                end
            end
          else RErr
      | _, _ => RErr
      end)
  end.
End Externalize.
