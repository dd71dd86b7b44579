(** Model of the global registries: src/global/operator_factory.cpp (20-113;
    fp16_operator_factory.cpp is the same text for another map),
    memory_device.cpp (14-44), hard_converter.cpp (20-67); the maps of
    hard_allocator.cpp 16-39, device_admin.cpp and shape_inferer_factory.cpp are
    read and written in the same way as the first one here.

    Simplifications: a std::map is a list of entries with different keys; a
    registered function is a number, an empty std::function is None; device
    types and operator names are strings. *)
From Coq Require Import String List Bool Arith.
Import ListNotations.

Section Map.
Context {K V : Type} (same : K -> K -> bool).
Definition map := list (K * V).
(** find *)
Fixpoint find (m : map) (k : K) : option V :=
  match m with
  | [] => None
  | (k', v) :: r => if same k' k then Some v else find r k
  end.
(** operator[] = *)
Fixpoint assign (m : map) (k : K) (v : V) : map :=
  match m with
  | [] => [(k, v)]
  | (k', v') :: r => if same k' k then (k', v) :: r else (k', v') :: assign r k v
  end.
End Map.
Arguments map : clear implicits.

Definition key := (string * string)%type.
Definition same_key (a b : key) : bool := String.eqb (fst a) (fst b) && String.eqb (snd a) (snd b).
Definition creators := map key (option nat).
Definition memories := map string string.

(** operator_factory.cpp 24-33 *)
Definition query (c : creators) (device name : string) : option nat :=
  match find same_key c (device, name) with Some f => f | None => None end.
(** 35-41 *)
Definition register (c : creators) (device name : string) (f : option nat) : creators := assign same_key c (device, name) f.
(** 43-46: a copy *)
Definition get_map (c : creators) : creators := c.
(** 48-54 *)
Definition flush (saved : creators) : creators := fold_left (fun m kv => assign same_key m (fst kv) (snd kv)) saved [].
(** 105-113 *)
Definition all_keys (c : creators) : list key := List.map fst c.

(** memory_device.cpp 15-22: None is NoMemoryDeviceException *)
Definition memory_of (m : memories) (device : string) : option string := find String.eqb m device.

(** 61-84: None is an exception *)
Definition talent_query (c : creators) (m : memories) (device name : string) (strict : bool) : option (option nat) :=
  let creator := query c device name in
  if strict then Some creator else
  match
    match creator with
    | None => match memory_of m device with
              | None => None
              | Some d => Some (query c d name)
              end
    | Some f => Some (Some f)
    end
  with
  | None => None
  | Some None => if String.eqb device "cpu" then Some None else Some (query c "cpu" name)
  | Some (Some f) => Some (Some f)
  end.

(** what a caller sees; an exception leaving a noexcept function ends the process *)
Inductive seen := Made (op : nat) | NoOperator | NotFound | Terminates.
(** [run f]: what the creator returns; None is a null operator *)
Definition create_no_exception (run : nat -> option nat) (c : creators) (m : memories) (device name : string) (strict : bool) : seen :=
  match talent_query c m device name strict with
  | None => Terminates
  | Some None => NoOperator
  | Some (Some f) => match run f with Some op => Made op | None => NoOperator end
  end.
(** 98-103 *)
Definition create (run : nat -> option nat) (c : creators) (m : memories) (device name : string) (strict : bool) : seen :=
  match create_no_exception run c m device name strict with
  | NoOperator => NotFound
  | r => r
  end.

(** a history of the operator registry; Save keeps a copy, Restore i flushes the
    i-th copy *)
Inductive event := Register (device name : string) (f : option nat) | Clear | Save | Restore (i : nat).
Definition state := (creators * list creators)%type.
Definition happen (s : state) (e : event) : state :=
  let (c, saved) := s in
  match e with
  | Register d n f => (register c d n f, saved)
  | Clear => ([], saved)
  | Save => (c, saved ++ [get_map c])
  | Restore i => (flush (nth i saved []), saved)
  end.
Definition after (h : list event) : state := fold_left happen h ([], []).
Definition now (h : list event) : creators := fst (after h).

(** hard_converter.cpp: a map of maps *)
Definition converters := map string (map string (option nat)).
(** 20-33 *)
Definition convert_query (c : converters) (dst src : string) : option nat :=
  match find String.eqb c dst with
  | Some m => match find String.eqb m src with Some f => f | None => None end
  | None => None
  end.
(** 35-48 *)
Definition convert_register (c : converters) (dst src : string) (f : option nat) : converters :=
  match find String.eqb c dst with
  | Some m => assign String.eqb c dst (assign String.eqb m src f)
  | None => assign String.eqb c dst [(src, f)]
  end.
(** 55-67 *)
Definition convert_keys (c : converters) : list key :=
  flat_map (fun e => List.map (fun g => (fst e, fst g)) (snd e)) c.
