(** Model of hardware memories on a plain allocator: src/core/hard_memory.cpp
    (14-90), the CPU allocator src/kernels/cpu/memory_cpu.cpp 14-33 and the
    allocators made by HardAllocator::RegisterV2 (src/global/hard_allocator.cpp
    46-78) from a pair of functions.

    Simplifications: a block obtained from the system has a name of its own, never
    given out again; a byte that was never written is None; the device is left
    out; borrowed memories appear only as what a move leaves behind; moving a
    std::function leaves it empty (libstdc++). *)
From Coq Require Import List Arith ZArith Bool.
Import ListNotations.

Definition bytes := list (option Z).
(** m_data (0 is nullptr), m_capacity, and whether m_allocator is set *)
Record hard := Hard { data : nat; cap : nat; owns : bool }.
Record st := St { next : nat; blk : nat -> option bytes; mem : nat -> option hard }.
Definition upd {A} (f : nat -> A) (n : nat) (a : A) : nat -> A := fun m => if Nat.eqb m n then a else f m.
Definition with_blk (s : st) (p : nat) (b : option bytes) : st := St (next s) (upd (blk s) p b) (mem s).
Definition with_mem (s : st) (i : nat) (h : option hard) : st := St (next s) (blk s) (upd (mem s) i h).

(** the answer of the system to a request for memory *)
Inductive sys := Fail | InPlace | Moved.
(** what realloc leaves of the bytes *)
Definition fit (l : bytes) (n : nat) : bytes := firstn n l ++ repeat None (n - length l).

Definition fresh (s : st) (b : bytes) : nat * st := (next s, St (S (next s)) (upd (blk s) (next s) (Some b)) (mem s)).
Definition malloc (s : st) (n : nat) (y : sys) : nat * st :=
  match y with Fail => (0, s) | _ => fresh s (repeat None n) end.
(** None: undefined *)
Definition free (s : st) (p : nat) : option st :=
  if Nat.eqb p 0 then Some s else match blk s p with Some _ => Some (with_blk s p None) | None => None end.
Definition realloc (s : st) (p n : nat) (y : sys) : option (nat * st) :=
  match blk s p with
  | None => None
  | Some l =>
      match y with
      | Fail => Some (0, s)
      | InPlace => Some (p, with_blk s p (Some (fit l n)))
      | Moved => Some (fresh (with_blk s p None) (fit l n))
      end
  end.

Inductive answer := Pointer (p : nat) (s : st) | OutOfMemory (s : st) | Undef.
Definition check (r : nat * st) : answer := let (p, s) := r in if Nat.eqb p 0 then OutOfMemory s else Pointer p s.
(** memory_cpu.cpp 14-33 *)
Definition cpu_allocator (s : st) (new_size p mem_size : nat) (y : sys) : answer :=
  if Nat.eqb new_size 0 && Nat.eqb p 0 then Pointer 0 s else
  if Nat.eqb new_size 0 then
    match free s p with Some s1 => Pointer 0 s1 | None => Undef end
  else if negb (Nat.eqb p 0) then
    if negb (Nat.eqb mem_size 0) then
      match realloc s p new_size y with Some r => check r | None => Undef end
    else match free s p with Some s1 => check (malloc s1 new_size y) | None => Undef end
  else check (malloc s new_size y).

(** hard_allocator.cpp 49-55 inside 60-73; [_new] is malloc, throwing when it
    fails, [_delete] is free and the converter is memcpy *)
Definition v2_allocator (s : st) (new_size p mem_size : nat) (y : sys) : answer :=
  if Nat.eqb new_size 0 then
    match free s p with Some s1 => Pointer 0 s1 | None => Undef end
  else if negb (Nat.eqb p 0) then
    if 0 <? mem_size then
      match check (malloc s new_size y) with
      | Pointer q s1 =>
          match blk s1 p with
          | Some l =>
              let n := Nat.min new_size mem_size in
              if n <=? length l then
                let s2 := with_blk s1 q (Some (firstn n l ++ repeat None (new_size - n))) in
                match free s2 p with Some s3 => Pointer q s3 | None => Undef end
              else Undef
          | None => Undef
          end
      | r => r
      end
    else match free s p with Some s1 => check (malloc s1 new_size y) | None => Undef end
  else check (malloc s new_size y).

Inductive kind := Cpu | V2.
Definition allocator (k : kind) := match k with Cpu => cpu_allocator | V2 => v2_allocator end.

Inductive op :=
| New (i : nat)                          (* 14-18 *)
| Resize (i n : nat) (y : sys)           (* 66-72 *)
| Expect (i n : nat) (y : sys)           (* 50-56 *)
| Shrink (i n : nat) (y : sys)           (* 58-64 *)
| Dispose (i : nat)                      (* 45-48 *)
| Write (i k : nat) (v : Z)              (* a store through data() *)
| MoveTo (dst src : nat)                 (* 85-93 *)
| MoveNew (dst src : nat)                (* 81-83 *)
| Swap (i j : nat)                       (* 74-79 *)
| Destroy (i : nat).                     (* 41-43 *)

Inductive result := Fine (s : st) | Throws (s : st) | Broken.

(** m_data = m_allocator(...); m_capacity = size *)
Definition assign (i size : nat) (a : answer) : result :=
  match a with
  | Pointer p s => Fine (with_mem s i (Some (Hard p size true)))
  | OutOfMemory s => Throws s
  | Undef => Broken
  end.
Fixpoint set_nth (l : bytes) (k : nat) (v : option Z) : bytes :=
  match l, k with
  | [], _ => []
  | _ :: r, 0 => v :: r
  | x :: r, S k => x :: set_nth r k v
  end.
Definition moved (h : hard) : hard := Hard (data h) (cap h) false.

(** calls on objects that do not exist, or exist already, are not made *)
Definition step (k : kind) (s : st) (o : op) : result :=
  match o with
  | New i => match mem s i with None => Fine (with_mem s i (Some (Hard 0 0 true))) | Some _ => Fine s end
  | Resize i n y =>
      match mem s i with
      | None => Fine s
      | Some h => if negb (owns h) then Throws s else
                  if negb (Nat.eqb n (cap h)) then assign i n (allocator k s n (data h) 0 y) else Fine s
      end
  | Expect i n y =>
      match mem s i with
      | None => Fine s
      | Some h => if negb (owns h) then Throws s else
                  if cap h <? n then assign i n (allocator k s n (data h) (cap h) y) else Fine s
      end
  | Shrink i n y =>
      match mem s i with
      | None => Fine s
      | Some h => if negb (owns h) then Throws s else
                  if n <? cap h then assign i n (allocator k s n (data h) (cap h) y) else Fine s
      end
  | Dispose i =>
      match mem s i with
      | None => Fine s
      | Some h => if owns h then
                    match allocator k s 0 (data h) 0 Moved with
                    | Pointer _ s1 => Fine (with_mem s1 i (Some (Hard 0 (cap h) true)))
                    | OutOfMemory s1 => Throws s1
                    | Undef => Broken
                    end
                  else Fine (with_mem s i (Some (Hard 0 (cap h) false)))
      end
  | Write i j v =>
      match mem s i with
      | None => Fine s
      | Some h => if j <? cap h then
                    match blk s (data h) with
                    | Some l => if j <? length l then Fine (with_blk s (data h) (Some (set_nth l j (Some v)))) else Broken
                    | None => Broken
                    end
                  else Fine s
      end
  | MoveTo d b =>
      match mem s d, mem s b with
      | Some _, Some h => if Nat.eqb d b then Fine s else Fine (with_mem (with_mem s d (Some h)) b (Some (moved h)))
      | _, _ => Fine s
      end
  | MoveNew d b =>
      match mem s d, mem s b with
      | None, Some h => Fine (with_mem (with_mem s d (Some h)) b (Some (moved h)))
      | _, _ => Fine s
      end
  | Swap i j =>
      match mem s i, mem s j with
      | Some a, Some b => Fine (with_mem (with_mem s i (Some b)) j (Some a))
      | _, _ => Fine s
      end
  | Destroy i =>
      match mem s i with
      | None => Fine s
      | Some h => if owns h then
                    match allocator k s 0 (data h) 0 Moved with
                    | Pointer _ s1 => Fine (with_mem s1 i None)
                    | OutOfMemory s1 => Throws s1
                    | Undef => Broken
                    end
                  else Fine (with_mem s i None)
      end
  end.

Fixpoint play (k : kind) (s : st) (l : list op) : result :=
  match l with
  | [] => Fine s
  | o :: r => match step k s o with Fine s1 | Throws s1 => play k s1 r | Broken => Broken end
  end.
Definition start : st := St 1 (fun _ => None) (fun _ => None).
