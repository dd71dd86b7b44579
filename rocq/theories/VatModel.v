(** Model of the pooled allocator Vat (src/memory/orz/vat.cpp, pot.cpp) above a
    system allocator, of the allocator VatMemoryController hands to memories
    (src/memory/flow.cpp 36-59) and of HardMemory (src/core/hard_memory.cpp).

    Addresses and sizes are integers.  The system allocator keeps a list of
    live regions (address, size).  A Pot refers to its region through a
    shared_ptr: a region is given back when the last Pot referring to it is
    gone.  [None] is undefined behaviour (an index outside the idle list, or a
    region given back that is not live).  Not modelled: the sizes of the tables
    themselves ([int(heap.size())] does not overflow), moving a Vat. *)
From Coq Require Import ZArith List Bool Arith.
Import ListNotations.
Local Open Scope Z_scope.

Definition region : Type := Z * Z.

(** pot.h 41-46; [data] is 0 for a null pointer *)
Record pot := mkPot { data : Z; cap : Z; used : Z }.
Definition empty_pot : pot := mkPot 0 0 0.                             (* pot.cpp 20-22 *)
Definition region_of (p : pot) : region := (data p, cap p).

(** pot.cpp 24-31.  [sys] is the address the system allocator answers when it
    is asked, [None] when it throws.  Also tells whether it was asked. *)
Definition pot_malloc (p : pot) (size : Z) (sys : option Z) : option (pot * bool) :=
  if size >? cap p
  then match sys with
       | Some a => Some (mkPot a size size, true)
       | None => None
       end
  else Some (mkPot (data p) (cap p) size, false).

(** vat.h 61-69: m_heap, m_dict, m_deprecated *)
Record vat := mkVat { heap : list pot; dict : list (Z * pot); is_deprecated : bool }.
Definition new_vat : vat := mkVat [] [] false.

(** heap[i].capacity() *)
Definition cap_at (h : list pot) (i : Z) : option Z :=
  if i <? 0 then None else option_map cap (nth_error h (Z.to_nat i)).

(** vat.cpp 25-39 *)
Fixpoint bfind (fuel : nat) (h : list pot) (size left right : Z) : option Z :=
  match fuel with
  | O => None
  | S k =>
      if right - left <=? 0 then Some left
      else
        let middle := (left + right) / 2 in
        match cap_at h middle with
        | None => None
        | Some c =>
            if c <? size then bfind k h size (middle + 1) right
            else if 0 <? middle then
              match cap_at h (middle - 1) with
              | None => None
              | Some c' => if c' >=? size then bfind k h size left (middle - 1) else Some middle
              end
            else Some middle
        end
  end.
(** 43-45 *)
Definition binary_find (h : list pot) (size : Z) : option Z :=
  bfind (length h + 1) h size 0 (Z.of_nat (length h) - 1).

Definition remove_at (h : list pot) (i : nat) : list pot := firstn i h ++ skipn (S i) h.
Definition insert_at (h : list pot) (i : nat) (p : pot) : list pot := firstn i h ++ p :: skipn i h.

Fixpoint lookup (d : list (Z * pot)) (key : Z) : option pot :=
  match d with
  | [] => None
  | (k, p) :: r => if key =? k then Some p else lookup r key
  end.
Fixpoint erase (d : list (Z * pot)) (key : Z) : list (Z * pot) :=
  match d with
  | [] => []
  | (k, p) :: r => if key =? k then r else (k, p) :: erase r key
  end.
(** unordered_map::insert: an existing entry stays *)
Definition dict_insert (d : list (Z * pot)) (key : Z) (p : pot) : list (Z * pot) :=
  match lookup d key with Some _ => d | None => (key, p) :: d end.

(** std::sort by capacity (which of several equal orders is unspecified) *)
Fixpoint sort_insert (p : pot) (l : list pot) : list pot :=
  match l with
  | [] => [p]
  | q :: r => if cap p <=? cap q then p :: q :: r else q :: sort_insert p r
  end.
Definition sort_pots (l : list pot) : list pot := fold_right sort_insert [] l.

(** ** The world: the pool and the system allocator's live regions *)
Record world := mkWorld { pool : vat; live : list region }.
Definition new_world : world := mkWorld new_vat [].

(** the Pots that exist *)
Definition pots (v : vat) : list pot := heap v ++ map snd (dict v).

Definition region_eqb (a b : region) : bool := (fst a =? fst b) && (snd a =? snd b).
(** the system takes one region back *)
Fixpoint take_back (l : list region) (r : region) : option (list region) :=
  match l with
  | [] => None
  | x :: t => if region_eqb x r then Some t else option_map (cons x) (take_back t r)
  end.
(** the shared_ptrs of [before] that have no other owner in [after] let go of
    their regions, each once; an empty Pot refers to nothing *)
Definition refers (ps : list pot) (r : region) : bool := existsb (fun p => region_eqb (region_of p) r) ps.
Fixpoint let_go (before after : list pot) (l : list region) : option (list region) :=
  match before with
  | [] => Some l
  | p :: t =>
      if (data p =? 0) || refers t (region_of p) || refers after (region_of p) then let_go t after l
      else match take_back l (region_of p) with
           | None => None
           | Some l' => let_go t after l'
           end
  end.

Inductive op :=
| Malloc (size : Z) (sys : option Z)
| Free (ptr : Z)
| Reset
| Dispose
| Clean
| Deprecated.

Inductive reply := Ptr (p : Z) | Done | Throw.

(** [before] are the Pots alive during the call *)
Definition finish (a : reply) (before : list pot) (v : vat) (l : list region) : option (reply * world) :=
  match let_go before (pots v) l with
  | None => None
  | Some l' => Some (a, mkWorld v l')
  end.

Definition step (w : world) (o : op) : option (reply * world) :=
  let v := pool w in
  match o with
  | Malloc size sys =>                                                (* 47-62 *)
      if size =? 0 then Some (Ptr 0, w)
      else
        match (match heap v with
               | [] => Some (empty_pot, [])
               | _ => match binary_find (heap v) size with
                      | None => None
                      | Some i => if i <? 0 then None
                                  else match nth_error (heap v) (Z.to_nat i) with
                                       | None => None
                                       | Some p => Some (p, remove_at (heap v) (Z.to_nat i))
                                       end
                      end
               end) with
        | None => None
        | Some (p, h) =>
            match pot_malloc p size sys with
            | None => finish Throw (p :: pots v) (mkVat h (dict v) (is_deprecated v)) (live w)
            | Some (p', asked) =>
                finish (Ptr (data p')) (p :: p' :: pots v)
                       (mkVat h (dict_insert (dict v) (data p') p') (is_deprecated v))
                       (if asked then region_of p' :: live w else live w)
            end
        end
  | Free ptr =>                                                       (* 64-81 *)
      if ptr =? 0 then Some (Done, w)
      else match lookup (dict v) ptr with
           | None => Some (Throw, w)
           | Some p =>
               if is_deprecated v
               then finish Done (pots v) (mkVat (heap v) (erase (dict v) ptr) true) (live w)
               else match binary_find (heap v) (cap p) with
                    | None => None
                    | Some i =>
                        if (i <? 0) || (Z.of_nat (length (heap v)) <? i) then None
                        else finish Done (pots v)
                               (mkVat (insert_at (heap v) (Z.to_nat i) p) (erase (dict v) ptr) false) (live w)
                    end
           end
  | Reset =>                                                          (* 83-89 *)
      finish Done (pots v) (mkVat (sort_pots (heap v ++ map snd (dict v))) [] (is_deprecated v)) (live w)
  | Dispose =>                                                        (* 91-94 *)
      finish Done (pots v) (mkVat [] [] (is_deprecated v)) (live w)
  | Clean =>                                                          (* 113-116 *)
      finish Done (pots v) (mkVat [] (dict v) (is_deprecated v)) (live w)
  | Deprecated =>                                                     (* 118-121 *)
      finish Done (pots v) (mkVat [] (dict v) true) (live w)
  end.

Fixpoint steps (w : world) (l : list op) : option (list reply * world) :=
  match l with
  | [] => Some ([], w)
  | o :: r =>
      match step w o with
      | None => None
      | Some (a, w1) => match steps w1 r with
                        | None => None
                        | Some (as_, w2) => Some (a :: as_, w2)
                        end
      end
  end.

(** 123-132 *)
Definition summary (v : vat) : Z :=
  fold_right (fun p s => cap p + s) 0 (heap v) + fold_right (fun p s => cap (snd p) + s) 0 (dict v).
