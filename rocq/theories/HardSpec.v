(** What a user sees of memories: each one is a row of bytes of its own. *)
From Coq Require Import List Arith ZArith Bool.
From Verif Require Import HardModel.
Import ListNotations.

(** no entry: there is no such memory, or it was moved from *)
Definition store := nat -> option bytes.
Definition put (b : store) (i : nat) (x : option bytes) : store := fun j => if Nat.eqb j i then x else b j.

(** the first bytes are kept, new ones are undetermined *)
Definition kept (old new : bytes) (n : nat) : Prop :=
  length new = n /\ forall k, k < n -> k < length old -> nth_error new k = nth_error old k.

(** [effect b o b']: the call [o] returned *)
Inductive effect (b : store) : op -> store -> Prop :=
| e_new i : b i = None -> effect b (New i) (put b i (Some []))
| e_same i n y l : b i = Some l -> length l = n -> effect b (Resize i n y) b
| e_resize i n y l new : b i = Some l -> length l <> n -> length new = n -> effect b (Resize i n y) (put b i (Some new))
| e_large i n y l : b i = Some l -> n <= length l -> effect b (Expect i n y) b
| e_expect i n y l new : b i = Some l -> length l < n -> kept l new n -> effect b (Expect i n y) (put b i (Some new))
| e_small i n y l : b i = Some l -> length l <= n -> effect b (Shrink i n y) b
| e_shrink i n y l new : b i = Some l -> n < length l -> kept l new n -> effect b (Shrink i n y) (put b i (Some new))
| e_write i k v l l' : b i = Some l -> k < length l -> length l' = length l -> nth_error l' k = Some (Some v) ->
    (forall j, j <> k -> nth_error l' j = nth_error l j) -> effect b (Write i k v) (put b i (Some l'))
| e_move d i l : d <> i -> b i = Some l -> effect b (MoveTo d i) (put (put b d (Some l)) i None)
| e_move_new d i l : d <> i -> b i = Some l -> effect b (MoveNew d i) (put (put b d (Some l)) i None)
| e_swap i j : effect b (Swap i j) (put (put b i (b j)) j (b i))
| e_destroy i : effect b (Destroy i) (put b i None).
