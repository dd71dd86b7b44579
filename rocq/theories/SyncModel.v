(** Model of SyncBlock (include/core/sync/sync_block.h 17-208): one value kept
    on several keys (devices), seen through any number of handles (the block
    and its views).  All handles share the map of values (Param); a handle
    holds its default key and a pointer to its default value, which is a node
    of the map.

    Every public operation runs under the readers/writer lock (sync takes it
    twice and looks the key up again, 84-99, 157-166), so an operation is one
    step.  A pointer to a map node that has been erased dangles: using it is
    [None] (undefined). *)
From Coq Require Import List Bool Arith.
Import ListNotations.

Section SyncModel.
Context {V : Type}.
(** the handler: copy from one device to another *)
Variable convert : V -> nat -> nat -> V.

Record handle := mkHandle { h_key : nat; h_cell : nat }.

Record block := mkBlock {
  heap : list (option V);         (* map nodes ever created; None when erased *)
  values : list (nat * nat);      (* m_sync_values: key -> node *)
  handles : list handle;
  copies : list nat               (* keys the handler was called for *)
}.

Fixpoint set_cell (l : list (option V)) (i : nat) (x : option V) : list (option V) :=
  match l, i with
  | [], _ => []
  | _ :: r, O => x :: r
  | y :: r, S i' => y :: set_cell r i' x
  end.

Definition deref (b : block) (p : nat) : option V :=
  match nth_error (heap b) p with Some v => v | None => None end.

Fixpoint find (m : list (nat * nat)) (k : nat) : option nat :=
  match m with
  | [] => None
  | (k', p) :: r => if k =? k' then Some p else find r k
  end.

(** 31-37, 39-46: the constructor *)
Definition make (k : nat) (v : V) : block := mkBlock [Some v] [(k, 0)] [mkHandle k 0] [].

(** 84-99, 157-166: the node for [key] *)
Definition lookup_or_copy (b : block) (h : handle) (key : nat) : option (nat * block) :=
  if key =? h_key h then Some (h_cell h, b)
  else match find (values b) key with
       | Some p => Some (p, b)
       | None =>
           match deref b (h_cell h) with
           | None => None
           | Some v =>
               let p := length (heap b) in
               Some (p, mkBlock (heap b ++ [Some (convert v (h_key h) key)])
                                (values b ++ [(key, p)]) (handles b) (copies b ++ [key]))
           end
       end.

Inductive op :=
| OSync (h key : nat)         (* handles[h]->sync(key), and read what it refers to *)
| OValue (h : nat)            (* value() *)
| OView (h key : nat)         (* view(key): a new handle *)
| OWrite (h key : nat) (v : V)(* sync(key) = v *)
| OBroadcast (h : nat).

Inductive answer := AValue (v : V) | ANone.

Definition add_handle (b : block) (h : handle) : block :=
  mkBlock (heap b) (values b) (handles b ++ [h]) (copies b).

(** erasing all nodes of the map *)
Definition erase_all (b : block) : list (option V) :=
  fold_left (fun hp kp => set_cell hp (snd kp) None) (values b) (heap b).

Definition step (b : block) (o : op) : option (answer * block) :=
  match o with
  | OSync i key =>
      match nth_error (handles b) i with
      | None => None
      | Some h => match lookup_or_copy b h key with
                  | None => None
                  | Some (p, b1) => match deref b1 p with
                                    | None => None
                                    | Some v => Some (AValue v, b1)
                                    end
                  end
      end
  | OValue i =>                                            (* 105-108 *)
      match nth_error (handles b) i with
      | None => None
      | Some h => match deref b (h_cell h) with
                  | None => None
                  | Some v => Some (AValue v, b)
                  end
      end
  | OView i key =>                                         (* 110-137 *)
      match nth_error (handles b) i with
      | None => None
      | Some h => match lookup_or_copy b h key with
                  | None => None
                  | Some (p, b1) => Some (ANone, add_handle b1 (mkHandle key p))
                  end
      end
  | OWrite i key v =>
      match nth_error (handles b) i with
      | None => None
      | Some h => match lookup_or_copy b h key with
                  | None => None
                  | Some (p, b1) =>
                      match deref b1 p with
                      | None => None
                      | Some _ => Some (ANone, mkBlock (set_cell (heap b1) p (Some v)) (values b1)
                                                       (handles b1) (copies b1))
                      end
                  end
      end
  | OBroadcast i =>                                        (* 139-147 *)
      match nth_error (handles b) i with
      | None => None
      | Some h =>
          match deref b (h_cell h) with
          | None => None
          | Some v =>
              let p := length (heap b) in
              let hs := map (fun jh => if fst jh =? i then mkHandle (h_key h) p else snd jh)
                            (combine (seq 0 (length (handles b))) (handles b)) in
              Some (ANone, mkBlock (erase_all b ++ [Some v]) [(h_key h, p)] hs (copies b))
          end
      end
  end.

Fixpoint steps (b : block) (l : list op) : option (list answer * block) :=
  match l with
  | [] => Some ([], b)
  | o :: r => match step b o with
              | None => None
              | Some (a, b1) => match steps b1 r with
                                | None => None
                                | Some (as_, b2) => Some (a :: as_, b2)
                                end
              end
  end.
End SyncModel.
Arguments op V : clear implicits.
Arguments answer V : clear implicits.
Arguments block V : clear implicits.
