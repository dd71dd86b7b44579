(** Model of the counting pointers that hold the memory of tensors
    (include/core/threadsafe/smart.h), used from one thread.  Variables of type
    Smart are numbered in the order of their construction; an object and its
    counter are numbered in the order of their allocation. *)
From Coq Require Import List ZArith Bool.
Import ListNotations.
Local Open Scope Z_scope.

(** 27-63: Counter; [freed]: it has been deleted (and the object with it, [deletions] times) *)
Record counter := Counter { use_count : Z; freed : bool; deletions : nat }.
(** 187-188: m_mode (65-68), m_counted *)
Inductive mode := SMART | MANUALLY.
Record handle := Handle { h_mode : mode; h_counted : option nat }.
(** variables: [None] after their destruction *)
Record state := State { heap : list counter; vars : list (option handle) }.

Inductive outcome := Next (s : state) | Thrown (s : state) | Undef.

Fixpoint set_at {A} (n : nat) (a : A) (l : list A) : list A :=
  match l, n with [], _ => [] | _ :: t, O => a :: t | x :: t, S n' => x :: set_at n' a t end.

(** a counter that may be touched *)
Definition live (s : state) (c : nat) : option counter :=
  match nth_error (heap s) c with Some k => if freed k then None else Some k | None => None end.
Definition put_counter (s : state) (c : nat) (k : counter) : state := State (set_at c k (heap s)) (vars s).
Definition put_var (s : state) (i : nat) (h : option handle) : state := State (heap s) (set_at i h (vars s)).
Definition add_var (s : state) (h : handle) : state := State (heap s) (vars s ++ [Some h]).

(** 117-125: dispose; the state and the pointer afterwards.  [None]: the
    counter has been deleted before *)
Definition dispose (s : state) (h : handle) : option (state * handle) :=
  match h_mode h, h_counted h with
  | SMART, Some c =>
      match live s c with
      | None => None
      | Some k =>
          let uses := use_count k - 1 in
          if uses <=? 0 then Some (put_counter s c (Counter uses true (S (deletions k))), Handle SMART None)
          else Some (put_counter s c (Counter uses false (deletions k)), h)
      end
  | _, _ => Some (s, h)
  end.

(** 91-98 without the dispose: m_mode and m_counted taken over, counted *)
Definition count_up (s : state) (h : handle) : option state :=
  match h_mode h, h_counted h with
  | SMART, Some c => match live s c with
                     | None => None
                     | Some k => Some (put_counter s c (Counter (use_count k + 1) false (deletions k)))
                     end
  | _, _ => Some s
  end.

Inductive op :=
| Make                          (* 78-82, make_smart *)
| Copy (i : nat)                (* 84-86 *)
| Assign (i j : nat)            (* 88-98 *)
| Move (i : nat)                (* 104-106 *)
| MoveAssign (i j : nat)        (* 108-111 *)
| Destroy (i : nat)             (* 100-102 *)
| Dispose (i : nat)             (* 113-121, called by itself *)
| Weak (i : nat)                (* 148-150 *)
| Strong (i : nat)              (* 152-160 *)
| Use (i : nat).                (* 128-146, 162-165 *)

Definition var (s : state) (i : nat) : option handle := match nth_error (vars s) i with Some h => h | None => None end.

(** a variable that is not there is not in the program: [Undef] *)
Definition step (s : state) (o : op) : outcome :=
  match o with
  | Make => Next (State (heap s ++ [Counter 1 false 0]) (vars s ++ [Some (Handle SMART (Some (length (heap s))))]))
  | Copy i => match var s i with
              | None => Undef
              | Some h => match count_up s h with Some s' => Next (add_var s' h) | None => Undef end
              end
  | Assign i j =>
      match var s i, var s j with
      | Some h, Some g =>
          if Nat.eqb i j then Next s else
          match dispose s h with
          | None => Undef
          | Some (s1, _) => match count_up s1 g with Some s2 => Next (put_var s2 i (Some g)) | None => Undef end
          end
      | _, _ => Undef
      end
  | Move i => match var s i with
              | None => Undef
              | Some h => Next (add_var (put_var s i (Some (Handle MANUALLY None))) h)
              end
  | MoveAssign i j =>
      match var s i, var s j with
      | Some h, Some g => Next (put_var (put_var s i (Some g)) j (Some h))
      | _, _ => Undef
      end
  | Destroy i => match var s i with
                 | None => Undef
                 | Some h => match dispose s h with Some (s', _) => Next (put_var s' i None) | None => Undef end
                 end
  | Dispose i => match var s i with
                 | None => Undef
                 | Some h => match dispose s h with Some (s', h') => Next (put_var s' i (Some h')) | None => Undef end
                 end
  | Weak i => match var s i with None => Undef | Some h => Next (add_var s (Handle MANUALLY (h_counted h))) end
  | Strong i =>
      match var s i with
      | None => Undef
      | Some h =>
          match h_counted h with
          | None => Thrown s
          | Some c =>
              match live s c with
              | None => Undef
              | Some k => if use_count k <=? 0 then Thrown s else
                          Next (add_var (put_counter s c (Counter (use_count k + 1) false (deletions k))) (Handle SMART (Some c)))
              end
          end
      end
  | Use i => match var s i with
             | None => Undef
             | Some h => match h_counted h with
                         | None => Thrown s
                         | Some c => match live s c with Some _ => Next s | None => Undef end
                         end
             end
  end.

(** a history; exceptions are caught *)
Fixpoint history (s : state) (l : list op) : outcome :=
  match l with
  | [] => Next s
  | o :: rest => match step s o with Next s' | Thrown s' => history s' rest | Undef => Undef end
  end.
Definition start : state := State [] [].

(** *** Two threads: use_count is a plain int (59) *)
Inductive micro := Load (t : nat) | StoreInc (t : nat) | StoreDec (t : nat).
(** the count and the value each thread has loaded *)
Definition mstep (s : Z * (nat -> Z)) (m : micro) : Z * (nat -> Z) :=
  let (n, r) := s in
  match m with
  | Load t => (n, fun u => if Nat.eqb u t then n else r u)
  | StoreInc t => (r t + 1, r)
  | StoreDec t => (r t - 1, r)
  end.
Definition mrun (n : Z) (l : list micro) : Z := fst (fold_left mstep l (n, fun _ => 0)).
(** a copy (m_counted->use_count++) and a destruction (--m_counted->use_count) *)
Definition copies (t : nat) : list micro := [Load t; StoreInc t].
Definition destroys (t : nat) : list micro := [Load t; StoreDec t].
