(** Model of src/core/device_context.cpp (15-72) and
    include/core/device_context.h (16-80), with DeviceAdmin::Query
    (src/global/device_admin.cpp 17-24) and ComputingMemory::Query
    (src/global/memory_device.cpp 15-26).

    What is registered is a parameter: [admins] says which device types have an
    admin function, [gives] whether its initialisation leaves a handle that is
    not null (the one registered in the repository, cuda_context.cpp 13-46, does),
    [memory_of] the memory device registered, [mapped] ArgParser::map_device
    (modelled in ArgModel).  An admin that itself throws is left out.  Handles
    and contexts are numbers that are never used twice (a freed address is not
    modelled as coming back).  One thread: the context bound to it is
    [current]. *)
From Coq Require Import String List Bool ZArith.
Import ListNotations.

Definition device := (string * Z)%type.

(** what the admin functions are called with: the type whose admin it is, the
    device id given, the handle *)
Inductive action := Initialization | Finalization | Activation | Synchronize.
Record event := Event { e_type : string; e_id : Z; e_action : action; e_handle : nat }.

(** the members of a DeviceContext (device_context.h 52-62); [admin] is the type
    whose function m_device_admin holds *)
Record context := Context {
  handle : option nat; origin : option device; computing : option device;
  memory : option device; admin : option string }.
Definition new_context : context := Context None None None None None.

(** contexts by address; [None]: destroyed *)
Record world := World {
  contexts : list (option context); current : option nat; next_handle : nat; log : list event }.
Definition start : world := World [] None 0 [].

Inductive result (A : Type) := Done (a : A) | Threw (w : world) | Undef.
Arguments Done {A} _. Arguments Threw {A} _. Arguments Undef {A}.
Definition then_ {A B} (r : result A) (f : A -> result B) : result B :=
  match r with Done a => f a | Threw w => Threw w | Undef => Undef end.

Definition find (w : world) (a : nat) : option context :=
  match nth_error (contexts w) a with Some (Some c) => Some c | _ => None end.
Fixpoint put {A} (l : list A) (a : nat) (c : A) : list A :=
  match l, a with
  | [], _ => []
  | _ :: r, O => c :: r
  | x :: r, S a => x :: put r a c
  end.
Definition set (w : world) (a : nat) (c : context) : world :=
  World (put (contexts w) a (Some c)) (current w) (next_handle w) (log w).
Definition say (w : world) (e : event) : world :=
  World (contexts w) (current w) (next_handle w) (log w ++ [e]).

(** DeviceType and id of a context; a context that has a handle has a device *)
Definition id_of (c : context) : Z := match computing c with Some (_, i) => i | None => 0%Z end.

Section Registered.
Variable admins : string -> bool.
Variable gives : string -> Z -> bool.
Variable memory_of : string -> option string.
Variable mapped : string -> string.
(** whether a std::function that was moved from still holds its target: the
    standard leaves it open *)
Variable keeps : bool.

(** finalize, active and synchronize (device_context.cpp 37-54): nothing unless
    both the admin and the handle are there *)
Definition finalize (w : world) (c : context) : world * context :=
  match admin c, handle c with
  | Some t, Some h => (say w (Event t (id_of c) Finalization h),
                       Context None (origin c) (computing c) (memory c) (admin c))
  | _, _ => (w, c)
  end.
Definition tell (x : action) (w : world) (c : context) : world :=
  match admin c, handle c with
  | Some t, Some h => say w (Event t (id_of c) x h)
  | _, _ => w
  end.

(** initialize (device_context.cpp 19-28): the new device and the new admin are
    stored first, then the old handle is finalised *)
Definition initialize (w : world) (a : nat) (c : context) (d : device) : result world :=
  let c1 := Context (handle c) (origin c) (Some d) (memory c) (admin c) in
  match memory_of (fst d) with
  | None => Threw (set w a c1)
  | Some m =>
      let q := if admins (fst d) then Some (fst d) else None in
      let c2 := Context (handle c) (origin c) (Some d) (Some (m, snd d)) q in
      let '(w1, c3) := finalize w c2 in
      match q with
      | None => Done (set w1 a c3)
      | Some t =>
          if gives t (snd d)
          then let h := next_handle w1 in
               let w2 := World (contexts w1) (current w1) (S h) (log w1 ++ [Event t (snd d) Initialization h]) in
               Done (set w2 a (Context (Some h) (origin c3) (computing c3) (memory c3) (admin c3)))
          else Done (set w1 a c3)
      end
  end.

(** initialize_v2 (31-36) *)
Definition initialize_v2 (w : world) (a : nat) (c : context) (d : device) : result world :=
  initialize w a (Context (handle c) (Some d) (computing c) (memory c) (admin c)) (mapped (fst d), snd d).

Inductive call :=
| New                        (* DeviceContext(): device_context.h 21 *)
| NewOn (d : device)         (* DeviceContext(device): cpp 56-58 *)
| Initialize (a : nat) (d : device)
| InitializeV2 (a : nat) (d : device)
| Finalize (a : nat)
| Active (a : nat)
| Synchronise (a : nat)
| Switch (c : option nat)    (* cpp 60-70 *)
| MoveNew (b : nat)          (* DeviceContext(self &&): h 65-67 *)
| MoveTo (a b : nat)         (* operator=(self &&): h 68-76 *)
| Destroy (a : nat).         (* cpp 15-17 *)

Definition add (w : world) (c : context) : world :=
  World (contexts w ++ [Some c]) (current w) (next_handle w) (log w).
Definition drop (w : world) (a : nat) : world :=
  World (put (contexts w) a None) (current w) (next_handle w) (log w).
Definition with_context (w : world) (a : nat) (f : context -> result world) : result world :=
  match find w a with Some c => f c | None => Undef end.

(** operator=(self &&): handle, computing_device, memory_device and the admin are
    moved; a moved pointer keeps its value; origin_device is not mentioned *)
Definition move (w : world) (a b : nat) : result world :=
  if a =? b then with_context w a (fun _ => Done w) else
  with_context w a (fun ca => with_context w b (fun cb =>
    let w1 := set w a (Context (handle cb) (origin ca) (computing cb) (memory cb) (admin cb)) in
    Done (set w1 b (Context (handle cb) (origin cb) (computing cb) (memory cb) (if keeps then admin cb else None))))).

(** Switch: the context left is synchronised, the one entered activated *)
Definition switch (w : world) (c : option nat) : result world :=
  let leave w := match current w with
    | None => Done w
    | Some p => if match c with Some x => p =? x | None => false end then Done w
                else with_context w p (fun cp => Done (tell Synchronize w cp))
    end in
  let enter w := match c with
    | None => Done w
    | Some x => with_context w x (fun cx => Done (tell Activation w cx))
    end in
  then_ (leave w) (fun w1 => then_ (enter w1) (fun w2 =>
    Done (World (contexts w2) c (next_handle w2) (log w2)))).

Definition step (w : world) (x : call) : result world :=
  match x with
  | New => Done (add w new_context)
  | NewOn d => let a := length (contexts w) in
               match initialize (add w new_context) a new_context d with
               | Threw w' => Threw (drop w' a)  (* no object: its destructor does not run *)
               | r => r
               end
  | Initialize a d => with_context w a (fun c => initialize w a c d)
  | InitializeV2 a d => with_context w a (fun c => initialize_v2 w a c d)
  | Finalize a => with_context w a (fun c => let '(w', c') := finalize w c in Done (set w' a c'))
  | Active a => with_context w a (fun c => Done (tell Activation w c))
  | Synchronise a => with_context w a (fun c => Done (tell Synchronize w c))
  | Switch c => switch w c
  | MoveNew b => with_context w b (fun _ => move (add w new_context) (length (contexts w)) b)
  | MoveTo a b => move w a b
  | Destroy a => with_context w a (fun c => let '(w', _) := finalize w c in Done (drop w' a))
  end.

(** a history: calls that throw are caught by the caller, who goes on *)
Fixpoint history (w : world) (l : list call) : option world :=
  match l with
  | [] => Some w
  | x :: r => match step w x with Done w' | Threw w' => history w' r | Undef => None end
  end.
End Registered.
