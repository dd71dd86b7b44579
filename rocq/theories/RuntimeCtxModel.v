(** Model of RuntimeContext (src/runtime/runtime.cpp 33-131,
    include/runtime/runtime.h 17-58) and of the lines of Workbench that set it up
    and clone it (src/runtime/workbench.cpp 38-40, 106-119, 164-178).

    Thread pools, memory controllers and contexts are numbers that are never
    used twice.  A pool is its size and whether it still exists: it is owned by
    one shared_ptr only (thread_pool() gives a reference, not the pointer), so
    it dies with its owner.  [procs] is omp_get_num_procs() or 8; [env] is what
    std::stoi makes of TENNIS_NUMBER_THREADS.  [blas] is the thread count of
    OpenBLAS, which is one for the whole process (lines 64-69); None: never set.
    The clone of a controller is a new controller for the same device
    (sync_controller.h 97-99); devices are left out. *)
From Coq Require Import List Bool ZArith.
Import ListNotations.
Local Open Scope Z_scope.

Inductive variable := Unset | Number (n : Z) | Unreadable.

Record runtime := Runtime { number : Z; pool : option nat; flow : option nat; dynamic : option nat }.
Record world := World {
  pools : list (Z * bool);              (* size, exists *)
  controllers : nat;                    (* how many were made *)
  blas : option Z;
  runtimes : list (option runtime) }.   (* None: destroyed *)
Definition start : world := World [] 0 None [].

Fixpoint put {A} (l : list A) (a : nat) (c : A) : list A :=
  match l, a with
  | [], _ => []
  | _ :: r, O => c :: r
  | x :: r, S a => x :: put r a c
  end.
Definition find (w : world) (a : nat) : option runtime :=
  match nth_error (runtimes w) a with Some (Some c) => Some c | _ => None end.
Definition set (w : world) (a : nat) (c : option runtime) : world :=
  World (pools w) (controllers w) (blas w) (put (runtimes w) a c).
Definition add (w : world) (c : runtime) : world :=
  World (pools w) (controllers w) (blas w) (runtimes w ++ [Some c]).

(** a pool whose owner lets it go *)
Definition release (w : world) (p : option nat) : world :=
  match p with
  | None => w
  | Some i => match nth_error (pools w) i with
              | Some (s, _) => World (put (pools w) i (s, false)) (controllers w) (blas w) (runtimes w)
              | None => w
              end
  end.
Definition make_pool (w : world) (size : Z) : world * nat :=
  (World (pools w ++ [(size, true)]) (controllers w) (blas w) (runtimes w), length (pools w)).
Definition make_controller (w : world) : world * nat :=
  (World (pools w) (S (controllers w)) (blas w) (runtimes w), controllers w).

Section Machine.
Variable procs : Z.
Variable env : variable.

(** set_computing_thread_number (runtime.cpp 45-70) *)
Definition fixed (n : Z) : Z := if n <? 0 then procs else if n =? 0 then 1 else n.
Definition set_threads (w : world) (c : runtime) (n : Z) : world * runtime :=
  let '(w1, p) := make_pool w (fixed n) in
  let w2 := release w1 (pool c) in
  (World (pools w2) (controllers w2) (Some (fixed n)) (runtimes w2), Runtime (fixed n) (Some p) (flow c) (dynamic c)).

(** RuntimeContext() (34-40); [None]: stoi threw *)
Definition members : runtime := Runtime 1 None None None.
Definition construct (w : world) : option (world * runtime) :=
  match env with
  | Unset => Some (set_threads w members 4)
  | Number n => Some (set_threads w members n)
  | Unreadable => None
  end.
(** RuntimeContext(device) (41-44) *)
Definition construct_on (w : world) : option (world * runtime) :=
  match construct w with
  | None => None
  | Some (w1, c) => let '(w2, f) := make_controller w1 in let '(w3, d) := make_controller w2 in
                    Some (w3, Runtime (number c) (pool c) (Some f) (Some d))
  end.

Definition copy_controller (w : world) (o old : option nat) : world * option nat :=
  match o with None => (w, old) | Some _ => let '(w1, i) := make_controller w in (w1, Some i) end.
(** clone (76-89): a default context whose members are then replaced *)
Definition clone (w : world) (c : runtime) : option (world * runtime) :=
  match construct w with
  | None => None
  | Some (w1, d) =>
      let '(w2, p) := match pool c with
                      | None => (w1, pool d)
                      | Some i => let '(w', q) := make_pool w1 (match nth_error (pools w1) i with Some (s, _) => s | None => 0 end) in
                                  (release w' (pool d), Some q)
                      end in
      let '(w3, y) := copy_controller w2 (dynamic c) (dynamic d) in
      let '(w4, f) := copy_controller w3 (flow c) (flow d) in
      Some (w4, Runtime (number c) p f y)
  end.

Inductive call :=
| New | NewOn
| SetThreads (a : nat) (n : Z)
| Clone (a : nat)
| MoveNew (b : nat)            (* RuntimeContext(self &&): 91-93 *)
| MoveTo (a b : nat)           (* operator=(self &&): 95-101 *)
| BindFlow (a i : nat) | BindDynamic (a i : nat)    (* 107-113 *)
| Pool (a : nat)               (* thread_pool(): 103-105 *)
| Destroy (a : nat).

Inductive result := Done (w : world) | Threw (w : world) | Undef.
Definition with_ (w : world) (a : nat) (f : runtime -> result) : result :=
  match find w a with Some c => f c | None => Undef end.
Definition made (w : world) (r : option (world * runtime)) : result :=
  match r with Some (w', c) => Done (add w' c) | None => Threw w end.

Definition step (w : world) (x : call) : result :=
  match x with
  | New => made w (construct w)
  | NewOn => made w (construct_on w)
  | SetThreads a n => with_ w a (fun c => let '(w', c') := set_threads w c n in Done (set w' a (Some c')))
  | Clone a => with_ w a (fun c => made w (clone w c))
  | MoveNew b => with_ w b (fun cb => Done (set (add w cb) b (Some members)))
  | MoveTo a b => with_ w a (fun ca => with_ w b (fun cb => Done (set (set w a (Some cb)) b (Some ca))))
  | BindFlow a i => with_ w a (fun c => Done (set w a (Some (Runtime (number c) (pool c) (Some i) (dynamic c)))))
  | BindDynamic a i => with_ w a (fun c => Done (set w a (Some (Runtime (number c) (pool c) (flow c) (Some i)))))
  | Pool a => with_ w a (fun c => match pool c with Some _ => Done w | None => Undef end)
  | Destroy a => with_ w a (fun c => Done (set (release w (pool c)) a None))
  end.
Fixpoint history (w : world) (l : list call) : option world :=
  match l with
  | [] => Some w
  | x :: r => match step w x with Done w' | Threw w' => history w' r | Undef => None end
  end.

(** *** The bench *)
Record bench := Bench { runtime_of : nat; flow_memory : nat; dynamic_memory : nat }.
(** Workbench(device) (workbench.cpp 106-119): three controllers are made, of
    which the stack uses m_flow_memory; the runtime gets two of them *)
Definition new_bench (w : world) : option (world * bench) :=
  match construct w with
  | None => None
  | Some (w1, c) =>
      let '(w2, _) := make_controller w1 in      (* m_static_memory *)
      let '(w3, f) := make_controller w2 in
      let '(w4, d) := make_controller w3 in
      let a := length (runtimes w4) in
      Some (add w4 (Runtime (number c) (pool c) (Some f) (Some d)), Bench a f d)
  end.
(** Workbench::clone (164-178) up to the clone of the desktop: the new bench is
    bound, its runtime is then replaced by a clone.  The answer is the world, the
    bench, and the pool that is bound to the thread from here on *)
Definition clone_bench (w : world) (b : bench) : option (world * bench * option nat) :=
  match find w (runtime_of b) with
  | None => None
  | Some c =>
      match new_bench w with
      | None => None
      | Some (w1, dolly) =>
          match find w1 (runtime_of dolly) with
          | None => None
          | Some cd =>
              let bound := pool cd in                                  (* line 169: BindWorkbenchRuntime *)
              match clone w1 c with
              | None => None
              | Some (w2, t) =>
                  (* line 173: the temporary and the member are swapped, then the temporary dies *)
                  let w3 := release (set w2 (runtime_of dolly) (Some t)) (pool cd) in
                  Some (w3, dolly, bound)
              end
          end
      end
  end.
End Machine.
