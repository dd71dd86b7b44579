(** Model of HardMemory (src/core/hard_memory.cpp) on the allocator that
    VatMemoryController::alloc gives to it (src/memory/flow.cpp 36-59), and of
    the pattern fill (src/core/memory.cpp 124-144). *)
From Coq Require Import ZArith List Bool Arith.
From Verif Require Import VatModel.
Import ListNotations.
Local Open Scope Z_scope.

(** the calls made on the pool *)
Definition calls := list (op * reply).

(** flow.cpp 36-59: [Some p] is the pointer returned, [None] inside means that
    an exception leaves the function *)
Definition managed (w : world) (new_size mem mem_size : Z) (sys : option Z)
  : option (calls * option Z * world) :=
  let malloc (before : calls) (w1 : world) :=
    match step w1 (Malloc new_size sys) with
    | None => None
    | Some (a, w2) => Some (before ++ [(Malloc new_size sys, a)],
                            match a with Ptr p => Some p | _ => None end, w2)
    end in
  if new_size =? 0 then
    match step w (Free mem) with
    | None => None
    | Some (a, w1) => Some ([(Free mem, a)], match a with Throw => None | _ => Some 0 end, w1)
    end
  else if negb (mem =? 0) then
    if 0 <? mem_size then Some ([], None, w)
    else match step w (Free mem) with
         | None => None
         | Some (Throw, w1) => Some ([(Free mem, Throw)], None, w1)
         | Some (a, w1) => malloc [(Free mem, a)] w1
         end
  else malloc [] w.

(** hard_memory.h: m_data, m_capacity; m_allocator is the managed one *)
Record hard := mkHard { h_data : Z; h_cap : Z }.
Definition new_hard : hard := mkHard 0 0.

Inductive hop :=
| HResize (size : Z) (sys : option Z)     (* 65-71 *)
| HExpect (size : Z) (sys : option Z)     (* 49-55 *)
| HShrink (size : Z) (sys : option Z)     (* 57-63 *)
| HDispose.                               (* 44-47 *)

(** [true] when the call returned, [false] when it threw *)
Definition assign (h : hard) (size : Z) (r : option (calls * option Z * world)) : option (calls * bool * hard * world) :=
  match r with
  | None => None
  | Some (c, Some p, w) => Some (c, true, mkHard p size, w)
  | Some (c, None, w) => Some (c, false, h, w)
  end.
Definition hard_step (w : world) (h : hard) (o : hop) : option (calls * bool * hard * world) :=
  match o with
  | HResize size sys =>
      if negb (size =? h_cap h) then assign h size (managed w size (h_data h) 0 sys) else Some ([], true, h, w)
  | HExpect size sys =>
      if h_cap h <? size then assign h size (managed w size (h_data h) (h_cap h) sys) else Some ([], true, h, w)
  | HShrink size sys =>
      if size <? h_cap h then assign h size (managed w size (h_data h) (h_cap h) sys) else Some ([], true, h, w)
  | HDispose => assign h (h_cap h) (managed w 0 (h_data h) 0 None)
  end.

(** A memory used among other users of the pool. *)
Inductive mop := Memory (o : hop) | Other (o : op).
Definition mem_step (w : world) (h : hard) (o : mop) : option (calls * bool * hard * world) :=
  match o with
  | Memory o => hard_step w h o
  | Other o => match step w o with
               | None => None
               | Some (a, w1) => Some ([(o, a)], match a with Throw => false | _ => true end, h, w1)
               end
  end.
Fixpoint mem_steps (w : world) (h : hard) (l : list mop) : option (calls * list bool * hard * world) :=
  match l with
  | [] => Some ([], [], h, w)
  | o :: r => match mem_step w h o with
              | None => None
              | Some (c, b, h1, w1) =>
                  match mem_steps w1 h1 r with
                  | None => None
                  | Some (cs, bs, h2, w2) => Some (c ++ cs, b :: bs, h2, w2)
                  end
              end
  end.

(** 40-42: the destructor; [false]: it throws, which ends the program *)
Definition destroy (w : world) (h : hard) : option (bool * world) :=
  match managed w 0 (h_data h) 0 None with
  | None => None
  | Some (_, r, w1) => Some (match r with Some _ => true | None => false end, w1)
  end.
