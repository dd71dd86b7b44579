(** Model of the choice of the library for the instructions a machine has:
    src/utils/cpu_info.cpp 92-172, src/runtime/switcher.cpp 43-51 and 150-262,
    src/runtime/workbench.cpp 83-104 and 107-125, src/api/plugin.cpp 30-48,
    src/global/operator_factory.cpp 42-53, and the instructions each library is
    compiled for: cmake/tools.cmake 45-69 (not MSVC), CMakeLists.txt 344-362.

    Simplifications: one thread at a time (auto_switch holds a lock); an x86
    machine; the registers are those of cpuid leaf 1, leaf 7 and of xgetbv; an
    instruction set is a name; a table of operators is an abstract value; the
    contexts of devices are left out. *)
From Coq Require Import ZArith Bool List.
From Verif Require Import ShapeModel KernelBase.
Import ListNotations.
Local Open Scope Z_scope.

Record registers := Registers { ecx1 : Z; edx1 : Z; ebx7 : Z; xcr0 : Z }.
Inductive feature := SSE | SSE2 | AVX | AVX2 | FMA.

(** cpu_info.cpp 112-141 *)
Definition bit (w k : Z) : bool := Z.testbit w k.
Definition have_avx (r : registers) : bool := bit (ecx1 r) 27 && (Z.land (xcr0 r) 6 =? 6) && bit (ecx1 r) 28.
(** 145-172 *)
Definition check_cpu_feature (r : registers) (f : feature) : bool :=
  match f with
  | SSE => bit (edx1 r) 25
  | SSE2 => bit (edx1 r) 26
  | AVX => have_avx r
  | AVX2 => have_avx r && bit (ebx7 r) 5
  | FMA => have_avx r && bit (ecx1 r) 12
  end.

Inductive library := Haswell | SandyBridge | Pentium.
(** switcher.cpp 171-206 *)
Definition choose (r : registers) : option library :=
  if forallb (check_cpu_feature r) [AVX; FMA] then Some Haswell
  else if forallb (check_cpu_feature r) [AVX] then Some SandyBridge
  else if forallb (check_cpu_feature r) [SSE; SSE2] then Some Pentium
  else None.
(** tools.cmake 58, 61, 64: what the compiler may use, and CMakeLists.txt 344-362:
    what the sources use *)
Definition compiled_for (l : library) : list feature :=
  match l with Haswell => [AVX; AVX2; FMA] | SandyBridge => [AVX; AVX2] | Pentium => [SSE; SSE2] end.
(** workbench.cpp 83-104, for a main library that is built like [l]; None: no
    instructions were asked for *)
Definition main_suffices (r : registers) (main : option library) : bool :=
  forallb (check_cpu_feature r) (match main with Some Haswell => [FMA; AVX] | Some SandyBridge => [AVX] | Some Pentium => [SSE; SSE2] | None => [] end).

Section Switch.
Context {T : Type}.
Variable r : registers.
(** is the library found beside this one; is it found by its name *)
Variables beside by_name : library -> bool.
(** the table of operators of a library *)
Variable creators : library -> T.

(** m_is_loaded, m_pre_creator_map, the table in use *)
Record state := State { loaded : option library; previous : option T; table : T }.
(** 163-217 *)
Definition auto_switch (s : state) : state * sres bool :=
  match loaded s with
  | Some _ => (s, SOk true)
  | None =>
      match choose r with
      | None => (s, SErr)
      | Some l => if beside l || by_name l then (State (Some l) (Some (table s)) (creators l), SOk true) else (s, SErr)
      end
  end.
(** workbench.cpp 121-123: a workbench is made *)
Definition make_bench (main : option library) (s : state) : state * sres bool :=
  if main_suffices r main then (s, SOk true) else auto_switch s.
(** 228-231, when the process ends: ~Switcher, if there is a switcher *)
Definition finish (s : state) : sres state :=
  match previous s with Some t => SOk (State (loaded s) (previous s) t) | None => SUndef end.
Fixpoint benches (n : nat) (main : option library) (s : state) : state * list (sres bool) :=
  match n with
  | O => (s, [])
  | S n' => let '(s1, o) := make_bench main s in let '(s2, os) := benches n' main s1 in (s2, o :: os)
  end.
End Switch.
