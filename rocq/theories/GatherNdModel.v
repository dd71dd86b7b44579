(** Models of three more indexing operators:
    - gatherv2: src/backend/base/base_gatherv2.cpp 20-66 and
      src/kernels/cpu/gatherv2.cpp 14-52;
    - gather_elements: src/backend/base/base_gather_elements.cpp 21-75 and
      src/kernels/cpu/gather_elements.cpp 24-57;
    - scatter_nd: src/backend/base/base_scatter_nd.cpp 5-38 and
      src/kernels/cpu/scatter_nd.cpp 8-24.

    Simplifications: indices are 32-bit integers already (the cast in the
    first two, and the dtype checks, are not modelled); ranks are not limited
    to seven; the element copies through memcpy for other devices are left
    out. *)
From Coq Require Import List ZArith Bool.
From Verif Require Import ShapeModel KernelBase GatherModel.
Import ListNotations.
Local Open Scope Z_scope.

(** ** gatherv2 *)
(** base_gatherv2.cpp 20-35: the number of axes an index addresses, and the
    output shape *)
Definition gathernd_infer (x indices : list Z) : sres (nat * list Z) :=
  if Nat.eqb (length x) 0 || Nat.eqb (length indices) 0 then SErr else
  let a := last indices 0 in
  if Z.of_nat (length x) <? a then SErr
  else SOk (Z.to_nat a, removelast indices ++ skipn (Z.to_nat a) x).

(** gatherv2.cpp 38-42: the row of indices, zeros behind it *)
Definition index_row (idx : list Z) (a rank : nat) (i : Z) : list Z :=
  map (fun k => nth (Z.to_nat (i * Z.of_nat a + k)) idx 0) (upto (Z.of_nat a)) ++ repeat 0 (rank - a).

Definition gathernd_stores {A} (data : list A) (x_shape i_shape : list Z) (a : nat) (idx : list Z) : list (event A) :=
  let number := prod (removelast i_shape) in
  let width := prod (skipn a x_shape) in
  flat_map (fun i =>
    match to_index x_shape (index_row idx a (length x_shape) i) with
    | SOk index => memcpy (i * width) data index width
    | _ => [(0, SUndef)]
    end) (upto number).

Definition gathernd_run {A} (x : tensor A) (indices : tensor Z) : sres (raw_tensor A) :=
  match gathernd_infer (t_shape x) (t_shape indices) with
  | SErr => SErr
  | SUndef => SUndef
  | SOk (a, o) =>
      match exec (fresh (prod o)) (gathernd_stores (t_data x) (t_shape x) (t_shape indices) a (t_data indices)) with
      | SOk m => SOk (Tn (t_dtype x) o m)
      | SErr => SErr
      | SUndef => SUndef
      end
  end.

(** ** gather_elements *)
(** base_gather_elements.cpp 57-62: [x.size(m_axis)] is read in any case *)
Definition fix_all (x : list Z) (m_axis : Z) (indices : list Z) : sres (list Z) :=
  if m_axis <? 0 then SUndef
  else SOk (map (fun v => if v <? 0 then v + nth (Z.to_nat m_axis) x 0 else v) indices).

(** gather_elements.cpp 24-56 *)
Definition elements_stores {A} (data : list A) (x_shape : list Z) (axis : nat) (idx : list Z) : list (event A) :=
  let number := prod (firstn axis x_shape) in
  let width := prod (skipn (S axis) x_shape) in
  flat_map (fun n =>
    map (fun i =>
      match to_index [number; width] [n; i] with
      | SOk out_index =>
          (out_index,
           match load idx out_index with
           | SOk j => match to_index [number; nth axis x_shape 0; width] [n; j; i] with
                      | SOk k => load data k
                      | _ => SUndef
                      end
           | _ => SUndef
           end)
      | _ => (0, SUndef)
      end) (upto width)) (upto number).

Definition gather_elements_run {A} (m_axis : Z) (x : tensor A) (indices : tensor Z) : sres (raw_tensor A) :=
  match gather_axis (t_shape x) m_axis with
  | SErr => SErr
  | SUndef => SUndef
  | SOk axis =>
      match fix_all (t_shape x) m_axis (t_data indices) with
      | SErr => SErr
      | SUndef => SUndef
      | SOk idx =>
          match exec (fresh (prod (t_shape indices))) (elements_stores (t_data x) (t_shape x) axis idx) with
          | SOk m => SOk (Tn (t_dtype x) (t_shape indices) m)
          | SErr => SErr
          | SUndef => SUndef
          end
      end
  end.

(** ** scatter_nd *)
(** scatter_nd.cpp 15-23; [block] is [updates.slice(i).count()] *)
Fixpoint scatter_stores {A} (updates : list A) (block : Z) (i : Z) (idx : list Z) : list (event A) :=
  match idx with
  | [] => []
  | k :: rest => memcpy (k * block) updates (i * block) block ++ scatter_stores updates block (i + 1) rest
  end.

Definition scatter_run {A} (x : tensor A) (indices : tensor Z) (updates : tensor A) : sres (raw_tensor A) :=
  if negb (t_dtype x =? t_dtype updates) then SErr else
  match t_shape indices with
  | [] => SUndef
  | n :: _ =>
      match t_shape updates with
      | [] => if 0 <? n then SUndef else SOk (Tn (t_dtype x) (t_shape x) (map Some (t_data x)))
      | _ :: rest =>
          if Z.of_nat (length (t_data indices)) <? n then SUndef else
          match exec (fresh (prod (t_shape x)))
                  (memcpy 0 (t_data x) 0 (prod (t_shape x)) ++
                   scatter_stores (t_data updates) (prod rest) 0 (firstn (Z.to_nat n) (t_data indices))) with
          | SOk m => SOk (Tn (t_dtype x) (t_shape x) m)
          | SErr => SErr
          | SUndef => SUndef
          end
      end
  end.
