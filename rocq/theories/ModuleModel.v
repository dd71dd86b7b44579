(** Model of Module::load, graph_walker and sort_inputs
    (src/module/module.cpp 30-190), of Module::Save and Module::Load
    (239-330), of serialize_nodes / externalize_nodes (src/module/menu.cpp
    81-155) and of the file header (src/module/header.cpp, include/module/header.h).

    Simplifications: a module holds one graph (Module::load appends; only the
    first call is modelled); nodes are numbers; unordered sets and maps are
    lists (graph_walker returns the inputs in an unspecified order, here the
    order of discovery). *)
From Coq Require Import String.
From Coq Require Import List ZArith Bool.
From Verif Require Import StackModel GraphSpec GraphModel TensorModel SerialModel.
Import ListNotations.

(** a Graph object: its nodes, their attributes and ordered inputs *)
Record mgraph := mkMG { mg_nodes : list node; mg_bub : node -> bubble; mg_ins : node -> list node }.
Record module := mkModule { m_graph : mgraph; m_inputs : list node; m_outputs : list node }.

Definition mem (n : node) (l : list node) : bool := existsb (Nat.eqb n) l.

Definition op_param := lit "<param>".
Definition op_const := lit "<const>".

Inductive wres := WOk (inputs : list node) | WErr | WFuel.

(** 97-124 *)
Fixpoint walk (fuel : nat) (g : mgraph) (queue walked inputs : list node) : wres :=
  match queue with
  | [] => WOk inputs
  | n :: q =>
      match fuel with
      | O => WFuel
      | S k =>
          if mem n walked then walk k g q walked inputs
          else if negb (mem n (mg_nodes g)) then WErr
          else
            let op := b_op (mg_bub g n) in
            if str_eqb op op_param then walk k g q (n :: walked) (inputs ++ [n])
            else if str_eqb op op_const then walk k g q (n :: walked) inputs
            else match mg_ins g n with
                 | [] => WErr
                 | ins => walk k g (q ++ ins) (n :: walked) inputs
                 end
      end
  end.

Definition sum (l : list nat) : nat := fold_right Nat.add 0 l.

(** enough for every run (each node is expanded at most once) *)
Definition walk_fuel (g : mgraph) (outputs : list node) : nat :=
  length outputs + sum (map (fun n => length (mg_ins g n)) (mg_nodes g)).

(** 89-130 *)
Definition graph_walker (g : mgraph) (outputs : list node) : wres :=
  walk (walk_fuel g outputs) g outputs [] [].

(** 41-47 *)
Definition module_load (g : mgraph) (outputs : list node) : option module :=
  match graph_walker g outputs with
  | WOk inputs => Some (mkModule g inputs outputs)
  | _ => None
  end.

(** 138-146 *)
Definition sort_nodes (m : module) (inputs : list node) : option module :=
  if forallb (fun n => mem n inputs) (m_inputs m)
  then Some (mkModule (m_graph m) inputs (m_outputs m)) else None.

(** 148-158: the name table; [None] when two inputs have the same name *)
Definition name_of (m : module) (n : node) : list Z := b_name (mg_bub (m_graph m) n).

Fixpoint find_name (t : list (list Z * node)) (k : list Z) : option node :=
  match t with
  | [] => None
  | (k', n) :: r => if str_eqb k k' then Some n else find_name r k
  end.

Fixpoint name_table (m : module) (inputs : list node) (t : list (list Z * node))
  : option (list (list Z * node)) :=
  match inputs with
  | [] => Some t
  | n :: r => match find_name t (name_of m n) with
              | Some _ => None
              | None => name_table m r (t ++ [(name_of m n, n)])
              end
  end.

(** 161-170 *)
Fixpoint pick_names (t : list (list Z * node)) (names : list (list Z)) : option (list node) :=
  match names with
  | [] => Some []
  | k :: r => match find_name t k, pick_names t r with
              | Some n, Some l => Some (n :: l)
              | _, _ => None
              end
  end.

(** an unordered_set<Node> filled with the elements of a list *)
Definition node_set (l : list node) : list node := nodup Nat.eq_dec l.

(** 148-186 *)
Definition sort_names (m : module) (names : list (list Z)) : option module :=
  match name_table m (m_inputs m) [] with
  | None => None
  | Some t => match pick_names t names with
              | None => None
              | Some l => if Nat.ltb (length (node_set l)) (length t) then None
                          else Some (mkModule (m_graph m) l (m_outputs m))
              end
  end.

(** 49-87: Module::load with output names.  An entry of the table is the
    found node, if any. *)
Fixpoint found_set (t : list (list Z * option node)) (k : list Z) (n : node)
  : option (list (list Z * option node)) :=
  match t with
  | [] => None
  | (k', v) :: r =>
      if str_eqb k k' then
        match v with Some _ => None | None => Some ((k', Some n) :: r) end
      else match found_set r k n with Some r' => Some ((k', v) :: r') | None => None end
  end.

Fixpoint has_name (t : list (list Z * option node)) (k : list Z) : bool :=
  match t with
  | [] => false
  | (k', _) :: r => str_eqb k k' || has_name r k
  end.

Fixpoint found_table (names : list (list Z)) (t : list (list Z * option node)) :=
  match names with
  | [] => t
  | k :: r => found_table r (if has_name t k then t else t ++ [(k, None)])
  end.

Fixpoint scan_nodes (g : mgraph) (nodes : list node) (t : list (list Z * option node))
  : option (list (list Z * option node)) :=
  match nodes with
  | [] => Some t
  | n :: r => let k := b_name (mg_bub g n) in
              if has_name t k then
                match found_set t k n with
                | Some t' => scan_nodes g r t'
                | None => None                       (* duplicate *)
                end
              else scan_nodes g r t
  end.

Fixpoint get_found (t : list (list Z * option node)) (k : list Z) : option node :=
  match t with
  | [] => None
  | (k', v) :: r => if str_eqb k k' then v else get_found r k
  end.

Fixpoint all_found (t : list (list Z * option node)) (names : list (list Z)) : option (list node) :=
  match names with
  | [] => Some []
  | k :: r => match get_found t k, all_found t r with
              | Some n, Some l => Some (n :: l)
              | _, _ => None
              end
  end.

Definition module_load_names (g : mgraph) (names : list (list Z)) : option module :=
  match scan_nodes g (mg_nodes g) (found_table names []) with
  | None => None
  | Some t =>
      (* 66-77: found_count <> map size *)
      if forallb (fun kv => match snd kv with Some _ => true | None => false end) t then
        match all_found t names with
        | Some outs => module_load g outs
        | None => None
        end
      else None
  end.

(** ** Files *)

(** header.h 12-27, header.cpp 10-25 *)
Definition module_code : Z := 428935465%Z. (* 0x19910929 *)
Definition header_bytes : stream := w32 0 ++ w32 module_code ++ repeat 0%Z 120.

(** first position of a node *)
Fixpoint index_of (l : list node) (n : node) : option nat :=
  match l with
  | [] => None
  | x :: r => if Nat.eqb n x then Some 0
              else match index_of r n with Some i => Some (S i) | None => None end
  end.

Fixpoint indices (l : list node) (ns : list node) : option (list nat) :=
  match ns with
  | [] => Some []
  | n :: r => match index_of l n, indices l r with
              | Some i, Some is => Some (i :: is)
              | _, _ => None
              end
  end.

Definition write_list (l : list nat) : stream :=
  w32 (Z.of_nat (length l)) ++ concat (map (fun i => w32 (Z.of_nat i)) l).

(** menu.cpp 90-119; [None]: "Can not link input", or a tensor that cannot be
    written *)
Definition serialize_node (g : mgraph) (l : list node) (n : node) : option stream :=
  match indices l (mg_ins g n), serialize_bubble (mg_bub g n) with
  | Some is, Some b => Some (b ++ write_list is)
  | _, _ => None
  end.

Definition serialize_nodes (g : mgraph) (l : list node) : option stream :=
  match seq_opt (map (serialize_node g l) l) with
  | Some body => Some (w32 (Z.of_nat (length l)) ++ body)
  | None => None
  end.

(** the graph list_reference_nodes walks (only its inputs matter) *)
Definition shape_graph (g : mgraph) : graph unit unit := mkGraph (fun _ => KParam) (mg_ins g).

(** module.cpp 250-255 *)
Fixpoint add_inputs (inputs nodes : list node) : list node :=
  match inputs with
  | [] => nodes
  | i :: r => add_inputs r (if mem i nodes then nodes else nodes ++ [i])
  end.

(** module.cpp 239-274 *)
Definition save (fuel : nat) (m : module) : option stream :=
  match list_reference_nodes fuel (shape_graph (m_graph m)) (m_outputs m) with
  | None => None
  | Some sched =>
      let nodes := add_inputs (m_inputs m) (map fst sched) in
      match indices nodes (m_inputs m), indices nodes (m_outputs m),
            serialize_nodes (m_graph m) nodes with
      | Some ii, Some oi, Some body =>
          Some (header_bytes ++ write_list ii ++ write_list oi ++ body)
      | _, _, _ => None
      end
  end.

Definition value_or_0 (b : list (option Z)) : Z :=
  match le_value b with Some v => v | None => 0%Z end.

(** zero-initialised uint32_t elements *)
Fixpoint read_u32s (n : nat) (s : stream) : list Z * stream :=
  match n with
  | O => ([], s)
  | S k => let (b, s1) := read_into (zeros 4) s in
           let (l, s2) := read_u32s k s1 in (value_or_0 b :: l, s2)
  end.

(** module.cpp 284-293: size_buffer is initialised to 0 *)
Definition read_list (s : stream) : list Z * stream :=
  let (b, s1) := read_into (zeros 4) s in read_u32s (Z.to_nat (value_or_0 b)) s1.

Section Load.
Variable cast_other : plain -> option (list Z).
Variable to_int : plain -> option Z.

(** menu.cpp 133-145; [buf] is size_buffer *)
Fixpoint read_nodes (n : nat) (buf : list (option Z)) (s : stream) : rres (list (bubble * list Z)) :=
  match n with
  | O => ROk [] s
  | S k =>
      rbind (externalize_bubble cast_other to_int [] s) (fun b s1 =>
      let (buf', s2) := read_into buf s1 in
      let (idx, s3) := read_u32s (Z.to_nat (value_or_0 buf')) s2 in
      rbind (read_nodes k buf' s3) (fun l s4 => ROk ((b, idx) :: l) s4))
  end.

Definition in_table (k : nat) (i : Z) : bool := (0 <=? i)%Z && (i <? Z.of_nat k)%Z.

Definition empty_bubble : bubble := mkBubble [] [] [] [].

(** menu.cpp 146-153: nodes[index] is not checked *)
Definition link_nodes (l : list (bubble * list Z)) : option mgraph :=
  if forallb (fun p => forallb (in_table (length l)) (snd p)) l then
    Some (mkMG (seq 0 (length l))
               (fun i => fst (nth i l (empty_bubble, [])))
               (fun i => map Z.to_nat (snd (nth i l (empty_bubble, [])))))
  else None.

(** module.cpp 295-330 *)
Definition load_file (s : stream) : rres module :=
  let (_, s1) := read_into (zeros 4) s in
  let (cb, s2) := read_into (zeros 4) s1 in
  let (_, s3) := read_into (zeros 120) s2 in
  if negb (value_or_0 cb =? module_code)%Z then RErr else
  let (ii, s4) := read_list s3 in
  let (oi, s5) := read_list s4 in
  let (nb, s6) := read_into (zeros 4) s5 in
  rbind (read_nodes (Z.to_nat (value_or_0 nb)) (zeros 4) s6) (fun l s7 =>
  match link_nodes l with
  | None => RUndef
  | Some g =>
      if forallb (in_table (length l)) ii && forallb (in_table (length l)) oi then
        match module_load g (map Z.to_nat oi) with
        | None => RErr
        | Some m => match sort_nodes m (map Z.to_nat ii) with
                    | None => RErr
                    | Some m' => ROk m' s7
                    end
        end
      else RUndef
  end).
End Load.
