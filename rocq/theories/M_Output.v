(** Model of the table trees of tools/output_tools.py. *)
From Coq Require Import ZArith.
From Verif Require Import Py PyStr.
Local Open Scope string_scope.
Local Open Scope list_scope.

Section Trees.
Variable V : Type.

(** A value of the nested dictionary given to build_tree (tools/output_tools.py:194-227) *)
Inductive item :=
| Data (values : list V)
| Sub (d : list (string * item)).

(** tools/output_tools.py:49-110 Node. The parent pointers are implicit in the
    nesting. *)
Inductive node := Node (name : string) (data : option (list V)) (children : list node).
(** node.name, tools/output_tools.py:61 *)
Definition nname (n : node) := let (s, _, _) := n in s.
(** node.data, tools/output_tools.py:64 *)
Definition ndata (n : node) := let (_, d, _) := n in d.
(** node.children, tools/output_tools.py:63 *)
Definition nchildren (n : node) := let (_, _, c) := n in c.

(** tools/output_tools.py:194-227 build_tree: the node of one entry *)
Fixpoint build_node (k : string) (v : item) : node :=
  match v with
  | Data l => Node k (Some l) []
  | Sub d => Node k None ((fix go (d : list (string * item)) : list node :=
                             match d with [] => [] | (k', v') :: d' => build_node k' v' :: go d' end) d)
  end.
(** The roots of the tree (tools/output_tools.py:194-227) *)
Definition build_tree (d : list (string * item)) : list node := map (fun kv => build_node (fst kv) (snd kv)) d.

(** tools/output_tools.py:29-33 get_n_descendents *)
Fixpoint n_descendents (n : node) : nat :=
  let (_, _, ch) := n in
  length ch + (fix go (l : list node) : nat := match l with [] => 0 | c :: l' => n_descendents c + go l' end) ch.

(** tools/output_tools.py:91-97 get_all_descendents, each with its level
    (22-26), the node itself being at [level] *)
Fixpoint all_descendents (level : nat) (n : node) : list (nat * node) :=
  let (_, _, ch) := n in
  map (fun c => (S level, c)) ch ++
  (fix go (l : list node) : list (nat * node) := match l with [] => [] | c :: l' => all_descendents (S level) c ++ go l' end) ch.

(** tools/output_tools.py:42-46 compute_padding *)
Definition compute_padding (n : node) : Z :=
  (Z.max 0 (Z.of_nat (n_descendents n) - 1) -
   fold_right Z.add 0 (map (fun d => Z.max 0 (Z.of_nat (n_descendents (snd d)) - 1)) (all_descendents 0 n)))%Z.

(** tools/output_tools.py:217-227: tree.nodes, in the order of creation, with levels *)
Fixpoint nodes_of (level : nat) (n : node) : list (nat * node) :=
  let (_, _, ch) := n in
  (level, n) :: (fix go (l : list node) : list (nat * node) := match l with [] => [] | c :: l' => nodes_of (S level) c ++ go l' end) ch.
(** tools/output_tools.py:217-227 *)
Definition tree_nodes (roots : list node) : list (nat * node) := flat_map (nodes_of 0) roots.

(** tools/output_tools.py:130-132 max_level, of a tree with nodes *)
Definition max_level (roots : list node) : nat := S (fold_right Nat.max 0 (map fst (tree_nodes roots))).

(** tools/output_tools.py:140-141 get_leaves *)
Definition is_leaf (n : node) : bool := match nchildren n with [] => true | _ => false end.
(** tools/output_tools.py:140-141 get_leaves *)
Definition get_leaves (nodes : list (nat * node)) : list node := filter is_leaf (map snd nodes).

(** tools/output_tools.py:134-135 get_nodes *)
Definition get_nodes (nodes : list (nat * node)) (level : nat) : list node :=
  map snd (filter (fun p => Nat.eqb (fst p) level) nodes).

(** [node.name] + [None] * compute_padding(node) (lines 183, 190) *)
Definition heading (n : node) : list (option string) := Some (nname n) :: repeat None (Z.to_nat (compute_padding n)).

(** tools/output_tools.py:174-190: what one root adds to the row of a level *)
Definition heading_row (level : nat) (root : node) : list (option string) :=
  let family := (0, root) :: all_descendents 0 root in
  match get_nodes family level with
  | [] => repeat None (length (get_leaves family))
  | family_level =>
      match level with
      | 0 => flat_map heading family_level
      | S parent_level =>
          flat_map (fun parent => match nchildren parent with [] => [None] | ch => flat_map heading ch end)
                   (get_nodes family parent_level)
      end
  end.

(** tools/output_tools.py:167-191 make_headings *)
Definition make_headings (roots : list node) : list (list (option string)) :=
  match roots with
  | [] => []
  | _ => map (fun level => flat_map (heading_row level) roots) (seq 0 (max_level roots))
  end.

(** tools/output_tools.py:251-266 make_table: the heading rows and the columns of
    data. Values are not printed here, so the rows are kept as indices: the
    table has [n_data] data rows, row r showing datas[0][r], datas[1][r], ... *)
Definition make_table (d : list (string * item)) : res (list (list (option string)) * nat * list (list V)) :=
  let roots := build_tree d in
  let* datas := map_res (fun leaf => match ndata leaf with Some l => Ok l | None => Err TypeError end)
                        (get_leaves (tree_nodes roots)) in
  match datas with
  | [] => Err IndexError
  | d0 :: _ =>
      if forallb (fun l => Nat.eqb (length l) (length d0)) datas
      then Ok (make_headings roots, length d0, datas) else Err AssertionError
  end.
End Trees.
Arguments Data {V}. Arguments Sub {V}. Arguments Node {V}.
