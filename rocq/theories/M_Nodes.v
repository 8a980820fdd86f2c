(** Model of the classes Node and Tree (tools/output_tools.py:22-165, 194-227)
    with the references between nodes: a node knows its parent, and creating it
    appends it to the children of the parent.

    Nodes are positions of a list of cells, in the order of creation. The
    functions that follow references have a bound on the number of steps, the
    number of nodes; a chain of parents or children cannot be longer, since a
    parent exists before its children. *)
From Verif Require Import Py PyStr M_Output.
Local Open Scope string_scope.
Local Open Scope list_scope.

Section Nodes.
Variable V : Type.

(** The attributes of a Node (tools/output_tools.py:60-67) *)
Record cell := MkCell { c_name : string; c_data : option (list V); c_parent : option nat; c_children : list nat; c_level : nat }.
(** All the nodes that exist (tools/output_tools.py:49-110) *)
Definition heap := list cell.

(** node.get_parent() (tools/output_tools.py:88-89) *)
Definition get_parent (h : heap) (n : nat) : option nat := match nth_error h n with Some c => c_parent c | None => None end.
(** node.children (tools/output_tools.py:63) *)
Definition children (h : heap) (n : nat) : list nat := match nth_error h n with Some c => c_children c | None => [] end.
(** node.level (tools/output_tools.py:67) *)
Definition level (h : heap) (n : nat) : nat := match nth_error h n with Some c => c_level c | None => 0 end.

(** tools/output_tools.py:22-26 get_node_level *)
Fixpoint get_node_level (fuel : nat) (h : heap) (n : nat) (lv : nat) : nat :=
  match fuel with
  | 0 => lv
  | S fuel' => match get_parent h n with None => lv | Some p => get_node_level fuel' h p (lv + 1) end
  end.

(** tools/output_tools.py:29-33 get_n_descendents *)
Fixpoint get_n_descendents (fuel : nat) (h : heap) (n : nat) : nat :=
  match fuel with
  | 0 => 0
  | S fuel' => match children h n with
               | [] => 0
               | ch => length ch + list_sum (map (get_n_descendents fuel' h) ch)
               end
  end.

(** tools/output_tools.py:36-39 get_n_generations *)
Fixpoint get_n_generations (fuel : nat) (h : heap) (n : nat) : nat :=
  match fuel with
  | 0 => 0
  | S fuel' => match children h n with
               | [] => 0
               | ch => (if Nat.ltb 0 (length ch) then 1 else 0) + list_sum (map (get_n_generations fuel' h) ch)
               end
  end.

(** tools/output_tools.py:91-97 get_all_descendents *)
Fixpoint get_all_descendents (fuel : nat) (h : heap) (n : nat) : list nat :=
  match fuel with
  | 0 => []
  | S fuel' => children h n ++ flat_map (get_all_descendents fuel' h) (children h n)
  end.

(** tools/output_tools.py:99-107 get_all_ancestors *)
Fixpoint get_all_ancestors (fuel : nat) (h : heap) (n : nat) : list nat :=
  match fuel with
  | 0 => []
  | S fuel' => match get_parent h n with Some p => p :: get_all_ancestors fuel' h p | None => [] end
  end.

(** Changing one node (tools/output_tools.py:67, 69-70, 221) *)
Fixpoint update (f : cell -> cell) (h : heap) (n : nat) : heap :=
  match h, n with
  | [], _ => []
  | c :: h', 0 => f c :: h'
  | c :: h', S n' => c :: update f h' n'
  end.
(** self.children.append(child) (tools/output_tools.py:69-70) *)
Definition add_child (h : heap) (p child : nat) : heap :=
  update (fun c => MkCell (c_name c) (c_data c) (c_parent c) (c_children c ++ [child]) (c_level c)) h p.
(** self.level = ... (tools/output_tools.py:67) *)
Definition set_level (h : heap) (n lv : nat) : heap :=
  update (fun c => MkCell (c_name c) (c_data c) (c_parent c) (c_children c) lv) h n.
(** node.data = v (tools/output_tools.py:221) *)
Definition set_data (h : heap) (n : nat) (v : list V) : heap :=
  update (fun c => MkCell (c_name c) (Some v) (c_parent c) (c_children c) (c_level c)) h n.

(** tools/output_tools.py:60-67 Node(name, data, parent) *)
Definition new_node (h : heap) (name : string) (data : option (list V)) (parent : option nat) : heap * nat :=
  let n := length h in
  let h := h ++ [MkCell name data parent [] 0] in
  let h := match parent with Some p => add_child h p n | None => h end in
  (set_level h n (get_node_level (length h) h n 0), n).

(** A sequence of calls of Node, from no nodes: name, data and parent
    (tools/output_tools.py:60-67) *)
Definition create (ops : list (string * option (list V) * option nat)) : heap :=
  fold_left (fun h o => fst (new_node h (fst (fst o)) (snd (fst o)) (snd o))) ops [].

(** tools/output_tools.py:130-132 max_level: max of an empty sequence raises ValueError *)
Definition max_level (h : heap) (nodes : list nat) : res nat :=
  match map (level h) nodes with
  | [] => Err ValueError
  | l :: ls => Ok (fold_left Nat.max ls l + 1)
  end.
(** tools/output_tools.py:134-135 get_nodes *)
Definition get_nodes (h : heap) (nodes : list nat) (lv : nat) : list nat := filter (fun n => Nat.eqb (level h n) lv) nodes.
(** tools/output_tools.py:137-138 get_roots *)
Definition get_roots (h : heap) (nodes : list nat) : list nat :=
  filter (fun n => match get_parent h n with None => true | Some _ => false end) nodes.
(** tools/output_tools.py:140-141 get_leaves *)
Definition get_leaves (h : heap) (nodes : list nat) : list nat := filter (fun n => Nat.eqb (length (children h n)) 0) nodes.
(** tools/output_tools.py:143-145 get_family_trees, 147-149 get_subtree *)
Definition get_subtree (h : heap) (n : nat) : list nat := n :: get_all_descendents (length h) h n.
(** tools/output_tools.py:143-145 get_family_trees *)
Definition get_family_trees (h : heap) (nodes : list nat) : list (list nat) := map (get_subtree h) (get_roots h nodes).

(** update_map[old] (tools/output_tools.py:158) *)
Definition lookup (m : list (nat * nat)) (n : nat) : res nat :=
  match find (fun p => Nat.eqb (fst p) n) m with Some p => Ok (snd p) | None => Err KeyError end.
(** The state of the loop: nodes, update_map, pruned_nodes (tools/output_tools.py:152-162) *)
Definition split_state := (heap * list (nat * nat) * list nat)%type.
(** tools/output_tools.py:156-162: one old node *)
Definition split_one (cut lv : nat) (st : split_state) (old : nat) : res split_state :=
  let '(h, m, pruned) := st in
  let* parent := if Nat.eqb lv cut then Ok None
                 else match get_parent h old with Some p => let* q := lookup m p in Ok (Some q) | None => Err KeyError end in
  let name := match nth_error h old with Some c => c_name c | None => "" end in
  let '(h, n) := new_node h name None parent in
  Ok (h, (old, n) :: m, pruned ++ [n]).
(** for x in l: st = f(st, x) (tools/output_tools.py:154-156) *)
Fixpoint loop {A B} (f : A -> B -> res A) (st : A) (l : list B) : res A :=
  match l with [] => Ok st | x :: l' => let* st := f st x in loop f st l' end.
(** tools/output_tools.py:151-165 split_tree: all the nodes, and those of the new tree *)
Definition split_tree (h : heap) (nodes : list nat) (cut : nat) : res (heap * list nat) :=
  let* top := max_level h nodes in
  let* st := loop (fun st lv => loop (split_one cut lv) st (get_nodes (fst (fst st)) nodes lv)) (h, [], []) (seq cut (top - cut)) in
  let '(h, _, pruned) := st in Ok (h, pruned).

(** tools/output_tools.py:217-225: one entry of build_tree; tree.add_node appends,
    as a new node is in no tree *)
Fixpoint build_entry (st : heap * list nat) (parent : option nat) (k : string) (v : item V) : heap * list nat :=
  let '(h, n) := new_node (fst st) k None parent in
  match v with
  | Data l => (set_data h n l, snd st ++ [n])
  | Sub d => (fix go (st : heap * list nat) (d : list (string * item V)) : heap * list nat :=
                match d with [] => st | (k', v') :: d' => go (build_entry st (Some n) k' v') d' end) (h, snd st ++ [n]) d
  end.
(** tools/output_tools.py:194-227 build_tree: all the nodes, and those of the tree *)
Definition build_tree (d : list (string * item V)) : heap * list nat :=
  fold_left (fun st kv => build_entry st None (fst kv) (snd kv)) d ([], []).
End Nodes.
