(** Specification vocabulary for table headings (C66). *)
From Verif Require Import Py PyStr M_Output.
Local Open Scope list_scope.

(** The number of columns under an entry: entries without subcolumns count one *)
Fixpoint columns {V} (v : item V) : nat :=
  match v with
  | Data _ => 1
  | Sub d => match d with
             | [] => 1
             | _ => (fix go (d : list (string * item V)) : nat := match d with [] => 0 | (_, v') :: d' => columns v' + go d' end) d
             end
  end.

(** The aligned row of a level: the heading stands over its first column, the
    rest of its columns are blank, and so is a column that has no heading at
    this level. *)
Fixpoint aligned {V} (level : nat) (k : string) (v : item V) : list (option string) :=
  match level with
  | 0 => Some k :: repeat None (columns v - 1)
  | S l => match v with
           | Data _ => [None]
           | Sub [] => [None]
           | Sub d => flat_map (fun kv => aligned l (fst kv) (snd kv)) d
           end
  end.
Definition aligned_row {V} (level : nat) (d : list (string * item V)) : list (option string) :=
  flat_map (fun kv => aligned level (fst kv) (snd kv)) d.

(** The columns of data, left to right *)
Fixpoint data_columns {V} (v : item V) : list (list V) :=
  match v with
  | Data l => [l]
  | Sub d => (fix go (d : list (string * item V)) : list (list V) := match d with [] => [] | (_, v') :: d' => data_columns v' ++ go d' end) d
  end.

(** At most two levels: the subcolumns of an entry have no subcolumns. *)
Definition two_levels {V} (d : list (string * item V)) : Prop :=
  forall k v, In (k, v) d -> match v with Data _ => True | Sub d' => forall k' v', In (k', v') d' -> exists l, v' = Data l end.

(** At most three levels *)
Definition three_levels {V} (d : list (string * item V)) : Prop :=
  forall k v, In (k, v) d -> match v with Data _ => True | Sub d' => two_levels d' end.
(** The numbers of columns of the groups directly under an entry *)
Definition group_sizes {V} (v : item V) : list nat :=
  match v with
  | Data _ => []
  | Sub d => flat_map (fun kv => match snd kv with Sub (p :: l) => [S (length l)] | _ => [] end) d
  end.
