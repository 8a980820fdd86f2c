(** Specification vocabulary for trees with references (C98). *)
From Verif Require Import Py M_Output M_Nodes.
Local Open Scope list_scope.

Section Spec.
Variable V : Type.
(** The nodes created, in order: name, data, parent *)
Notation op := (string * option (list V) * option nat)%type.

(** Parents exist before their children *)
Definition valid (ops : list op) : Prop := forall i o p, nth_error ops i = Some o -> snd o = Some p -> p < i.

(** The ancestors of a node, the nearest first *)
Inductive line (ops : list op) : nat -> list nat -> Prop :=
| line_root n o : nth_error ops n = Some o -> snd o = None -> line ops n []
| line_child n o p l : nth_error ops n = Some o -> snd o = Some p -> line ops p l -> line ops n (p :: l).

(** [d] is below [a] *)
Definition below (ops : list op) (a d : nat) : Prop := exists l, line ops d l /\ In a l.

(** A node with children *)
Definition inner (ops : list op) (n : nat) : Prop := exists i o, nth_error ops i = Some o /\ snd o = Some n.

(** The number of generations below a node: how far its remotest descendents are *)
Definition generations (ops : list op) (n k : nat) : Prop :=
  (k = 0 /\ ~ inner ops n) \/
  (0 < k /\ (exists d l l', line ops d (l ++ n :: l') /\ length l + 1 = k) /\ forall d l l', line ops d (l ++ n :: l') -> length l + 1 <= k).

(** A tree of nested nodes is stored at a position *)
Fixpoint stored (h : heap V) (p : option nat) (lv : nat) (t : node V) (n : nat) : Prop :=
  let (name, data, ch) := t in
  exists c, nth_error h n = Some c /\ c_name c = name /\ c_data c = data /\ c_parent c = p /\ c_level c = lv /\
    (fix go (ts : list (node V)) (ns : list nat) : Prop :=
       match ts, ns with
       | [], [] => True
       | t :: ts', n' :: ns' => stored h (Some n) (S lv) t n' /\ go ts' ns'
       | _, _ => False
       end) ch (c_children c).
End Spec.
