(** Model of get_inputs and _prod (tools/sympy_tools.py:14-50).

    Expressions are those of M_SymExpr, as written: sympy's own evaluation and
    its order of the arguments of sums and products are external, so the order
    of the list is that of the text. The leaves of an Indexed are the labels of
    its base and of its indices; those of a limit are its index and two
    numbers. A symbol is given by its name; numbers are not listed. *)
From Coq Require Import Reals.
From Verif Require Import Py PyStr M_SymExpr.
Local Open Scope string_scope.
Local Open Scope list_scope.

(** The leaf of an index: an Idx holds the symbol of its name; a position is a
    number (tools/sympy_tools.py:28-31) *)
Definition index_inputs (i : idx) : list string :=
  match i with IVar s => [s] | ILab s => [s] | IPos _ => [] end.

(** tools/sympy_tools.py:14-32 get_inputs: the leaves in the order of
    sp.preorder_traversal that are no numbers *)
Fixpoint get_inputs (e : sexpr) : list string :=
  match e with
  | SNum _ => []
  | SSym s => [s]
  | SIx b l => b :: flat_map index_inputs l
  | SBin _ a b => get_inputs a ++ get_inputs b
  | SFun _ a => get_inputs a
  | SRed _ a lims => get_inputs a ++ map fst lims
  end.

(** tools/sympy_tools.py:35-50 _prod: functools.reduce without an initial value
    raises TypeError for an empty sequence *)
Definition prod_args {A} (mul : A -> A -> A) (args : list A) : res A :=
  match args with [] => Err TypeError | x :: l => Ok (fold_left mul l x) end.
