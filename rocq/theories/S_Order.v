(** Specification vocabulary for C108: equal objects and their order. *)
From Verif Require Import Py PyStr M_Primitives S_Finalize.
Local Open Scope string_scope.

(** The same labels for the same dims *)
Definition same_labels (a b : dict label) : Prop := forall k, dget k a = dget k b.
(** Two objects of one class that agree in everything *)
Definition same_object (a b : mobj) : Prop :=
  o_kind a = o_kind b /\ o_name a = o_name b /\ o_dims a = o_dims b /\ same_labels (o_dim_vals a) (o_dim_vals b) /\
  o_latex_name a = o_latex_name b /\ o_full_latex a = o_full_latex b /\ o_description a = o_description b /\
  o_base_name a = o_base_name b /\ o_real a = o_real b /\ o_positive a = o_positive b /\ o_extend a = o_extend b.
(** No dim is given two labels *)
Definition labels_ok (o : mobj) : Prop := NoDup (dkeys (o_dim_vals o)).

(** Tuples of strings: the first is a proper beginning of the second, or the
    strings at the first difference decide. *)
Definition tuple_before (a b : list string) : Prop :=
  (exists y l, b = (a ++ y :: l)%list) \/ exists p x y l m, a = (p ++ x :: l)%list /\ b = (p ++ y :: m)%list /\ before x y.
(** The first field that differs decides, in the order of declaration: name,
    dims, labels (no order), LaTeX name, full LaTeX name, description, base
    name, the two flags (false first), extend_subscript. *)
Definition object_before (a b : mobj) : Prop :=
  before (o_name a) (o_name b) \/ (o_name a = o_name b /\ (tuple_before (o_dims a) (o_dims b) \/ (o_dims a = o_dims b /\ same_labels (o_dim_vals a) (o_dim_vals b) /\
  (before (o_latex_name a) (o_latex_name b) \/ (o_latex_name a = o_latex_name b /\
  (before (o_full_latex a) (o_full_latex b) \/ (o_full_latex a = o_full_latex b /\
  (before (o_description a) (o_description b) \/ (o_description a = o_description b /\
  (before (o_base_name a) (o_base_name b) \/ (o_base_name a = o_base_name b /\
  ((o_real a = false /\ o_real b = true) \/ (o_real a = o_real b /\
  ((o_positive a = false /\ o_positive b = true) \/ (o_positive a = o_positive b /\ (o_extend a < o_extend b)%nat))))))))))))))).
