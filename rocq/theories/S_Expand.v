(** Specification vocabulary for expansion. *)
From Verif Require Import Py M_Primitives.

(** Everything but the labels and the texts derived from them. *)
Definition same_attributes (o o' : mobj) : Prop :=
  o_kind o' = o_kind o /\ o_name o' = o_name o /\ o_dims o' = o_dims o /\
  o_latex_name o' = o_latex_name o /\ o_base_name o' = o_base_name o /\
  o_real o' = o_real o /\ o_positive o' = o_positive o /\ o_extend o' = o_extend o.
