(** Lemmas for C79: names without labels. *)
From Verif Require Import Py PyStr M_Primitives M_Expand M_Indices.
Local Open Scope string_scope.
Local Open Scope list_scope.

Lemma c79_scalar__p :
  forall (o : mobj), o_dim_vals o = [] -> make_indexed_name o = o_name o /\ forall name, symbol name [] = name.
Proof. intros o E. unfold make_indexed_name. rewrite E. split; reflexivity. Qed.
