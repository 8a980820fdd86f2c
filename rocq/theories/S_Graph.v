(** Specification vocabulary for graph inputs (C52, C53). *)
From Verif Require Import Py M_Graph.

(** The name occurs in the expression. *)
Inductive uses (s : string) : texpr -> Prop :=
| uses_name : uses s (TName s)
| uses_op args e : In e args -> uses s e -> uses s (TOp args).
