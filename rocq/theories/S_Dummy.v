(** The scalar symbols of an expression: the specification of C103 *)
From Verif Require Import Py PyStr M_SymExpr.
Local Open Scope string_scope.
Local Open Scope list_scope.

(** s occurs as a symbol of its own, not as the base of an array *)
Inductive scalar_in (s : string) : sexpr -> Prop :=
| ScSym : scalar_in s (SSym s)
| ScL o a b : scalar_in s a -> scalar_in s (SBin o a b)
| ScR o a b : scalar_in s b -> scalar_in s (SBin o a b)
| ScFun f a : scalar_in s a -> scalar_in s (SFun f a)
| ScRed o a lims : scalar_in s a -> scalar_in s (SRed o a lims).
