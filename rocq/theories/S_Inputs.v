(** The names that occur in an expression: the specification of C101 *)
From Verif Require Import Py PyStr M_SymExpr.
Local Open Scope string_scope.
Local Open Scope list_scope.

(** s is the name of a symbol, a base or an index somewhere in the expression *)
Inductive named (s : string) : sexpr -> Prop :=
| NmSym : named s (SSym s)
| NmBase l : named s (SIx s l)
| NmIx b l : In (IVar s) l \/ In (ILab s) l -> named s (SIx b l)
| NmL o a b : named s a -> named s (SBin o a b)
| NmR o a b : named s b -> named s (SBin o a b)
| NmFun f a : named s a -> named s (SFun f a)
| NmBody o a lims : named s a -> named s (SRed o a lims)
| NmLim o a lims lo hi : In (s, (lo, hi)) lims -> named s (SRed o a lims).

