(** Specification vocabulary for C123: models with a redundant equation. Used by
    statements only. *)
From Coq Require Import Reals.
From Verif Require Import Py PyStr M_SymExpr S_Calculus M_Euler S_Euler S_Converge S_Trace.
Local Open Scope list_scope.
Local Open Scope R_scope.

(** Walras' law at the parameters [th]: whatever the values of the variables,
    the residuals of the equations, weighted with [weights], sum to zero. *)
Definition walras_law (variables parameters : list string) (equations : list sexpr) (weights : list R -> list R) (th : list R) : Prop :=
  forall x, length x = length variables ->
    length (weights x) = length equations /\ dot (weights x) (values_at variables parameters equations x th) = 0.

(** The weights change little near [x]. *)
Definition continuous_at (weights : list R -> list R) (x : list R) : Prop :=
  forall eps, 0 < eps -> exists del, 0 < del /\ forall x', within del x' x -> within eps (weights x') (weights x).
