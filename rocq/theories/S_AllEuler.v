(** Specification vocabulary for C121: functions that return the derivatives of
    written equations. Used by statements only. *)
From Coq Require Import Reals.
From Verif Require Import Py PyStr M_SymExpr S_Calculus S_Euler S_Converge S_Trace.
Local Open Scope list_scope.
Local Open Scope R_scope.

(** The matrix of the derivatives of the equations in the symbols [names] *)
Definition derivatives_in (names variables parameters : list string) (equations : list sexpr) (x th : list R) (J : list (list R)) : Prop :=
  Forall2 (fun e row => Forall2 (fun y d => partial_derivative (state_of (variables ++ parameters) (x ++ th)) no_arrays y e d) names row) equations J.

(** Wherever the equations are smooth, [A] and [B] return their derivatives in
    the variables and in the parameters. Nothing is said about other points. *)
Definition differentiates (A B : list R -> list R -> list (list R)) (variables parameters : list string) (equations : list sexpr) : Prop :=
  forall x th, length x = length variables -> length th = length parameters ->
    Forall (smooth (state_of (variables ++ parameters) (x ++ th)) no_arrays) equations ->
    derivatives_in variables variables parameters equations x th (A x th) /\ derivatives_in parameters variables parameters equations x th (B x th).
