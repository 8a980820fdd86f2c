(** Specification vocabulary for C124: stationary points of the loss. Used by
    statements only. *)
From Coq Require Import Reals.
From Verif Require Import Py PyStr M_SymExpr S_Calculus S_Euler S_Converge S_Trace.
Local Open Scope list_scope.
Local Open Scope R_scope.

(** Half the sum of the squares of the equations, as in
    compile/numba.py:30 *)
Definition half_squares (equations : list sexpr) (v : string -> R) : R :=
  / 2 * rsum (map (fun e => val v no_arrays e * val v no_arrays e) equations).

(** [G] holds the derivatives of the loss in the variables. *)
Definition gradient_at (variables parameters : list string) (equations : list sexpr) (x th : list R) (G : list R) : Prop :=
  let state := state_of (variables ++ parameters) (x ++ th) in
  Forall2 (fun y d => derivable_pt_lim (fun t => half_squares equations (set_sym state y t)) (state y) d) variables G.
