(** Specification vocabulary for C126: residuals that are not defined everywhere.
    Used by statements only. *)
From Coq Require Import Reals.
From Verif Require Import Py PyStr NdArray M_SymExpr S_Calculus M_Euler S_Euler S_Converge S_Newton S_Trace S_NewtonNear.
Local Open Scope list_scope.
Local Open Scope R_scope.

(** At [x] the residuals are the numbers [r]. *)
Definition defined_at (F : list (arr R) -> res (list (option R))) (parameters : option (list (arr R))) (x : list (arr R)) (r : list R) : Prop :=
  F (at_point parameters x) = Ok (map Some r).

(** At [x] a residual is NaN. *)
Definition undefined_at (F : list (arr R) -> res (list (option R))) (parameters : option (list (arr R))) (x : list (arr R)) : Prop :=
  exists r, F (at_point parameters x) = Ok r /\ In None r.

(** Where the equations are smooth, [F] returns their values and [J] their
    derivatives in the variables. Elsewhere [F] returns, possibly NaN. *)
Definition computes_or_nan (F : list (arr R) -> res (list (option R))) (J : list (arr R) -> res (list (list (option R))))
    (parameters : option (list (arr R))) (variables params : list string) (equations : list sexpr) (shapes : list (list nat)) : Prop :=
  forall x, map (@ashape R) x = shapes -> Forall (fun a => arr_wf a) x ->
    (exists r, F (at_point parameters x) = Ok r) /\
    (Forall (smooth (state_of (variables ++ params) (flat x ++ flat_parameters parameters)) no_arrays) equations ->
     defined_at F parameters x (values_at variables params equations (flat x) (flat_parameters parameters)) /\
     exists M, J (at_point parameters x) = Ok (map (map Some) M) /\ derivatives_at variables params equations (flat x) (flat_parameters parameters) M).

(** The solver of linear systems is right for regular matrices of numbers. *)
Definition right_solver_nan (solve : list (list (option R)) -> list (option R) -> res (option (list R))) (n : nat) : Prop :=
  forall M b, is_matrix n n M -> nonsingular M n -> length b = n -> exists s, solve (map (map Some) M) (map Some b) = Ok (Some s) /\ length s = n /\ mv M s = b.
