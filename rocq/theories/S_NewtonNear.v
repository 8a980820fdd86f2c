(** Specification vocabulary for C119: functions that compute written equations
    and their derivatives. Used by statements only. *)
From Coq Require Import Reals.
From Verif Require Import Py PyStr NdArray M_SymExpr S_Calculus M_Euler S_Euler S_Converge S_Newton S_Trace.
Local Open Scope list_scope.
Local Open Scope R_scope.

(** The values of the parameters, one after the other *)
Definition flat_parameters (parameters : option (list (arr R))) : list R := match parameters with None => [] | Some l => flat l end.

(** Where the equations are smooth, [F] returns their values and [J] the matrix
    of their derivatives in the variables. Each entry of the arrays has a name,
    in the order of the arrays. *)
Definition computes (F : list (arr R) -> res (list R)) (J : list (arr R) -> res (list (list R))) (parameters : option (list (arr R)))
    (variables params : list string) (equations : list sexpr) (shapes : list (list nat)) : Prop :=
  forall x, map (@ashape R) x = shapes -> Forall (fun a => arr_wf a) x ->
    Forall (smooth (state_of (variables ++ params) (flat x ++ flat_parameters parameters)) no_arrays) equations ->
    F (at_point parameters x) = Ok (values_at variables params equations (flat x) (flat_parameters parameters)) /\
    exists M, J (at_point parameters x) = Ok M /\ derivatives_at variables params equations (flat x) (flat_parameters parameters) M.

(** The solver of linear systems is right for regular matrices of [n] rows; it
    may raise for others. *)
Definition right_solver_res (solve : list (list R) -> list R -> res (list R)) (n : nat) : Prop :=
  forall M b, is_matrix n n M -> nonsingular M n -> length b = n -> exists s, solve M b = Ok s /\ length s = n /\ mv M s = b.

(** A solution of the equations at which they are smooth and their derivatives
    in the variables form a regular matrix *)
Record regular_solution (variables params : list string) (equations : list sexpr) (x th : list R) : Prop := {
  rs_solution : Forall (fun r => r = 0) (values_at variables params equations x th);
  rs_smooth : Forall (smooth (state_of (variables ++ params) (x ++ th)) no_arrays) equations;
  rs_regular : exists J, derivatives_at variables params equations x th J /\ nonsingular J (length variables) }.
