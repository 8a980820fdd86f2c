(** Specification vocabulary for C118: solutions of written equations that move
    with the parameters. Used by statements only. *)
From Coq Require Import Reals.
From Verif Require Import Py PyStr M_SymExpr S_Calculus S_Euler S_Converge.
Local Open Scope list_scope.
Local Open Scope R_scope.

(** The equations contain no indexed objects. *)
Definition no_arrays : string -> list idx -> R := fun _ _ => 0.

(** The values of the equations when the variables are [x] and the parameters [th] *)
Definition values_at (variables parameters : list string) (equations : list sexpr) (x th : list R) : list R :=
  map (val (state_of (variables ++ parameters) (x ++ th)) no_arrays) equations.

(** The matrix of the derivatives of the equations in the variables *)
Definition derivatives_at (variables parameters : list string) (equations : list sexpr) (x th : list R) (J : list (list R)) : Prop :=
  Forall2 (fun e row => Forall2 (fun y d => partial_derivative (state_of (variables ++ parameters) (x ++ th)) no_arrays y e d) variables row) equations J.

(** The solver of linear systems is right for regular matrices of [n] rows. *)
Definition right_solver (solve : list (list R) -> list R -> list R) (n : nat) : Prop :=
  forall M, is_matrix n n M -> nonsingular M n -> solves solve M n.

(** [X] is a differentiable path of solutions while the parameters move on the
    line from [th0] to [th1]. At its points the equations are smooth and their
    derivatives in the variables form a regular matrix. *)
Record solution_path (variables parameters : list string) (equations : list sexpr) (th0 th1 : list R) (X : R -> list R) : Prop := {
  so_length : forall t, 0 <= t <= 1 -> length (X t) = length variables;
  so_derivable : forall t i, 0 <= t <= 1 -> (i < length variables)%nat -> exists d, derivable_pt_lim (fun s => nth i (X s) 0) t d;
  so_solution : forall t, 0 <= t <= 1 -> Forall (fun r => r = 0) (values_at variables parameters equations (X t) (line th0 th1 t));
  so_smooth : forall t, 0 <= t <= 1 -> Forall (smooth (state_of (variables ++ parameters) (X t ++ line th0 th1 t)) no_arrays) equations;
  so_regular : forall t, 0 <= t <= 1 -> exists J,
    derivatives_at variables parameters equations (X t) (line th0 th1 t) J /\ nonsingular J (length variables) }.
