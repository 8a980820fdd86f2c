(** The Euler approximation that the numba backend compiles from equations:
    compile/numba.py:62-164, with the errors that the step can raise.
    [M_Euler.euler_approx] is the same loop for a step that never raises. *)
From Coq Require Import Reals.
From Verif Require Import Py PyStr M_SymExpr M_Calculus M_Lambdify M_Euler M_NumbaStep.
Local Open Scope list_scope.

(** compile/numba.py:125: the sum of two vectors. Simplified: numpy also adds a
    vector of one entry to a longer one; here two lengths are an error. *)
Definition checked_add (x y : list R) : res (list R) :=
  if Nat.eqb (length y) (length x) then Ok (vadd x y) else Err ValueError.

(** compile/numba.py:123-127: the rows written by the loop *)
Fixpoint euler_rows (f_step : list R -> list R -> res (list R)) (step : list R) (k : nat) (x : list R) : res (list (list R)) :=
  match k with
  | 0 => Ok []
  | S k' =>
    let* dx := f_step step x in
    let* x := checked_add x (dx ++ step) in
    let* rest := euler_rows f_step step k' x in
    Ok (x :: rest)
  end.

Section Compiled.
(** As in [M_NumbaStep] *)
Context (sub_into : sexpr -> list string -> bool) (dict_order : list (sexpr * sexpr) -> list (sexpr * sexpr)).
Context (cse : list sexpr -> list (string * sexpr) * list sexpr).
Context (linalg_solve : list (list R) -> list R -> list R).

(** compile/numba.py:132-164 compile_numba_euler_func(variables, parameters,
    equations, use_rk4=use_rk4)(x0, theta0, theta_final, n_steps=n): the rows of
    the output. The progress bar is left out. *)
Definition numba_euler (use_rk4 : bool) (variables parameters : list string) (equations : list sexpr)
           (x0 theta0 theta_final : list R) (n : nat) : res (list (list R)) :=
  if use_rk4 then Err NotImplementedError
  else
    let f_dX := f_dX sub_into dict_order cse linalg_solve variables parameters equations in
    if Nat.eqb (length theta_final) (length theta0) then
      let* rows := euler_rows f_dX (vdiv (vsub theta_final theta0) n) n (x0 ++ theta0) in
      Ok ((x0 ++ theta0) :: rows)
    else Err ValueError.
End Compiled.
