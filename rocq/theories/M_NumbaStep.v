(** The numba Euler step: compile/numba.py:132-164. *)
From Coq Require Import Reals.
From Verif Require Import Py PyStr M_SymExpr M_Calculus M_Lambdify.
Local Open Scope string_scope.
Local Open Scope list_scope.

(** compile/numba.py:142-144: the symbol of the current state *)
Definition state_name (x : string) : string := (x ++ "_0")%string.

Section Euler.
(** sympy's rules for substitution, see [M_SymExpr.subs]; and np.linalg.solve *)
Context (sub_into : sexpr -> list string -> bool) (dict_order : list (sexpr * sexpr) -> list (sexpr * sexpr)).
Context (cse : list sexpr -> list (string * sexpr) * list sexpr).
(** the right-hand side and the solution are columns *)
Context (linalg_solve : list (list R) -> list R -> list R).

(** compile/numba.py:132-164 compile_numba_euler_func: f_dX(endog, exog) *)
Definition f_dX (variables parameters : list string) (equations : list sexpr) (endog exog : list R) : res (list R) :=
  let* A_mat := make_sympy_jacobian (SysList equations) variables in
  let B_mat := map (fun eq => map (fun x => diff x eq) parameters) equations in
  let inital_state_subs := map (fun x => (SSym x, SSym (state_name x))) (variables ++ parameters) in
  let sb := subs sub_into dict_order inital_state_subs in
  let A_sub := map (map sb) A_mat in
  let Bv := map (fun row => py_sum (map (fun ex => SBin OMul (fst ex) (SSym (snd ex))) (combine (map sb row) parameters))) B_mat in
  let values := map state_name (variables ++ parameters) in
  let* nb_A_sub := numba_lambdify cse parameters (TMat A_sub) values false in
  let* nb_B_sub := numba_lambdify cse parameters (TMat (map (fun e => [e]) Bv)) values false in
  let* A := nb_A_sub (PArr endog) (PArr exog) in
  let* B := nb_B_sub (PArr endog) (PArr exog) in
  match A with
  | OMat a => Ok (map Ropp (linalg_solve a (ravel B)))
  | _ => Err TypeError
  end.
End Euler.
