(** The numba backend from the declared model to the compiled functions
    (/repo/cge_modeling/compile/numba.py:167-228, base/cge.py:210-230, 252-300). *)
From Coq Require Import Reals.
From Verif Require Import Py PyStr M_Primitives M_Expand M_SymExpr M_Calculus M_Simplify M_Lambdify.
Local Open Scope string_scope.
Local Open Scope list_scope.

(** x.name of a scalar symbol (compile/numba_tools.py:198, 206). Anything that
    is not a symbol is an error here; an Indexed has a name that is not an
    identifier. *)
Definition symbol_name (e : sexpr) : res string :=
  match e with SSym s => Ok s | _ => Err AttributeError end.

(** The compiled functions asked for by "root" and "minimize" (compile/numba.py:176-214) *)
Record numba_functions := MkNumba {
  nf_system : list R -> list R -> res outval;
  nf_jac : list R -> list R -> res outval;
  nf_resid : list R -> list R -> res outval;
  nf_grad : list R -> list R -> res outval }.

Section NumbaModel.
Variable sub_into : sexpr -> list string -> bool.
Variable set_order : list sexpr -> list sexpr.
Variable dict_order : list (sexpr * sexpr) -> list (sexpr * sexpr).
Variable evaluates : sexpr -> sexpr -> bool.
Variable cse : list sexpr -> list (string * sexpr) * list sexpr.
Variable order : list string -> list string.

(** base/cge.py:213-230, 252-256, 278-282: the symbols of a group after
    _simplify_unpacked_sympy_representation *)
Definition unpacked_symbols (all group : list mobj) : res (list string) :=
  map_res (fun u => symbol_name (subs sub_into dict_order (indexed_variables_to_sub_dict all) (to_sympy u))) group.

(** compile/numba.py:167-214 compile_numba_cge_functions with the symbols of
    base/cge.py:210-230. The dict of unpacked equations is taken to have
    distinct names. *)
Definition compile_numba_cge_functions (c : dict (list string)) (numeraire : option mobj)
  (variables parameters : list mobj) (equations : list (sexpr * sexpr)) : res numba_functions :=
  let* gv := unpack_group order variables (lab_coords c) in
  let* gp := unpack_group order parameters (lab_coords c) in
  let all := dvals gv ++ dvals gp in
  let* ess := map_res (fun lr => equation_symbols sub_into set_order dict_order evaluates c numeraire all (fst lr) (snd lr)) equations in
  let eqs := List.concat ess in
  let* vs := unpacked_symbols all (dvals gv) in
  let* ps := unpacked_symbols all (dvals gp) in
  let* f_system := compile_numba_system cse eqs vs ps in
  let* f_jac := compile_numba_jacobian_function cse (SysList eqs) vs ps in
  let* f_resid := compile_numba_error_function cse eqs vs ps in
  let* f_grad := compile_numba_gradient_function cse (squared_loss eqs) vs ps in
  Ok (MkNumba f_system f_jac f_resid f_grad).
End NumbaModel.
