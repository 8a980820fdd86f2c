(** The sympytensor backend from the declared model to the compiled functions
    (/repo/cge_modeling/compile/sympytensor.py:36-63, 138-304, 307-395,
     compile/pytensor.py:35-47, 109-127, compile/pytensor_tools.py:102-125, 185-222).

    as_tensor prints an expression operation by operation; the graph rewrites
    are taken not to change values. Sparse Jacobians and the Euler functions are
    left out here (M_Calculus.v, M_Euler.v). *)
From Coq Require Import Reals.
From Verif Require Import Py PyStr NdArray M_Primitives M_Equations M_Expand M_Registry M_Graph M_SymExpr M_Calculus M_Simplify M_Lambdify M_NumbaModel M_Utilities.
Local Open Scope string_scope.
Local Open Scope list_scope.

(** The symbols as_tensor puts into its cache while printing the equations, in
    the order of their first use (compile/sympytensor.py:42-48) *)
Definition printed_symbols (equations : list sexpr) : list string :=
  dkeys (dict_of_list (map (fun s => (s, tt)) (flat_map atoms equations))).

(** The value of a printed graph whose scalar symbols have been replaced by
    elements of the packed arrays (compile/pytensor_tools.py:218-222), and
    hess_point by the vector [point] (compile/sympytensor.py:283-287). *)
Fixpoint graph_value (data : dict (arr R)) (replace : dict (string * list nat)) (point : list R) (e : sexpr) : res R :=
  match e with
  | SNum z => Ok (IZR z)
  | SSym s => packed_value data replace s
  | SIx _ [IPos i] => match nth_error point i with Some r => Ok r | None => Err IndexError end
  | SIx _ _ => Err TypeError
  | SBin o a b => let* x := graph_value data replace point a in
                  let* y := graph_value data replace point b in Ok (py_op o x y)
  | SFun FExp a => let* x := graph_value data replace point a in Ok (exp x)
  | SFun FLog a => let* x := graph_value data replace point a in Ok (ln x)
  | SRed _ _ _ => Err TypeError
  end.

(** Calling a compiled function with keyword arguments: every input is given,
    nothing else is, and names of several inputs are ambiguous
    (base/function_wrappers.py:18-60, base/cge.py:1135 with the functions of compile/sympytensor.py:327-333) *)
Definition call {A} (inputs : list string) (f : dict (arr R) -> res A) (kwargs : dict (arr R)) : res A :=
  if (forallb (fun k => Nat.eqb (count_occ string_dec inputs k) 1) (dkeys kwargs) &&
      forallb (fun n => mem_str n (dkeys kwargs)) inputs)%bool
  then f kwargs else Err TypeError.

(** The functions asked for by "root" and "minimize" (compile/sympytensor.py:341-395) *)
Record sympytensor_functions := MkSympytensor {
  sf_system : dict (arr R) -> res (list R);
  sf_jac : dict (arr R) -> res (list (list R));
  sf_resid : dict (arr R) -> res R;
  sf_grad : dict (arr R) -> res (list R);
  sf_hess : dict (arr R) -> res (list (list R));
  sf_hessp : dict (arr R) -> res (list R) }.

(** compile/sympytensor.py:36-63 sympy_cge_primitives_to_pytensor: the scalar
    equations, and what the scalar symbols are replaced by. pt.stack refuses an
    empty list. *)
Definition sympy_cge_primitives_to_pytensor (m : model) (cache_names : list string) (equations : list sexpr)
  : res (dict (string * list nat)) :=
  let* replace := make_unpacked_to_packed_map m cache_names (printed_symbols equations) in
  match equations with [] => Err ValueError | _ => Ok replace end.

(** compile/pytensor_tools.py:102-125 make_printer_cache *)
Definition printer_cache (names : list string) : dict tvalue :=
  dict_of_list (combine names (map TTensor (seq 0 (length names)))).

(** explicit_graph_inputs of the stacked equations (compile/pytensor.py:116): the
    tensors whose elements replace a symbol *)
Definition replaced_inputs (cache : dict tvalue) (replace : dict (string * list nat)) : list nat :=
  flat_map (fun p => match dget (fst p) cache with Some (TTensor k) => [k] | _ => [] end) (dvals replace).

(** compile/sympytensor.py:284-287: the vector that replaces hess_point *)
Definition point_vector (variables : list mobj) (kwargs : dict (arr R)) : res (list R) :=
  let* arrays := map_res (fun o => dgetitem (o_name o ++ "_point")%string kwargs) variables in
  Ok (List.concat (map adata arrays)).

Section SympyTensor.
Variable sub_into : sexpr -> list string -> bool.
Variable set_order : list sexpr -> list sexpr.
Variable dict_order : list (sexpr * sexpr) -> list (sexpr * sexpr).
Variable evaluates : sexpr -> sexpr -> bool.
Variable order : list string -> list string.

(** base/cge.py:166-167: the numeraire is deleted from the packed variables only *)
Definition packed_variables (numeraire : option mobj) (variables : list mobj) : list mobj :=
  match numeraire with
  | None => variables
  | Some o => filter (fun v => negb (String.eqb (o_name v) (o_name o))) variables
  end.

(** compile/sympytensor.py:138-170 compile_sympytensor_jacobian, dense, and
    235-266 compile_sympytensor_hess_function *)
Definition matrix_function (inputs : list string) (replace : dict (string * list nat)) (rows : list (list sexpr))
  : dict (arr R) -> res (list (list R)) :=
  call inputs (fun data => map_res (map_res (graph_value data replace [])) rows).

(** compile/sympytensor.py:307-395 compile_sympytensor_cge_functions with
    the functions of 173-232 and 269-304 inlined, for
    "root" and "minimize", and the parts of base/cge.py:146-230 it reads. An
    equation symbol called hess_point is found first at line 283, and is no longer
    in the graph. *)
Definition compile_sympytensor_cge_functions (c : dict (list string)) (numeraire : option mobj)
  (variables parameters : list mobj) (equations : list (sexpr * sexpr)) : res sympytensor_functions :=
  let* gv := unpack_group order variables (lab_coords c) in
  let* gp := unpack_group order parameters (lab_coords c) in
  let all := dvals gv ++ dvals gp in
  let* ess := map_res (fun lr => equation_symbols sub_into set_order dict_order evaluates c numeraire all (fst lr) (snd lr)) equations in
  let eqs := List.concat ess in
  let* vs := unpacked_symbols sub_into dict_order all (dvals gv) in
  let pvars := packed_variables numeraire variables in
  let names := map o_name (pvars ++ parameters) in
  let cache := printer_cache names in
  let m := MkModel (lab_coords c) true numeraire [] [] [] gv gp [] in
  let* replace := sympy_cge_primitives_to_pytensor m (dkeys cache) eqs in
  let* _ := validate_parsing (length names) cache (replaced_inputs cache replace) in
  let* jac := make_sympy_jacobian (SysList eqs) vs in
  let loss := squared_loss eqs in
  let grad := make_sympy_gradient loss vs in
  let* hess := make_sympy_jacobian (SysMatrix (map (fun g => [g]) grad)) vs in
  let hessp := make_sympy_hessp grad vs in
  let* _ := if mem_str "hess_point" (printed_symbols eqs) then Err ValueError else Ok tt in
  Ok (MkSympytensor
        (call names (fun data => map_res (graph_value data replace []) eqs))
        (matrix_function names replace jac)
        (call names (fun data => graph_value data replace [] loss))
        (call names (fun data => map_res (graph_value data replace []) grad))
        (matrix_function names replace hess)
        (call (names ++ map (fun o => (o_name o ++ "_point")%string) pvars)
              (fun kwargs => let* point := point_vector pvars kwargs in map_res (graph_value kwargs replace point) hessp))).
End SympyTensor.
