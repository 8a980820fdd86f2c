(** CGEModel.calibrate and what is done with its result
    (/repo/cge_modeling/base/cge.py:528-548, 618-652, 983-984, 1083-1088,
    base/primitives.py:283-316). *)
From Coq Require Import Reals.
From Verif Require Import Py PyStr NdArray M_Primitives M_Utilities M_Simulate M_SymExpr M_Calculus M_Lambdify M_Recursive M_Build.
Local Open Scope string_scope.
Local Open Scope list_scope.

(** A float64: a number or nan (base/cge.py:628-634). There is no rounding. *)
Notation float := (option R).

(** What one of the attributes f_resid, f_system holds. The numba functions take
    two vectors (compile/numba.py:171-214). A pytensor Function takes one
    argument per variable and parameter, checked against its type
    (compile/pytensor.py:200-330, compile/sympytensor.py:150-240). The functions
    of the jax mode take keywords only (compile/jax.py:20-64). *)
Inductive compiled_fn (A : Type) :=
| NotCompiled
| Vectors (f : list float -> list float -> res A)
| ByObject (shapes : list (list nat)) (f : list (list float) -> res A)
| Keywords.
Arguments NotCompiled {A}. Arguments Vectors {A} f. Arguments ByObject {A} shapes f. Arguments Keywords {A}.

(** self.f_resid(x0, theta0), base/cge.py:641: two positional vectors *)
Definition call_positional {A} (f : compiled_fn A) (x theta : list float) : res A :=
  match f with
  | NotCompiled => Err TypeError
  | Vectors f => f x theta
  | ByObject [[n]; [m]] f => if Nat.eqb n (length x) && Nat.eqb m (length theta) then f [x; theta] else Err TypeError
  | ByObject _ _ => Err TypeError
  | Keywords => Err TypeError
  end.

(** The parts of the model that calibrate reads (base/cge.py:150-190, 240-310).
    The symbol of an unpacked object is represented by its name, which is the
    unpacked name. *)
Record calibration_model := MkCal {
  cm_compiled : option (list fname);
  cm_sympy : bool;
  cm_equation_names : list string;
  cm_equations : list sexpr;
  cm_variables : list string;
  cm_parameters : list string;
  cm_resid : compiled_fn float;
  cm_system : compiled_fn (list float) }.

(** base/primitives.py:283-302 Result *)
Record result := MkResult {
  r_variables : list string;
  r_parameters : list string;
  r_initial : list float;
  r_fitted : list float;
  r_success : bool }.
(** base/primitives.py:304-309 Result.to_dict()["initial"] *)
Definition initial_dict (r : result) : dict float := dict_of_list (combine (r_variables r ++ r_parameters r) (r_initial r)).
(** base/primitives.py:304-309 Result.to_dict()["fitted"] *)
Definition fitted_dict (r : result) : dict float := dict_of_list (combine (r_variables r ++ r_parameters r) (r_fitted r)).

(** base/cge.py:528-548 get_symbol for one name *)
Definition get_symbol (m : calibration_model) (name : string) : res string :=
  if mem_str name (cm_parameters m) then Ok name
  else if mem_str name (cm_variables m) then Ok name
  else Err ValueError.

(** float(e), called by np.array(..., dtype="float64") (base/cge.py:628-634): a
    sympy number is converted, anything with a symbol is a TypeError *)
Fixpoint to_float (e : sexpr) : res R :=
  match e with
  | SNum z => Ok (IZR z)
  | SSym _ | SIx _ _ | SRed _ _ _ => Err TypeError
  | SBin o a b => let* x := to_float a in let* y := to_float b in Ok (py_op o x y)
  | SFun f a => let* x := to_float a in Ok (match f with FExp => exp x | FLog => ln x end)
  end.
(** np.array([d.get(x, np.nan) for x in names], dtype="float64"), base/cge.py:628-634 *)
Definition float_array (d : dict sexpr) (names : list string) : res (list float) :=
  map_res (fun x => match dget x d with Some e => let* r := to_float e in Ok (Some r) | None => Ok None end) names.

(** x < 1e-6 (base/cge.py:641); nan is not less than anything *)
Definition below_tolerance (x : float) : bool :=
  match x with Some r => if Rlt_dec r (1 / 1000000) then true else false | None => false end.

Section Calibrate.
Context (simplify evalf : sexpr -> sexpr) (solve : sexpr -> string -> list sexpr).

(** base/cge.py:618-652 calibrate. The values of the data are numbers;
    CGEModel has no method _compile (620). *)
Definition calibrate_model (m : calibration_model) (data : option (dict sexpr)) (max_iter : nat) : res result :=
  if falsy (cm_compiled m) then Err AttributeError
  else if negb (cm_sympy m) then Err NotImplementedError
  else
    match data with
    | None => Err AttributeError
    | Some data =>
      let* symbolic_data := map_res (fun kv => let* s := get_symbol m (fst kv) in Ok (s, snd kv)) data in
      let all_model_objects := cm_variables m ++ cm_parameters m in
      let* calibrated_system := recursive_solve_symbolic simplify evalf solve (cm_equations m) (dict_of_list symbolic_data) max_iter in
      let* initial_values := float_array data all_model_objects in
      let* fitted_values := float_array calibrated_system all_model_objects in
      let x0 := firstn (length (cm_variables m)) fitted_values in
      let theta0 := skipn (length (cm_variables m)) fitted_values in
      let* error := call_positional (cm_resid m) x0 theta0 in
      Ok (MkResult (cm_variables m) (cm_parameters m) initial_values fitted_values (below_tolerance error))
    end.
End Calibrate.

(** base/cge.py:1083-1088 print_residuals: the pairs logged *)
Definition print_residuals (m : calibration_model) (r : result) : res (list (string * float)) :=
  let n_vars := length (cm_variables m) in
  let* errors := call_positional (cm_system m) (firstn n_vars (r_fitted r)) (skipn n_vars (r_fitted r)) in
  Ok (combine (cm_equation_names m) errors).

(** base/cge.py:983-984, 991-1007: simulate with a Result as its initial state,
    up to the check of the names; a fitted value is a 0-d array *)
Definition simulate_from (vars params : list mobj) (r : result) : res (dict (arr float)) :=
  let x0_var_param := map (fun kv => (fst kv, mkArr [] [snd kv])) (fitted_dict r) in
  let* _ := check_initial_state vars params x0_var_param in
  Ok x0_var_param.
