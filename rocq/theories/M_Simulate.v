(** CGEModel.simulate and its helpers, up to the numerical solvers
    (/repo/cge_modeling/base/cge.py:658-759, 863-1081). *)
From Verif Require Import Py PyStr NdArray M_Primitives M_Utilities.

(** base/cge.py:705-759 _solve_with_minimize: which of jac, hess and hessp are
    handed to the minimizer. Line 721 resolves the flags, lines 729-731 drop
    use_hess without a gradient, lines 750-752 pass or withhold each function. *)
Definition minimize_passes (table : dict mode_kwargs) (use_jac use_hess use_hessp : option bool)
           (method : string) : res (bool * bool * bool) :=
  let* f := get_method_defaults table use_jac use_hess use_hessp method in
  let '(j, h, hp) := f in
  let h := if negb j && h then false else h in
  Ok (j, h, hp).

(** optimizer_kwargs.pop(k, default): [None] = keyword absent, [Some x] = the
    caller passed x (possibly Python None) (base/cge.py:1046-1052). *)
Definition pop_default {A} (kw : option A) (default : A) : A :=
  match kw with Some x => x | None => default end.

(** base/cge.py:1044-1053 (branch optimizer_mode="minimize" of simulate):
    use_jac and use_hess default to True, use_hessp to the default True of
    _solve_with_minimize (line 711), method to "trust-ncg" (line 720). *)
Definition simulate_minimize_passes (table : dict mode_kwargs) (kw_jac kw_hess kw_hessp : option (option bool))
           (kw_method : option string) : res (bool * bool * bool) :=
  minimize_passes table (pop_default kw_jac (Some true)) (pop_default kw_hess (Some true))
                  (pop_default kw_hessp (Some true)) (pop_default kw_method "trust-ncg"%string).

Section Scenario.
Context {V : Type}.
Context (vadd vmul : arr V -> arr V -> res (arr V)).

(** base/cge.py:986-1000: the initial state must have exactly the names of the
    model's variables and parameters. Dict case of initial_state. *)
Definition check_initial_state (vars params : list mobj) (x0 : dict (arr V)) : res unit :=
  let all_model_objs := (map o_name vars ++ map o_name params)%list in
  if negb (forallb (fun x => dmem x x0) all_model_objs) then Err ValueError
  else if existsb (fun x => negb (mem_str x all_model_objs)) (dkeys x0) then Err ValueError
  else Ok tt.

(** base/cge.py:986-1008: validation, scenario and the parameter vector of the
    simulated economy. *)
Definition simulation_theta (vars params : list mobj) (x0 : dict (arr V))
           (fv fd fp : option (dict (arr V))) : res (list V) :=
  let* _ := check_initial_state vars params x0 in
  let* final := create_final_param_dict vadd vmul x0 fv fd fp in
  let* vp := variable_dict_to_flat_array final vars params in
  Ok (snd vp).
End Scenario.
