(** CGEModel.simulate from its arguments to the returned data
    (/repo/cge_modeling/base/cge.py:654-759, 983-1081, 1113-1140, base/build.py:71-95).

    The solvers root and minimize, the Euler function and the compiled functions
    are arguments. Left out: reading and writing result files (M_Results.v),
    the test that something was compiled (M_Build.v), progress bars and further
    options of the solvers. *)
From Verif Require Import Py PyStr NdArray M_Primitives M_Utilities M_Wrappers M_Simulate M_SimResult M_Build.
Local Open Scope string_scope.
Local Open Scope list_scope.

(** self.mode: None, a string or a pytensor Mode (base/cge.py:183, base/build.py:93) *)
Inductive mode := ModeNone | ModeString (s : string) | ModeObject.
(** base/build.py:74: get_mode returns a Mode for None, for a known name and for
    a Mode; excluding returns another. Unknown names are left out. *)
Definition excluding_mode (requested : mode) : mode := ModeObject.
(** base/build.py:74, 93: the recorded mode; upper() would apply to a string only *)
Definition recorded_mode (requested : mode) : mode := excluding_mode requested.
(** self.mode != "JAX", base/cge.py:733: a Mode is not equal to a string *)
Definition mode_is_not (s : string) (m : mode) : bool :=
  match m with ModeString t => negb (String.eqb t s) | _ => true end.

Section Solve.
(** Elements of arrays, and what f_system, f_jac, f_resid, f_grad, f_hess and
    f_hessp return *)
Context {V Sys Jac Loss Grad Hess Hessp : Type}.

(** An attribute of the model: None, a function of two vectors (numba) or a
    function of keyword arguments (base/cge.py:185-191). *)
Inductive fn (W : Type) := NoFn | Pos (f : list V -> list V -> res W) | Kw (f : dict (arr V) -> res W).
(** f_hessp, which also takes a direction (base/cge.py:190) *)
Inductive fn3 (W : Type) := NoFn3 | Pos3 (f : list V -> list V -> list V -> res W) | Kw3 (f : dict (arr V) -> res W).
Arguments NoFn {W}. Arguments Pos {W} f. Arguments Kw {W} f.
Arguments NoFn3 {W}. Arguments Pos3 {W} f. Arguments Kw3 {W} f.

(** f(x, theta), as the solvers call it (base/cge.py:691-701, 745-758). A keyword
    function is taken to refuse two positional vectors. *)
Definition call_flat {W} (f : fn W) (x theta : list V) : res W :=
  match f with NoFn => Err TypeError | Pos f => f x theta | Kw _ => Err TypeError end.
(** f(x, p, theta), base/cge.py:752 *)
Definition call_flat3 {W} (f : fn3 W) (x p theta : list V) : res W :=
  match f with NoFn3 => Err TypeError | Pos3 f => f x p theta | Kw3 _ => Err TypeError end.
(** f of keyword arguments given as a dict, base/function_wrappers.py:56, base/cge.py:1135 *)
Definition call_keywords {W} (f : fn W) (data : dict (arr V)) : res W :=
  match f with NoFn => Err TypeError | Pos _ => Err TypeError | Kw f => f data end.
(** base/function_wrappers.py:73 *)
Definition call_keywords3 {W} (f : fn3 W) (data : dict (arr V)) : res W :=
  match f with NoFn3 => Err TypeError | Pos3 _ => Err TypeError | Kw3 f => f data end.

(** The compiled model (base/cge.py:146-191) *)
Record model := MkModel {
  m_coords : coords;
  m_variables : list mobj;
  m_parameters : list mobj;
  m_backend : string;
  m_mode : mode;
  m_compiled : option (list fname);
  m_system : fn Sys;
  m_jac : fn Jac;
  m_resid : fn Loss;
  m_grad : fn Grad;
  m_hess : fn Hess;
  m_hessp : fn3 Hessp
}.

(** What root is called with (base/cge.py:691-701) *)
Record root_problem := MkRoot { rp_f : fn Sys; rp_x0 : list V; rp_theta : list V; rp_jac : option (fn Jac) }.
(** What minimize is called with (base/cge.py:745-758) *)
Record min_problem := MkMin {
  mp_f : fn Loss; mp_x0 : list V; mp_theta : list V;
  mp_jac : option (fn Grad); mp_hess : option (fn Hess); mp_hessp : option (fn3 Hessp) }.
(** The attributes x and success of an OptimizeResult (base/cge.py:1063, 1069) *)
Record answer := MkAnswer { a_x : list V; a_success : bool }.

(** base/function_wrappers.py:49-56 applied to an attribute; ft.wraps accepts None *)
Definition wrap {W} (m : model) (f : fn W) : fn W :=
  Pos (wrap_pytensor_func_for_scipy (call_keywords f) (m_variables m) (m_parameters m) (m_coords m)).
(** base/function_wrappers.py:58-73 applied to f_hessp *)
Definition wrap3 {W} (m : model) (f : fn3 W) : fn3 W :=
  Pos3 (wrap_pytensor_func_for_scipy_p (call_keywords3 f) (m_variables m) (m_parameters m) (m_coords m)).

(** base/cge.py:658-703 _solve_with_root *)
Definition solve_with_root (root : root_problem -> res answer) (m : model) (data : dict (arr V)) (theta_final : list V) (use_jac : bool)
  : res answer :=
  if use_jac && negb (in_compiled "root" (m_compiled m)) then Err ValueError
  else
    let keywords := mem_str (m_backend m) ["pytensor"; "sympytensor"] in
    let f_system := if keywords then wrap m (m_system m) else m_system m in
    let f_jac := if keywords then wrap m (m_jac m) else m_jac m in
    let* x0 := variable_dict_to_flat_array data (m_variables m) (m_parameters m) in
    root (MkRoot f_system (fst x0) theta_final (if use_jac then Some f_jac else None)).

(** base/cge.py:705-759 _solve_with_minimize *)
Definition solve_with_minimize (table : dict mode_kwargs) (minimize : min_problem -> res answer) (m : model) (data : dict (arr V))
  (theta_final : list V) (use_jac use_hess use_hessp : option bool) (method : string) : res answer :=
  if negb (in_compiled "minimize" (m_compiled m)) then Err ValueError
  else
    let* flags := minimize_passes table use_jac use_hess use_hessp method in
    let '(use_jac, use_hess, use_hessp) := flags in
    let keywords := (mem_str (m_backend m) ["pytensor"] && mode_is_not "JAX" (m_mode m)) || String.eqb (m_backend m) "sympytensor" in
    let f_resid := if keywords then wrap m (m_resid m) else m_resid m in
    let f_grad := if keywords then wrap m (m_grad m) else m_grad m in
    let f_hess := if keywords then wrap m (m_hess m) else m_hess m in
    let f_hessp := if keywords then wrap3 m (m_hessp m) else m_hessp m in
    let* x0 := variable_dict_to_flat_array data (m_variables m) (m_parameters m) in
    minimize (MkMin f_resid (fst x0) theta_final (if use_jac then Some f_grad else None)
                    (if use_hess then Some f_hess else None) (if use_hessp then Some f_hessp else None)).

(** ** The Euler approximation *)
Section Steps.
Context (isnan : V -> bool).

(** a[k] on an array whose first axis is step (base/cge.py:1040-1041, 1120-1121) *)
Definition row (a : arr V) (k : nat) : arr V :=
  mkArr (tl (ashape a)) (slice (adata a) (k * prodn (tl (ashape a))) (prodn (tl (ashape a)))).
(** isel(step=k).to_dict()[group] (base/cge.py:1040-1041, 1120-1121) *)
Definition state_at (ds : dataset V) (k : nat) : dict (arr V) := map (fun kv => (fst kv, row (snd (snd kv)) k)) ds.
(** The steps of a group with a NaN in some variable (base/cge.py:1027-1028) *)
Definition nan_steps (n : nat) (ds : dataset V) : list bool :=
  map (fun k => existsb (fun kv => existsb isnan (adata (row (snd (snd kv)) k))) ds) (seq 0 n).
(** dropna(dim="step"): the rows of the given steps (base/cge.py:1027-1028) *)
Definition keep_steps (steps : list nat) (ds : dataset V) : dataset V :=
  map (fun kv => (fst kv, (fst (snd kv), mkArr (length steps :: tl (ashape (snd (snd kv))))
                                              (flat_map (fun k => adata (row (snd (snd kv)) k)) steps)))) ds.

(** base/cge.py:654-656, 1022-1042: the groups returned under euler, whether the
    warning is logged, and the data the optimizer starts from *)
Definition euler_start (f_euler : dict (arr V) -> list V -> nat -> res (list (arr V))) (m : model) (data : dict (arr V))
  (theta : list V) (n_iter : nat) : res ((dataset V * dataset V) * bool * dict (arr V)) :=
  let* arrays := f_euler data theta n_iter in
  let* idata := list_of_array_to_idata arrays (m_coords m) (m_variables m) (m_parameters m) in
  let n := match arrays with a :: _ => hd 0 (ashape a) | [] => 0 end in
  let nan_v := nan_steps n (fst idata) in
  let nan_p := nan_steps n (snd idata) in
  let* start := optimizer_start n_iter nan_v nan_p in
  let '(warned, (rv, rp)) := start in
  Ok ((keep_steps (kept nan_v) (fst idata), keep_steps (kept nan_p) (snd idata)), warned,
      dupdate (state_at (fst idata) rv) (state_at (snd idata) rp)).
End Steps.

(** ** simulate *)

(** The argument initial_state: a dict, a Result with its fitted values, an
    xarray Dataset or anything else (base/cge.py:983-995) *)
Inductive state := SDict (d : dict (arr V)) | SResult (fitted : dict (arr V)) | SDataset (d : dict (arr V)) | SOther.

(** base/cge.py:983-995. A Dataset has no attribute parameters; it is taken not
    to hold a variable of that name. *)
Definition read_state (m : model) (s : state) : res (dict (arr V)) :=
  match s with
  | SDict d => Ok d
  | SResult fitted => Ok fitted
  | SDataset d =>
      let* vs := map_res (fun o => let* a := dgetitem (o_name o) d in Ok (o_name o, a)) (m_variables m) in
      let* ps := map_res (fun _ => Err AttributeError) (m_parameters m) in
      Ok (dupdate (dict_of_list vs) ps)
  | SOther => Err ValueError
  end.

(** initial_values[obj.name] of tools/output_tools.py:468-482 needs a mapping:
    a Result has no __getitem__ (base/primitives.py:283-316) *)
Definition subscriptable (s : state) : res (dict (arr V)) :=
  match s with SDict d | SDataset d => Ok d | SResult _ | SOther => Err TypeError end.

(** The keyword arguments of simulate that reach the solvers (base/cge.py:1044-1060) *)
Record options := MkOptions {
  use_euler : bool; use_optimizer : bool; optimizer_mode : string; n_iter_euler : nat;
  kw_jac : option (option bool); kw_hess : option (option bool); kw_hessp : option (option bool); kw_method : option string }.

(** return_values, and whether the optimizer is reported as not converged (base/cge.py:1020, 1063-1071) *)
Record outcome := MkOutcome {
  r_euler : option (dataset V * dataset V);
  r_optimizer : option (dataset V * dataset V);
  r_warned : bool }.

Section Simulate.
Context (isnan : V -> bool) (vadd vmul : arr V -> arr V -> res (arr V)) (table : dict mode_kwargs).
Context (root : root_problem -> res answer) (minimize : min_problem -> res answer).
Context (f_euler : dict (arr V) -> list V -> nat -> res (list (arr V))).

(** use_jac as a condition of _solve_with_root: None is false (base/cge.py:680, 695) *)
Definition truthy (b : option bool) : bool := match b with Some b => b | None => false end.

(** base/cge.py:983-1081 simulate *)
Definition simulate (m : model) (initial_state : state) (fv fd fp : option (dict (arr V))) (o : options) : res outcome :=
  let* x0_var_param := read_state m initial_state in
  let* theta := simulation_theta vadd vmul (m_variables m) (m_parameters m) x0_var_param fv fd fp in
  let* eu := if use_euler o
             then let* e := euler_start isnan f_euler m x0_var_param theta (n_iter_euler o) in
                  let '(groups, _, data) := e in Ok (Some groups, data)
             else Ok (None, x0_var_param) in
  let data := snd eu in
  if use_optimizer o then
    let* ans :=
      if String.eqb (optimizer_mode o) "root"
      then solve_with_root root m data theta (truthy (pop_default (kw_jac o) (Some true)))
      else if String.eqb (optimizer_mode o) "minimize"
      then solve_with_minimize table minimize m data theta (pop_default (kw_jac o) (Some true)) (pop_default (kw_hess o) (Some true))
             (pop_default (kw_hessp o) (Some true)) (pop_default (kw_method o) "trust-ncg")
      else Err ValueError in
    let* _ := flat_array_to_variable_dict (a_x ans ++ theta) (m_variables m ++ m_parameters m) (dset "step" [LInt 0; LInt 1] (m_coords m)) in
    let* initial := subscriptable initial_state in
    let* idata := optimizer_result_to_idata (a_x ans) theta initial (m_coords m) (m_variables m) (m_parameters m) in
    Ok (MkOutcome (fst eu) (Some idata) (negb (a_success ans)))
  else Ok (MkOutcome (fst eu) None false).
End Simulate.

(** base/cge.py:1113-1121, 1134-1140: the residuals check_for_equilibrium computes
    from one of the returned groups; [last] is the number of steps less one *)
Definition equilibrium_errors (m : model) (groups : dataset V * dataset V) (last : nat) : res Sys :=
  let data := dupdate (state_at (fst groups) last) (state_at (snd groups) last) in
  if mem_str (m_backend m) ["pytensor"; "sympytensor"] then call_keywords (m_system m) data
  else
    let* xt := variable_dict_to_flat_array data (m_variables m) (m_parameters m) in
    call_flat (m_system m) (fst xt) (snd xt).
End Solve.
Arguments NoFn {V W}. Arguments Pos {V W} f. Arguments Kw {V W} f.
Arguments NoFn3 {V W}. Arguments Pos3 {V W} f. Arguments Kw3 {V W} f.
Arguments fn : clear implicits. Arguments fn3 : clear implicits. Arguments model : clear implicits.
Arguments root_problem : clear implicits. Arguments min_problem : clear implicits. Arguments answer : clear implicits.
Arguments state : clear implicits. Arguments outcome : clear implicits.
