(** Model of base/build.py and of what simulate and calibrate require of the
    compiled functions. *)
From Verif Require Import Py PyStr.
Local Open Scope string_scope.
Local Open Scope list_scope.

(** ** The default backend *)

(** The equations argument of cge_model: the equation strings of a list of
    equations, a dict (iterating it gives its keys) or None
    (the argument of base/build.py:98-131) *)
Inductive equations_arg := EqList (equations : list string) | EqDict (d : dict string) | EqNone.

(** base/build.py:22-34 determine_default_backend *)
Definition determine_default_backend (equations : list string) : string :=
  if existsb (fun eq => contains "Sum(" eq || contains "Prod(" eq) equations then "sympytensor"
  else if existsb (fun eq => contains "[:, None]" eq || contains "[None, :]" eq) equations then "pytensor"
  else "sympytensor".

(** base/build.py:112-113: a key of a dict has no attribute equation; None is
    not iterable *)
Definition choose_backend (backend : option string) (equations : equations_arg) : res string :=
  match backend with
  | Some b => Ok b
  | None => match equations with
            | EqList l => Ok (determine_default_backend l)
            | EqDict [] => Ok (determine_default_backend [])
            | EqDict _ => Err AttributeError
            | EqNone => Err TypeError
            end
  end.

(** ** Requests *)

(** An element of functions_to_compile, and the argument itself (base/build.py:37-46) *)
Inductive fname := FStr (s : string) | FBool (b : bool).
(** the argument of base/build.py:37-46 *)
Inductive request := RNone | ROne (f : fname) | RMany (l : list fname).

(** base/build.py:37-46 _parse_compile_kwarg *)
Definition parse_compile_kwarg (r : request) : option (list fname) :=
  match r with
  | RNone => None
  | ROne (FStr s) => if String.eqb s "all" then Some [FStr "root"; FStr "minimize"; FStr "euler"] else Some [FStr s]
  | ROne (FBool true) => Some [FStr "root"; FStr "minimize"; FStr "euler"]
  | ROne (FBool false) => Some [FBool false]
  | RMany l => Some l
  end.

(** name in functions (tests such as "euler" in functions_to_compile, compile/numba.py:167-228) *)
Definition requested_in (name : string) (l : list fname) : bool :=
  existsb (fun f => match f with FStr s => String.eqb s name | FBool _ => false end) l.

(** ** Compilation *)

(** the use_rk4 and use_scan_euler arguments, base/build.py:49-95 *)
Inductive scheme := Euler | RK4.

(** Which of the seven functions a backend returned (the system is always
    there), and the scheme of f_euler (the seven results of base/build.py:76-89) *)
Record functions := mkF { f_jac : bool; f_resid : bool; f_grad : bool; f_hess : bool; f_hessp : bool; f_euler : option scheme }.

(** "root" and "minimize" (compile/numba.py:194-214, compile/pytensor.py:312-323,
    compile/sympytensor.py:359-400, compile/jax.py:170-188) *)
Definition functions_for (l : list fname) (euler : option scheme) : functions :=
  let m := requested_in "minimize" l in mkF (requested_in "root" l) m m m m euler.

(** compile/numba.py:167-228: use_rk4 is swallowed by **kwargs and not passed on *)
Definition compile_numba (l : list fname) (use_scan use_rk4 : bool) : res functions :=
  Ok (functions_for l (if requested_in "euler" l then Some Euler else None)).

(** compile/pytensor.py:272-358: RK4 is refused by the step (231-232);
    symbolic_euler_approximation (compile/euler.py:80) has no argument grad *)
Definition compile_pytensor (l : list fname) (use_scan use_rk4 : bool) : res functions :=
  if requested_in "euler" l
  then if use_scan then Err TypeError
       else if use_rk4 then Err NotImplementedError else Ok (functions_for l (Some Euler))
  else Ok (functions_for l None).

(** compile/sympytensor.py:301-429: with use_scan_euler the symbolic n_steps is
    not among the inputs of pytensor.function (419-427) *)
Definition compile_sympytensor (l : list fname) (use_scan use_rk4 : bool) : res functions :=
  if requested_in "euler" l
  then if use_scan then Err MissingInputError
       else if use_rk4 then Err NotImplementedError else Ok (functions_for l (Some Euler))
  else Ok (functions_for l None).

(** compile/jax.py:148-203: use_scan_euler is swallowed by **kwargs *)
Definition compile_jax (l : list fname) (use_scan use_rk4 : bool) : res functions :=
  Ok (functions_for l (if requested_in "euler" l then Some (if use_rk4 then RK4 else Euler) else None)).

(** The compiled state of a CGEModel (base/cge.py:181-191): _compiled and the functions *)
Record compiled := mkC { c_compiled : option (list fname); c_functions : functions }.

(** base/cge.py:181-191: a model that was not compiled *)
Definition uncompiled : compiled := mkC (Some []) (mkF false false false false false None).

(** base/build.py:49-95 compile_model. [jax]: mode is "JAX" in any case and the
    jax package is installed. Compilation itself succeeds in the model. *)
Definition compile_model (backend : string) (jax : bool) (r : request) (use_scan use_rk4 : bool) : res compiled :=
  let* maker := if String.eqb backend "pytensor" && jax then Ok compile_jax
                else if String.eqb backend "pytensor" then Ok compile_pytensor
                else if String.eqb backend "numba" then Ok compile_numba
                else if String.eqb backend "sympytensor" then Ok compile_sympytensor
                else Err KeyError in
  let fs := parse_compile_kwarg r in
  let* f := maker (match fs with Some l => l | None => [] end) use_scan use_rk4 in
  Ok (mkC fs f).

(** ** simulate and calibrate *)

(** not self._compiled (base/cge.py:619, 971) *)
Definition falsy (c : option (list fname)) : bool := match c with None | Some [] => true | _ => false end.
(** "root" in self._compiled, base/cge.py:680, 716 *)
Definition in_compiled (name : string) (c : option (list fname)) : bool :=
  match c with Some l => requested_in name l | None => false end.

(** base/cge.py:654-656: calling f_euler; None is not callable *)
Definition solve_with_euler (c : compiled) : res unit := match f_euler (c_functions c) with Some _ => Ok tt | None => Err TypeError end.
(** base/cge.py:658-703 _solve_with_root, up to the call of the solver *)
Definition solve_with_root (c : compiled) (use_jac : bool) : res unit :=
  if use_jac && negb (in_compiled "root" (c_compiled c)) then Err ValueError else Ok tt.
(** base/cge.py:705-759 _solve_with_minimize, up to the call of the solver *)
Definition solve_with_minimize (c : compiled) : res unit :=
  if negb (in_compiled "minimize" (c_compiled c)) then Err ValueError else Ok tt.

(** base/cge.py:971-1061 simulate: the use of the compiled functions; all other
    steps succeed. CGEModel has no method _compile (981). *)
Definition simulate (c : compiled) (use_euler use_optimizer : bool) (optimizer_mode : string) (use_jac : bool) : res unit :=
  if falsy (c_compiled c) then Err AttributeError
  else
    let* _ := if use_euler then solve_with_euler c else Ok tt in
    if use_optimizer
    then if String.eqb optimizer_mode "root" then solve_with_root c use_jac
         else if String.eqb optimizer_mode "minimize" then solve_with_minimize c
         else Err ValueError
    else Ok tt.

(** base/cge.py:618-641 calibrate: the use of the compiled functions *)
Definition calibrate (c : compiled) : res unit :=
  if falsy (c_compiled c) then Err AttributeError
  else if f_resid (c_functions c) then Ok tt else Err TypeError.
