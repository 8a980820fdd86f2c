(** The function that numba_lambdify generates, statement by statement
    (compile/numba_tools.py:64-225), and the functions compiled from it
    (compile/numba.py:19-53, 167-215).

    Not modelled: the text (M_NumbaSource.v), the substitution of 1 and -1 by
    floats (lines 88-91, 131-152; it keeps values), rounding, and numba itself.
    All calls in the package pass one expression or one matrix; lists of them
    are left out. *)
From Coq Require Import Reals.
From Verif Require Import Py PyStr M_SymExpr M_Calculus.
Local Open Scope string_scope.
Local Open Scope list_scope.

(** The identifiers of Python: the first character, and the others. Bytes above
    127 are taken for letters of other alphabets (the left-hand sides of
    compile/numba_tools.py:196-210). *)
Definition ident_start (c : ascii) : bool :=
  let n := nat_of_ascii c in
  ((Nat.leb 65 n && Nat.leb n 90) || (Nat.leb 97 n && Nat.leb n 122) || Nat.eqb n 95 || Nat.leb 128 n)%bool.
(** compile/numba_tools.py:196-210 *)
Definition ident_char (c : ascii) : bool :=
  let n := nat_of_ascii c in (ident_start c || (Nat.leb 48 n && Nat.leb n 57))%bool.
(** The keywords of Python 3 (exec at compile/numba_tools.py:224 rejects assignments to them) *)
Definition keywords : list string :=
  ["False"; "None"; "True"; "and"; "as"; "assert"; "async"; "await"; "break"; "class"; "continue"; "def"; "del"; "elif"; "else"; "except";
   "finally"; "for"; "from"; "global"; "if"; "import"; "in"; "is"; "lambda"; "nonlocal"; "not"; "or"; "pass"; "raise"; "return"; "try";
   "while"; "with"; "yield"].
(** What exec accepts on the left of an assignment (compile/numba_tools.py:196-214, 224) *)
Definition is_name (s : string) : bool :=
  match s with
  | EmptyString => false
  | String c s' => (ident_start c && forallb ident_char (list_ascii_of_string s'))%bool
  end && negb (mem_str s keywords).

(** Values of the locals: numbers, arrays, and the list that f_hessp passes
    (compile/numba_tools.py:196-210, compile/numba.py:51) *)
Inductive pyval := PNum (r : R) | PArr (l : list R) | PList (l : list pyval).

(** len(x) (compile/numba_tools.py:117-124) *)
Definition py_len (x : pyval) : res nat :=
  match x with PNum _ => Err TypeError | PArr l => Ok (length l) | PList l => Ok (length l) end.

(** x[i] (compile/numba_tools.py:198, 206) *)
Definition py_item (x : pyval) (i : nat) : res pyval :=
  match x with
  | PNum _ => Err TypeError
  | PArr l => match nth_error l i with Some r => Ok (PNum r) | None => Err IndexError end
  | PList l => match nth_error l i with Some y => Ok y | None => Err IndexError end
  end.

(** The lines "name = src[i]" (compile/numba_tools.py:196-210) *)
Fixpoint unpack_inputs (src : string) (i : nat) (names : list string) (env : dict pyval) : res (dict pyval) :=
  match names with
  | [] => Ok env
  | n :: names' =>
    match dget src env with
    | Some x => let* y := py_item x i in unpack_inputs src (S i) names' (dset n y env)
    | None => Err NameError
    end
  end.

(** The arithmetic of the printed operators (compile/numba_tools.py:170). A power
    with an integral exponent is a product, whether or not the exponent was
    written as an integer. Negative bases with other exponents (nan in numpy)
    and division by zero have no special value here. *)
Definition py_pow (x y : R) : R := if Req_EM_T y (IZR (Int_part y)) then powerRZ x (Int_part y) else Rpower x y.
(** compile/numba_tools.py:170 *)
Definition py_op (o : binop) (x y : R) : R :=
  match o with OAdd => x + y | OSub => x - y | OMul => x * y | ODiv => x / y | OPow => py_pow x y end%R.

(** Evaluation of a printed expression (compile/numba_tools.py:169-192, 218-221).
    An array in place of a number, an index that is not an integer and a
    reduction are errors. *)
Fixpoint eval (env : dict pyval) (e : sexpr) : res R :=
  match e with
  | SNum z => Ok (IZR z)
  | SSym s => match dget s env with Some (PNum r) => Ok r | Some _ => Err TypeError | None => Err NameError end
  | SIx b l =>
    match dget b env, l with
    | Some x, [IPos i] => let* y := py_item x i in match y with PNum r => Ok r | _ => Err TypeError end
    | Some _, _ => Err TypeError
    | None, _ => Err NameError
    end
  | SBin o a b => let* x := eval env a in let* y := eval env b in Ok (py_op o x y)
  | SFun FExp a => let* x := eval env a in Ok (exp x)
  | SFun FLog a => let* x := eval env a in Ok (ln x)
  | SRed _ _ _ => Err TypeError
  end.

(** The lines "x0 = ..." of the common sub-expressions (compile/numba_tools.py:212-214) *)
Definition run_assignments (defs : list (string * sexpr)) (env : dict pyval) : res (dict pyval) :=
  fold_res (fun env d => let* r := eval env (snd d) in Ok (dset (fst d) (PNum r) env)) env defs.

(** What is compiled: an expression or a matrix (compile/numba_tools.py:131-152) *)
Inductive target := TExpr (e : sexpr) | TMat (rows : list (list sexpr)).
(** its expressions, row by row, as sp.cse sees them (compile/numba_tools.py:153) *)
Definition cells (t : target) : list sexpr := match t with TExpr e => [e] | TMat rows => List.concat rows end.

(** rows of a flat matrix (ex.tolist(), compile/numba_tools.py:157-160) *)
Fixpoint rows_of {A} (n : nat) (k : nat) (l : list A) : list (list A) :=
  match n with O => [] | S n' => firstn k l :: rows_of n' k (skipn k l) end.

(** The returned array (compile/numba_tools.py:188-190) *)
Inductive outval := OScalar (r : R) | OVec (l : list R) | OMat (rows : list (list R)).
(** np.array(...) and .ravel() (compile/numba_tools.py:188-190) *)
Definition finish (t : target) (ravel_outputs : bool) (vals : list R) : outval :=
  if ravel_outputs then OVec vals
  else match t with
       | TExpr _ => OScalar (hd 0%R vals)
       | TMat rows => OMat (rows_of (length rows) (ncols rows) vals)
       end.

Section Lambdify.
(** sp.cse: definitions and the expressions that use them (compile/numba_tools.py:153) *)
Context (cse : list sexpr -> list (string * sexpr) * list sexpr).

(** compile/numba_tools.py:64-225 numba_lambdify. A name assigned in the function
    is local: len is then unbound in the length checks (an UnboundLocalError,
    which is a NameError), and np is no module. *)
Definition numba_lambdify (exog_vars : list string) (expr : target) (endog_vars : list string) (ravel_outputs : bool)
  : res (pyval -> pyval -> res outval) :=
  let '(sub_dict, exprs) := cse (cells expr) in
  let assigned := exog_vars ++ endog_vars ++ map fst sub_dict in
  if negb (forallb is_name assigned) then Err SyntaxError else
  Ok (fun exog_inputs endog_inputs =>
    if mem_str "len" assigned then Err NameError else
    let* n_exog := py_len exog_inputs in
    if negb (Nat.eqb n_exog (length exog_vars)) then Err AssertionError else
    let* n_endog := py_len endog_inputs in
    if negb (Nat.eqb n_endog (length endog_vars)) then Err AssertionError else
    let env0 := [("exog_inputs", exog_inputs); ("endog_inputs", endog_inputs)] in
    let* env1 := unpack_inputs "exog_inputs" 0 exog_vars env0 in
    let* env2 := unpack_inputs "endog_inputs" 0 endog_vars env1 in
    let* env3 := run_assignments sub_dict env2 in
    if mem_str "np" assigned then Err AttributeError else
    let* vals := map_res (eval env3) exprs in
    Ok (finish expr ravel_outputs vals)).

(** A function of two flat vectors (compile/numba.py:177-182) *)
Definition call2 (f : pyval -> pyval -> res outval) (x theta : list R) : res outval := f (PArr x) (PArr theta).

(** compile/numba.py:177-182: the system *)
Definition compile_numba_system (equations : list sexpr) (variables parameters : list string) : res (list R -> list R -> res outval) :=
  let* f := numba_lambdify variables (TMat (map (fun e => [e]) equations)) parameters true in Ok (call2 f).

(** compile/numba.py:19-24 compile_numba_jacobian_function; also used for the
    Hessian, with the gradient as a column (lines 206-208) *)
Definition compile_numba_jacobian_function (equations : system) (variables parameters : list string) : res (list R -> list R -> res outval) :=
  let* jac := make_sympy_jacobian equations variables in
  let* f := numba_lambdify variables (TMat jac) parameters false in Ok (call2 f).

(** compile/numba.py:27-32 compile_numba_error_function *)
Definition compile_numba_error_function (equations : list sexpr) (variables parameters : list string) : res (list R -> list R -> res outval) :=
  let* f := numba_lambdify variables (TExpr (squared_loss equations)) parameters false in Ok (call2 f).

(** compile/numba.py:35-40 compile_numba_gradient_function *)
Definition compile_numba_gradient_function (loss : sexpr) (variables parameters : list string) : res (list R -> list R -> res outval) :=
  let grad := make_sympy_gradient loss variables in
  let* f := numba_lambdify variables (TMat (map (fun e => [e]) grad)) parameters true in Ok (call2 f).

(** np.r_[a].ravel() (compile/numba.py:51) *)
Definition ravel (o : outval) : list R :=
  match o with OScalar r => [r] | OVec l => l | OMat rows => List.concat rows end.

(** compile/numba.py:43-53 compile_numba_hessp_function. The list passed holds
    numbers and one array; that numba accepts such a list is not modelled. *)
Definition compile_numba_hessp_function (grad : list sexpr) (variables parameters : list string)
  : res (list R -> list R -> list R -> res (list R)) :=
  let hessp := make_sympy_hessp grad variables in
  let* f := numba_lambdify (variables ++ ["hess_point"]) (TMat (map (fun e => [e]) hessp)) parameters false in
  Ok (fun x p theta => let* o := f (PList (map PNum x ++ [PArr p])) (PArr theta) in Ok (ravel o)).
End Lambdify.
