(** Model of the modes of compiled functions: which objects the backends
    return, and whether these return numpy arrays
    (base/build.py:58-95, compile/pytensor.py:272-358,
    compile/sympytensor.py:138-170, 307-429, compile/jax.py:148-203,
    base/function_wrappers.py:200-205).

    pytensor, jax and functools are external. A pytensor Function compiled with
    the JAX linker returns jax arrays, with another linker numpy arrays; its
    virtual machine has the attribute jit_fn for the JAX and the Numba linker.
    functools.wraps copies the attributes of the wrapped object. Simplified: the
    Euler function is the one with a Python loop (the other does not compile, see
    M_Build), and its result are numpy arrays in every mode; matrices are dense
    (use_sparse_matrices is False). *)
From Verif Require Import Py PyStr M_Build.
Local Open Scope string_scope.
Local Open Scope list_scope.

(** mode.linker (compile/sympytensor.py:166) *)
Inductive linker := LOther | LJax | LNumba.
(** The argument mode of the backends (compile/pytensor.py:275) *)
Inductive mode := MNone | MName (s : string) | MMode (l : linker).

(** A compiled function: a pytensor Function, a function jitted by jax or the
    jitted function of a virtual machine, one of these wrapped, or a
    functools.partial (compile/pytensor.py:283-358, compile/jax.py:158-203) *)
Inductive fobj := FFunction (l : linker) | FJit (l : linker) | FArray (f : fobj) | FScipy (f : fobj) | FPartial.

(** What a call returns (base/function_wrappers.py:203) *)
Inductive result := Numpy | Jax.
(** base/function_wrappers.py:200-205: np.array of the result; wrap_scipy_func_for_pytensor
    (77-104) returns what the function returns *)
Fixpoint returns (f : fobj) : result :=
  match f with
  | FFunction LJax | FJit LJax => Jax
  | FFunction _ | FJit _ => Numpy
  | FArray _ => Numpy
  | FScipy f => returns f
  | FPartial => Numpy
  end.

(** f.vm (compile/pytensor.py:354): the wrapper has a copy of the attributes *)
Fixpoint vm (f : fobj) : res linker :=
  match f with
  | FFunction l => Ok l
  | FJit _ => Err AttributeError
  | FArray f => vm f
  | FScipy f => vm f
  | FPartial => Err AttributeError
  end.
(** .jit_fn (compile/pytensor.py:354) *)
Definition jit_fn (l : linker) : res fobj := match l with LOther => Err AttributeError | _ => Ok (FJit l) end.

(** mode == name: a Mode is no string (compile/pytensor.py:295, 352) *)
Definition mode_is (name : string) (m : mode) : bool := match m with MName s => String.eqb s name | _ => false end.

(** The seven functions, None when not requested (compile/pytensor.py:301-306) *)
Definition functions := list (option fobj).
(** A function if requested (compile/pytensor.py:312-346) *)
Definition when (b : bool) (f : fobj) : option fobj := if b then Some f else None.

(** compile/pytensor.py:351-354 unwrap_jit_fn *)
Definition unwrap_jit_fn (m : mode) (f : option fobj) : res (option fobj) :=
  match f with
  | None => Ok None
  | Some g => if mode_is "JAX" m || mode_is "NUMBA" m
              then let* v := vm g in let* j := jit_fn v in Ok (Some j)
              else Ok (Some g)
  end.

Section Linkers.
(** The linker of the mode pytensor takes for an argument (get_mode) *)
Variable linker_of : option string -> linker.
(** pytensor.function(mode=mode) (compile/pytensor.py:287, compile/sympytensor.py:160) *)
Definition mode_linker (m : mode) : linker :=
  match m with MNone => linker_of None | MName s => linker_of (Some s) | MMode l => l end.

(** compile/pytensor.py:272-358 compile_pytensor_cge_functions *)
Definition compile_pytensor_modes (l : list fname) (m : mode) : res functions :=
  let f := FFunction (mode_linker m) in
  let f_system := if mode_is "JAX" m then FArray f else f in
  let root := requested_in "root" l in
  let minimize := requested_in "minimize" l in
  map_res (unwrap_jit_fn m)
    [Some f_system; when root f; when minimize f; when minimize f; when minimize f; when minimize f; when (requested_in "euler" l) FPartial].

(** compile/sympytensor.py:163-168, 191-196, 225-230, 259-264, 297-302, 336-341 *)
Definition jax_mode (m : mode) : bool := mode_is "JAX" m || match m with MMode LJax => true | _ => false end.
(** compile/sympytensor.py:163-168 and the other compile functions *)
Definition sympytensor_function (m : mode) : fobj :=
  let f := FFunction (mode_linker m) in if jax_mode m then FArray f else f.
(** compile/sympytensor.py:307-429 compile_sympytensor_cge_functions *)
Definition compile_sympytensor_modes (l : list fname) (m : mode) : res functions :=
  let f := sympytensor_function m in
  let root := requested_in "root" l in
  let minimize := requested_in "minimize" l in
  Ok [Some f; when root f; when minimize f; when minimize f; when minimize f; when minimize f; when (requested_in "euler" l) FPartial].

(** compile/jax.py:148-203 compile_jax_cge_functions; the mode is not used *)
Definition compile_jax_modes (l : list fname) : res functions :=
  let f := FScipy (FArray (FJit LJax)) in
  let root := requested_in "root" l in
  let minimize := requested_in "minimize" l in
  Ok [Some (FArray (FJit LJax)); when root f; when minimize f; when minimize f; when minimize f; when minimize f; when (requested_in "euler" l) FPartial].

(** base/build.py:58-84 compile_model for the two backends with modes: the
    argument is a name or None, the backends get a Mode. [upper] is str.upper,
    [jax_installed] whether jax is found. *)
Definition compile_model_modes (upper : string -> string) (jax_installed : bool) (backend : string) (name : option string) (r : request)
  : res functions :=
  let l := match parse_compile_kwarg r with Some l => l | None => [] end in
  let m := MMode (linker_of name) in
  if String.eqb backend "pytensor" && match name with Some s => String.eqb (upper s) "JAX" | None => false end && jax_installed
  then compile_jax_modes l
  else if String.eqb backend "pytensor" then compile_pytensor_modes l m
  else if String.eqb backend "sympytensor" then compile_sympytensor_modes l m
  else Err KeyError.
End Linkers.
