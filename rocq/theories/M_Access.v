(** Reading a model object: indexing, repr and to_dict
    (/repo/cge_modeling/base/primitives.py:174-188); the packed variables of a
    model (/repo/cge_modeling/base/cge.py:237-238); and three helpers that no
    other function calls (/repo/cge_modeling/compile/sympytensor.py:66-135,
    /repo/cge_modeling/tools/utils.py:15-33). *)
From Verif Require Import Py PyStr M_Primitives M_SymExpr M_Calculus M_Simplify M_Registry.
Local Open Scope string_scope.
Local Open Scope list_scope.

(** What an attribute or an entry of to_dict holds (base/primitives.py:48-58, 180-188) *)
Inductive avalue := AStr (s : string) | ATuple (l : list string) | ADict (d : dict label) | ABool (b : bool) | AInt (n : nat) | ASympy (e : sexpr)
| AFlags (real positive : bool).

(** The attributes of a Variable or Parameter that hold data: the fields
    (base/primitives.py:48-58) and sort_index (line 64). Methods and the names
    that Python defines itself are left out. *)
Definition attributes (o : mobj) : dict avalue :=
  [("name", AStr (o_name o)); ("dims", ATuple (o_dims o)); ("dim_vals", ADict (o_dim_vals o)); ("latex_name", AStr (o_latex_name o));
   ("_full_latex_name", AStr (o_full_latex o)); ("description", AStr (o_description o)); ("base_name", AStr (o_base_name o));
   ("real", ABool (o_real o)); ("positive", ABool (o_positive o)); ("extend_subscript", AInt (o_extend o));
   ("assumptions", AFlags (o_real o) (o_positive o)); ("sort_index", AStr (o_name o))].

(** base/primitives.py:174-175 ModelObject.__getitem__ *)
Definition getitem (o : mobj) (item : string) : res avalue :=
  match dget item (attributes o) with Some v => Ok v | None => Err AttributeError end.

(** base/primitives.py:177-178 ModelObject.__repr__ *)
Definition repr (o : mobj) : string := o_full_latex o.

(** base/primitives.py:180-188 ModelObject.to_dict *)
Definition to_dict (o : mobj) : dict avalue :=
  [("name", AStr (o_name o)); ("dims", ATuple (o_dims o)); ("sympy", ASympy (to_sympy o)); ("latex_name", AStr (o_full_latex o));
   ("dim_vals", ADict (o_dim_vals o)); ("description", AStr (o_description o))].

(** base/cge.py:237-238 CGEModel.variables *)
Definition variables (m : model) : list mobj := dvals (m_vars m).

(** A call with [n] positional arguments of a function with [arity] parameters
    and no defaults (compile/sympytensor.py:88, 133) *)
Definition positional {A} (arity n : nat) (result : res A) : res A := if Nat.eqb n arity then result else Err TypeError.

Section Helpers.
(** as_tensor of sympytensor: a graph, or an error (compile/sympytensor.py:87, 132) *)
Context {G : Type} (as_tensor : list sexpr -> res G) (graph_replace : G -> res G).

(** compile/pytensor_tools.py:218-222 unpacked_graph_to_packed_graph: two
    parameters; here it is called with four arguments
    (compile/sympytensor.py:88, 133) *)
Definition packed_graph (n_args : nat) (g : G) : res G := positional 2 n_args (graph_replace g).

(** compile/sympytensor.py:66-90 make_sympytensor_jacobian. The cells of the
    matrix are passed on as a list. *)
Definition make_sympytensor_jacobian (equations : option (list sexpr)) (unpacked_equations : list sexpr) (variables parameters : list string)
  (wrt : string) (sparse : bool) : res G :=
  let equations := match equations with Some l => l | None => unpacked_equations end in
  let wrt_symbols := if String.eqb wrt "variables" then variables else parameters in
  let* jac := if sparse then let* j := sparse_jacobian (SysList equations) wrt_symbols in Ok (map snd (snd j))
              else let* j := make_sympy_jacobian (SysList equations) wrt_symbols in Ok (List.concat j) in
  let* unpacked_jac := as_tensor jac in
  packed_graph 4 unpacked_jac.

(** compile/sympytensor.py:93-135 make_sympytensor_jvp *)
Definition make_sympytensor_jvp (grad : list sexpr) (variables parameters : list string) (wrt : string) : res (G * string) :=
  let wrt_symbols := if String.eqb wrt "variables" then variables else parameters in
  let jvp := make_sympy_hessp grad wrt_symbols in
  let* unpacked_jvp := as_tensor jvp in
  let* packed := packed_graph 4 unpacked_jvp in
  Ok (packed, "hess_point").
End Helpers.

(** What a name is bound to: something that can be called or a module
    (tools/utils.py:3: from IPython import display) *)
Inductive binding (A : Type) := BFunction (f : A -> res unit) | BModule.
Arguments BModule {A}.
(** A call (tools/utils.py:33) *)
Definition call_binding {A} (b : binding A) (x : A) : res unit := match b with BFunction f => f x | BModule => Err TypeError end.
(** tools/utils.py:31-33 print_latex. IPython.display is a module, which cannot
    be called. *)
Definition print_latex {A} (eqs : list A) : res unit := fold_res (fun _ eq => call_binding BModule eq) tt eqs.

(** tools/utils.py:15-28 initialize_progress_bar: the columns *)
Definition progress_columns (stat_string : option string) : list string :=
  let columns := ["text"; "spinner"; "bar"; "time"; "m_of_n"] in
  match stat_string with Some _ => columns ++ ["stat"] | None => columns end.
