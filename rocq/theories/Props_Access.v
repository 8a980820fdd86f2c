(** C113: what a model object shows of itself. C114: helpers that cannot be used. *)
From Verif Require Import Py PyStr M_Primitives M_Equations M_SymExpr M_Calculus M_Simplify M_Registry M_Access S_Access L_Access.
Local Open Scope string_scope.
Local Open Scope list_scope.

(** ** C113 *)
Theorem c113_shown :
  forall (greek : string -> string) (k : kind) (name : string) (a : dims_arg) (dv : option (dict label)) (latex descr : option string)
         (real positive : bool) (extend : nat) (o o' : mobj) (us : list (string * label)),
  mk_object greek k name a dv latex descr real positive extend = Ok o -> labelled o us o' ->
  let lab := fun d => last_set us d (dget d (match dv with Some l => l | None => [] end)) in
  dkeys (to_dict o') = ["name"; "dims"; "sympy"; "latex_name"; "dim_vals"; "description"] /\
  dget "name" (to_dict o') = Some (AStr name) /\
  (exists dims, initialize_index a = Ok dims /\ dget "dims" (to_dict o') = Some (ATuple dims) /\
     dget "sympy" (to_dict o') = Some (ASympy (symbol_of_labels name dims lab)) /\
     (extend = 0 -> dget "latex_name" (to_dict o') = Some (AStr (printed (greek (match latex with Some s => s | None => name end)) dims lab)))) /\
  (exists d, dget "dim_vals" (to_dict o') = Some (ADict d) /\ forall x, dget x d = lab x) /\
  dget "latex_name" (to_dict o') = Some (AStr (repr o')).
Proof. exact @c113_shown__p. Qed.
Print Assumptions c113_shown.
Theorem c113_like_new :
  forall (greek : string -> string) (k : kind) (name : string) (a : dims_arg) (dv : option (dict label)) (latex descr : option string)
         (real positive : bool) (extend : nat) (o o' n : mobj) (us : list (string * label)) (d : dict label),
  mk_object greek k name a dv latex descr real positive extend = Ok o -> labelled o us o' ->
  (forall x, dget x d = last_set us x (dget x (match dv with Some l => l | None => [] end))) ->
  mk_object greek k name a (Some d) latex descr real positive extend = Ok n ->
  repr o' = repr n /\ dget "sympy" (to_dict o') = dget "sympy" (to_dict n) /\ dget "latex_name" (to_dict o') = dget "latex_name" (to_dict n) /\
  dget "dims" (to_dict o') = dget "dims" (to_dict n).
Proof. exact @c113_like_new__p. Qed.
Print Assumptions c113_like_new.
Theorem c113_refused :
  forall (o : mobj) (d : string) (l : label),
  (In d (o_dims o) -> exists o', update_dim_value o d l = Ok o') /\ (~ In d (o_dims o) -> update_dim_value o d l = Err ValueError).
Proof. exact @c113_refused__p. Qed.
Print Assumptions c113_refused.
Theorem c113_getitem :
  forall (o : mobj) (key : string),
  In key ["name"; "dims"; "dim_vals"; "description"] -> exists v, getitem o key = Ok v /\ dget key (to_dict o) = Some v.
Proof. exact @c113_getitem__p. Qed.
Print Assumptions c113_getitem.
Theorem c113_attributes :
  forall (greek : string -> string) (k : kind) (name : string) (a : dims_arg) (dv : option (dict label)) (latex descr : option string)
         (real positive : bool) (extend : nat) (o o' : mobj) (us : list (string * label)),
  mk_object greek k name a dv latex descr real positive extend = Ok o -> labelled o us o' ->
  getitem o' "base_name" = Ok (AStr name) /\ getitem o' "real" = Ok (ABool real) /\ getitem o' "positive" = Ok (ABool positive) /\
  getitem o' "assumptions" = Ok (AFlags real positive) /\ getitem o' "extend_subscript" = Ok (AInt extend) /\
  getitem o' "sort_index" = Ok (AStr name) /\ getitem o' "_full_latex_name" = Ok (AStr (repr o')) /\
  getitem o' "latex_name" = Ok (AStr (greek (match latex with Some s => s | None => name end))) /\
  forall key, ~ In key ["name"; "dims"; "dim_vals"; "description"; "base_name"; "real"; "positive"; "assumptions"; "extend_subscript"; "sort_index"; "_full_latex_name"; "latex_name"] ->
    getitem o' key = Err AttributeError.
Proof. exact @c113_attributes__p. Qed.
Print Assumptions c113_attributes.
Theorem c113_latex_refuted :
  forall (greek : string -> string) (k : kind) (name : string) (a : dims_arg) (dv : option (dict label)) (latex descr : option string)
         (real positive : bool) (o : mobj),
  mk_object greek k name a dv latex descr real positive 0 = Ok o -> initialize_index a <> Ok [] ->
  exists s t, getitem o "latex_name" = Ok (AStr s) /\ dget "latex_name" (to_dict o) = Some (AStr t) /\ String.length s < String.length t.
Proof. exact @c113_latex_refuted__p. Qed.
Print Assumptions c113_latex_refuted.
Theorem c113_description :
  forall (greek : string -> string) (k : kind) (name : string) (a : dims_arg) (dv : option (dict label)) (latex : option string)
         (real positive : bool) (extend : nat) (o o' : mobj) (us : list (string * label)),
  mk_object greek k name a dv latex None real positive extend = Ok o -> labelled o us o' -> contains_char "<" (repr o) = false ->
  dget "description" (to_dict o') =
  Some (AStr (repr o ++ ", Positive = " ++ (if positive then "True" else "False") ++ ", Real = " ++ (if real then "True" else "False"))).
Proof. exact @c113_description__p. Qed.
Print Assumptions c113_description.
Theorem c113_description_refuted :
  exists (o o' : mobj), mk_object (fun s => s) KVar "x" (DStr "i") None None None true true 0 = Ok o /\ update_dim_value o "i" (LStr "A") = Ok o' /\
  repr o' = "x_{i=\text{A}}" /\ getitem o' "description" = Ok (AStr "x_{i}, Positive = True, Real = True") /\
  exists n, mk_object (fun s => s) KVar "x" (DStr "i") (Some [("i", LStr "A")]) None None true true 0 = Ok n /\
  getitem n "description" = Ok (AStr "x_{i=\text{A}}, Positive = True, Real = True").
Proof. exact @c113_description_refuted__p. Qed.
Print Assumptions c113_description_refuted.
Theorem c113_variables :
  forall (order : list string -> list string) (parse : parser) (c : coords) (vs : list mobj) (pars eqs : option pyarg)
         (numeraire : option string) (sympy : bool) (m : model),
  numeraire <> Some "" ->
  construct order parse c (Some (Many (map PObj vs))) pars eqs numeraire sympy = Ok m ->
  variables m = filter (fun o => match numeraire with Some n => negb (String.eqb (o_name o) n) | None => true end) vs /\
  map o_name (variables m) = dkeys (m_vars m) /\ NoDup (map o_name (variables m)).
Proof. exact @c113_variables__p. Qed.
Print Assumptions c113_variables.

(** Y with dims i and j; the label of j is set twice, i keeps no label. *)
Example c113_shown_ex :
  exists o o', mk_object (fun s => s) KVar "Y" (DStr "i, j") None None None true true 0 = Ok o /\
  labelled o [("j", LStr "A"); ("j", LInt 2)] o' /\
  dget "latex_name" (to_dict o') = Some (AStr "Y_{i, j=\text{2}}") /\ repr o = "Y_{i, j}" /\ repr o' = "Y_{i, j=\text{2}}" /\
  dget "sympy" (to_dict o') = Some (ASympy (SIx "Y" [IVar "i"; IPos 2])) /\
  dget "dim_vals" (to_dict o') = Some (ADict [("j", LInt 2)]).
Proof. do 2 eexists. split; [reflexivity|]. split; [do 2 (econstructor; [reflexivity|]); constructor|]. repeat split. Qed.
(** The same with a name whose last part joins the indices. *)
Example c113_like_new_ex :
  exists o o' n, mk_object (fun s => s) KPar "P_C" (DStr "i") None None None true true 1 = Ok o /\ labelled o [("i", LStr "A")] o' /\
  mk_object (fun s => s) KPar "P_C" (DStr "i") (Some [("i", LStr "A")]) None None true true 1 = Ok n /\
  (forall x, dget x [("i", LStr "A")] = last_set [("i", LStr "A")] x (dget x [])) /\ repr o' = "P_{C, i=\text{A}}".
Proof.
  do 3 eexists. split; [reflexivity|]. split; [econstructor; [reflexivity|constructor]|]. split; [reflexivity|]. split; [|reflexivity].
  intros x. cbn [dget last_set]. destruct (string_dec "i" x); destruct (String.eqb_spec x "i"); congruence.
Qed.
Example c113_refused_ex :
  exists o, mk_object (fun s => s) KVar "Y" (DStr "i") None None None true true 0 = Ok o /\ ~ In "j" (o_dims o) /\ In "i" (o_dims o).
Proof. eexists. split; [reflexivity|]. cbn. intuition discriminate. Qed.
Example c113_getitem_ex :
  exists o, mk_object (fun s => s) KVar "Y" (DStr "i") None None (Some "output of <dim:i>") true true 0 = Ok o /\
  getitem o "description" = Ok (AStr "output of <dim:i>") /\ getitem o "colour" = Err AttributeError.
Proof. eexists. split; [reflexivity|]. split; reflexivity. Qed.
Example c113_attributes_ex :
  exists o o', mk_object (fun s => s) KPar "Y_A" (DStr "i") None (Some "Y") None true false 2 = Ok o /\ labelled o [("i", LStr "A")] o' /\
  map (getitem o') ["base_name"; "positive"; "latex_name"; "extend_subscript"; "colour"] =
    [Ok (AStr "Y_A"); Ok (ABool false); Ok (AStr "Y"); Ok (AInt 2); Err AttributeError].
Proof. do 2 eexists. split; [reflexivity|]. split; [econstructor; [reflexivity|constructor]|]. reflexivity. Qed.
Example c113_latex_refuted_ex :
  exists o, mk_object (fun s => s) KVar "Y" (DStr "i") None None None true true 0 = Ok o /\ initialize_index (DStr "i") <> Ok [] /\
  getitem o "latex_name" = Ok (AStr "Y") /\ dget "latex_name" (to_dict o) = Some (AStr "Y_{i}").
Proof. eexists. split; [reflexivity|]. split; [discriminate|]. split; reflexivity. Qed.
Example c113_description_ex :
  exists o o', mk_object (fun s => s) KVar "Y" (DStr "i") None None None true false 0 = Ok o /\ labelled o [("i", LStr "A")] o' /\
  contains_char "<" (repr o) = false /\ getitem o' "description" = Ok (AStr "Y_{i}, Positive = False, Real = True").
Proof. do 2 eexists. split; [reflexivity|]. split; [econstructor; [reflexivity|constructor]|]. split; reflexivity. Qed.

Definition ex_obj (k : kind) (n : string) : mobj := MkObj k n [] [] n n n n true true 0.
(** Two variables, one of them the numeraire, and two equations. *)
Example c113_variables_ex :
  exists m, construct (fun l => l) (fun _ _ _ _ _ => Some (0, [])) [] (Some (Many (map PObj [ex_obj KVar "p"; ex_obj KVar "x"]))) None
              (Some (Many [PEqn (MkEqn "a" "x = p" None); PEqn (MkEqn "b" "x = 1" None)])) (Some "p") true = Ok m /\
  Some "p" <> Some "" /\ map o_name (variables m) = ["x"].
Proof. eexists. split; [reflexivity|]. split; [discriminate|reflexivity]. Qed.

(** ** C114 *)
Theorem c114_jacobian :
  forall (G : Type) (as_tensor : list sexpr -> res G) (graph_replace : G -> res G) (equations : option (list sexpr)) (unpacked : list sexpr)
         (variables parameters : list string) (wrt : string) (sparse : bool),
  (exists e, make_sympytensor_jacobian as_tensor graph_replace equations unpacked variables parameters wrt sparse = Err e) /\
  ((forall l, exists g, as_tensor l = Ok g) ->
   make_sympytensor_jacobian as_tensor graph_replace equations unpacked variables parameters wrt sparse = Err TypeError).
Proof. exact @c114_jacobian__p. Qed.
Print Assumptions c114_jacobian.
Theorem c114_jvp :
  forall (G : Type) (as_tensor : list sexpr -> res G) (graph_replace : G -> res G) (grad : list sexpr)
         (variables parameters : list string) (wrt : string),
  (exists e, make_sympytensor_jvp as_tensor graph_replace grad variables parameters wrt = Err e) /\
  ((forall l, exists g, as_tensor l = Ok g) -> make_sympytensor_jvp as_tensor graph_replace grad variables parameters wrt = Err TypeError).
Proof. exact @c114_jvp__p. Qed.
Print Assumptions c114_jvp.
Theorem c114_print_latex :
  forall (A : Type) (eqs : list A), (eqs = [] -> print_latex eqs = Ok tt) /\ (eqs <> [] -> print_latex eqs = Err TypeError).
Proof. exact @c114_print_latex__p. Qed.
Print Assumptions c114_print_latex.
Theorem c114_progress :
  forall (s : option string),
  firstn 5 (progress_columns s) = ["text"; "spinner"; "bar"; "time"; "m_of_n"] /\
  (length (progress_columns s) = 6 <-> s <> None) /\ (s <> None <-> In "stat" (progress_columns s)).
Proof. exact @c114_progress__p. Qed.
Print Assumptions c114_progress.

(** Without the call with four arguments both would return: the same steps
    succeed and give the derivatives. *)
Example c114_jacobian_ex :
  exists j, make_sympy_jacobian (SysList [SBin OMul (SSym "x") (SSym "a")]) ["x"; "y"] = Ok j /\ length (List.concat j) = 2 /\
  make_sympytensor_jacobian (fun l => Ok (length l)) Ok None [SBin OMul (SSym "x") (SSym "a")] ["x"; "y"] ["a"] "variables" false = Err TypeError /\
  packed_graph (fun g : nat => Ok g) 2 5 = Ok 5.
Proof. eexists. split; [reflexivity|]. split; [reflexivity|]. split; reflexivity. Qed.
Example c114_jvp_ex :
  length (make_sympy_hessp [SSym "x"; SSym "y"] ["x"; "y"]) = 2 /\
  make_sympytensor_jvp (fun l => Ok (length l)) Ok [SSym "x"; SSym "y"] ["x"; "y"] [] "variables" = Err TypeError.
Proof. split; reflexivity. Qed.
Example c114_print_latex_ex : print_latex [SSym "x"] = Err TypeError /\ call_binding (BFunction (fun _ : sexpr => Ok tt)) (SSym "x") = Ok tt.
Proof. split; reflexivity. Qed.
Example c114_progress_ex : length (progress_columns (Some "f = {task.fields[f]}")) = 6 /\ length (progress_columns None) = 5.
Proof. split; reflexivity. Qed.
