(** C112: models with a numeraire. *)
From Coq Require Import Reals Lra Lia.
From Verif Require Import Py PyStr NdArray M_Primitives M_Utilities M_Expand M_Equations M_Registry M_Graph M_PyExpr M_SymExpr M_Calculus M_Simplify M_Lambdify M_NumbaModel M_SympyTensor M_Tensor.
From Verif Require Import S_Layout S_PyExpr S_Tensor S_ArrayModel S_Markers S_Expand S_Calculus S_Reduce S_Simplify S_Lambdify S_NumbaModel S_SympyTensor S_Numeraire.
From Verif Require Import L_PyExpr L_Markers L_Reduce L_Reduce5 L_Simplify L_Simplify2 L_NumbaModel L_SympyTensor2 L_Numeraire.
Local Open Scope string_scope.
Local Open Scope list_scope.
Ltac nodup := repeat (constructor; [cbn; intuition discriminate|]); constructor.

(** Prices P of two goods, the numeraire Y and the parameter T:
    P = T * Y and Sum(P, (i, 0, 1)) = Y *)
Definition nx_c : dict (list string) := [("i", ["food"; "steel"])].
Definition nx_Y : mobj := exobj KVar "Y" [].
Definition nx_vars : list mobj := [exobj KVar "P" ["i"]; nx_Y].
Definition nx_params : list mobj := [exobj KPar "T" []].
Definition nx_eqs : list (sexpr * sexpr) := [(SIx "P" [IVar "i"], SBin OMul (SSym "T") (SSym "Y")); (SRed RSum (SIx "P" [IVar "i"]) [("i", (0, 1))], SSym "Y")].
Definition nx_d : dict (arr R) := [("P", mkArr [2] [2; 3]%R); ("T", mkArr [] [5]%R)].
Definition nx_uv : list mobj := match unpack_objects (fun l => l) nx_vars (lab_coords nx_c) with Ok l => l | Err _ => [] end.
Definition nx_up : list mobj := match unpack_objects (fun l => l) nx_params (lab_coords nx_c) with Ok l => l | Err _ => [] end.
Lemma nx_model : with_numeraire (fun l => l) nx_c nx_Y nx_vars nx_params nx_uv nx_up nx_d [2; 3]%R [5]%R.
Proof.
  split; [|split; [cbn; tauto|split; [|split; [|reflexivity]]]].
  - split; [|split; [cbn; nodup|split]].
    + intros i ls H. cbn in H. destruct (String.eqb_spec i "i"); [|discriminate]. injection H as <-. split; [discriminate|repeat constructor].
    + intros i ls H. cbn in H. destruct (String.eqb_spec i "i"); [|discriminate]. injection H as <-. nodup.
    + split; [reflexivity|]. split; [reflexivity|]. split; vm_compute; nodup.
  - split; [constructor|]. split; [reflexivity|]. split; [reflexivity|]. intros d [].
  - intros o [<-|[]]. split.
    + split; [cbn; nodup|]. split; [reflexivity|]. split; [reflexivity|]. intros d [<-|[]]. now left.
    + eexists. split; [reflexivity|]. split; [reflexivity|]. constructor; [eexists; split; reflexivity|constructor].
Qed.

(** The vector of the variables is shorter than the list of unknowns of the
    compiled functions. *)
Theorem c112_counts :
  forall order c n vars params uv up d x theta, with_numeraire order c n vars params uv up d x theta ->
    length uv = length x + n_elements (lab_coords c) n /\ 0 < n_elements (lab_coords c) n.
Proof. exact @c112_counts__p. Qed.
Print Assumptions c112_counts.
Example c112_counts_ex : with_numeraire (fun l => l) nx_c nx_Y nx_vars nx_params nx_uv nx_up nx_d [2; 3]%R [5]%R /\ length nx_uv = 3.
Proof. split; [exact nx_model|reflexivity]. Qed.

(** numba: no function can be called with it. *)
Theorem c112_numba :
  forall sub_into set_order dict_order evaluates cse order c n vars params equations uv up d x theta f,
    with_numeraire order c n vars params uv up d x theta ->
    compile_numba_cge_functions sub_into set_order dict_order evaluates cse order c (Some n) vars params equations = Ok f ->
    forall theta_final, refused (nf_system f x theta_final) /\ refused (nf_jac f x theta_final) /\ refused (nf_resid f x theta_final) /\ refused (nf_grad f x theta_final).
Proof. exact @c112_numba__p. Qed.
Print Assumptions c112_numba.
Example c112_numba_ex : exists f, compile_numba_cge_functions sympy_rule (uniq sexpr_eqb) (uniq pair_eqb) sexpr_eqb (fun l => ([], l)) (fun l => l) nx_c (Some nx_Y) nx_vars nx_params nx_eqs = Ok f /\
  nf_system f [2; 3]%R [5]%R = Err AssertionError.
Proof. eexists. split; reflexivity. Qed.

(** sympytensor: more residuals than unknowns. *)
Theorem c112_sympytensor :
  forall sub_into set_order dict_order evaluates order c n vars params equations uv up d x theta f ess,
    with_numeraire order c n vars params uv up d x theta ->
    map_res (fun lr => equation_symbols sub_into set_order dict_order evaluates c (Some n) (uv ++ up) (fst lr) (snd lr)) equations = Ok ess ->
    length (List.concat ess) = length uv ->
    compile_sympytensor_cge_functions sub_into set_order dict_order evaluates order c (Some n) vars params equations = Ok f ->
    (forall kwargs r, sf_system f kwargs = Ok r -> length r = length x + n_elements (lab_coords c) n) /\
    (forall kwargs J, sf_jac f kwargs = Ok J -> length J = length x + n_elements (lab_coords c) n /\ forall row, In row J -> length row = length x + n_elements (lab_coords c) n) /\
    (forall kwargs g, sf_grad f kwargs = Ok g -> length g = length x + n_elements (lab_coords c) n).
Proof. exact @c112_sympytensor__p. Qed.
Print Assumptions c112_sympytensor.
Example c112_sympytensor_ex : exists f ess r, compile_sympytensor_cge_functions sympy_rule (uniq sexpr_eqb) (uniq pair_eqb) sexpr_eqb (fun l => l) nx_c (Some nx_Y) nx_vars nx_params nx_eqs = Ok f /\
  map_res (fun lr => equation_symbols sympy_rule (uniq sexpr_eqb) (uniq pair_eqb) sexpr_eqb nx_c (Some nx_Y) (nx_uv ++ nx_up) (fst lr) (snd lr)) nx_eqs = Ok ess /\
  length (List.concat ess) = length nx_uv /\ sf_system f nx_d = Ok r /\ length r = 3.
Proof. do 3 eexists. split; [reflexivity|]. split; [reflexivity|]. split; [reflexivity|]. split; reflexivity. Qed.

(** pytensor: an equation that reads the numeraire cannot be evaluated. *)
Theorem c112_pytensor :
  forall number_op C n vars params texts names data s e,
    In n vars -> NoDup (map o_name (vars ++ params)) -> In s texts -> is_expr (normalize_eq s) e -> reads (o_name n) e -> literal (o_name n) = None ->
    forall r, pytensor_system number_op C (packed_variables (Some n) vars ++ params) texts names data <> Ok r.
Proof. exact @c112_pytensor__p. Qed.
Print Assumptions c112_pytensor.
Example c112_pytensor_ex : exists e, In nx_Y nx_vars /\ is_expr (normalize_eq "P = T * Y") e /\ reads "Y" e /\ literal "Y" = None /\
  packed_variables (Some nx_Y) nx_vars = [exobj KVar "P" ["i"]].
Proof.
  eexists. split; [cbn; tauto|]. split; [apply parse_sound; reflexivity|]. split; [|split; reflexivity]. apply reads_right. try apply reads_right. constructor.
Qed.
