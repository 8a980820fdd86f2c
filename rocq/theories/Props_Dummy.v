(** C103: arrays replaced by plain symbols. *)
From Coq Require Import Reals Sorting.Permutation.
From Verif Require Import Py PyStr M_Primitives M_SymExpr M_Simplify S_Reduce M_Dummy S_Dummy L_Dummy.
Local Open Scope string_scope.
Local Open Scope list_scope.

(** A matrix X over i and j, a vector p over j and a scalar tau *)
Definition dm_X : mobj := MkObj KVar "X" ["i"; "j"] [] "X" "X" "" "X" true true 0.
Definition dm_p : mobj := MkObj KVar "p" ["j"] [] "p" "p" "" "p" true true 0.
Definition dm_tau : mobj := MkObj KPar "tau" [] [] "tau" "tau" "" "tau" true true 0.
(** p[j] * X[i, j] - tau *)
Definition dm_eq : sexpr := SBin OSub (SBin OMul (SIx "p" [IVar "j"]) (SIx "X" [IVar "i"; IVar "j"])) (SSym "tau").
Lemma dm_declared : forall o, In o ([dm_X; dm_p] ++ [dm_tau]) -> o_dim_vals o = [] /\ o_base_name o = o_name o.
Proof. intros o [<- | [<- | [<- | []]]]; split; reflexivity. Qed.

Theorem c103_value :
  forall (coords : dict (list string)) sub_into dict_order (vars pars : list mobj) (v : elements) (w w' : scalars) (g : assignment)
         (equations : list sexpr),
  (forall d, Permutation (dict_order d) d) ->
  (forall o, In o (vars ++ pars) -> o_dim_vals o = [] /\ o_base_name o = o_name o) ->
  (forall e, In e equations -> no_reduction e /\ (forall s, scalar_in s e -> w' s = w s)) ->
  (forall o, In o (vars ++ pars) -> o_dims o <> [] -> w' (o_name o) = den coords v w g (SIx (o_name o) (map IVar (o_dims o)))) ->
  map (den coords v w' g) (replace_indexed_variables sub_into dict_order equations (make_dummy_sub_dict vars pars)) =
  map (den coords v w g) equations.
Proof. exact @c103_value__p. Qed.
Print Assumptions c103_value.
Example c103_value_ex :
  replace_indexed_variables (fun _ _ => true) (fun d => d) [dm_eq] (make_dummy_sub_dict [dm_X; dm_p] [dm_tau]) =
    [SBin OSub (SBin OMul (SSym "p") (SSym "X")) (SSym "tau")] /\
  let v := fun b ls => if String.eqb b "p" then Some 3%R else match ls with ["A"; "B"] => Some 5%R | _ => Some 0%R end in
  let g := fun s => if String.eqb s "i" then Some "A" else Some "B" in
  let w := fun s => if String.eqb s "tau" then Some 1%R else None in
  let w' := fun s => if String.eqb s "tau" then Some 1%R else if String.eqb s "p" then Some 3%R else Some 5%R in
  map (den [] v w' g) (replace_indexed_variables (fun _ _ => true) (fun d => d) [dm_eq] (make_dummy_sub_dict [dm_X; dm_p] [dm_tau])) =
    [Some (3 * 5 - 1)%R].
Proof.
  split; [reflexivity |]. intros v g w w'.
  rewrite (@c103_value [] (fun _ _ => true) (fun d => d) [dm_X; dm_p] [dm_tau] v w w' g [dm_eq]).
  - reflexivity.
  - intros d. apply Permutation_refl.
  - exact dm_declared.
  - intros e [<- | []]. split; [cbn; auto |]. intros s H. inversion H; subst; [inversion H1; subst; [inversion H2 | inversion H2] |].
    inversion H1; subst. reflexivity.
  - intros o [<- | [<- | [<- | []]]] D; try reflexivity. now destruct D.
Qed.

Theorem c103_no_arrays :
  forall sub_into dict_order (vars pars : list mobj) (equations : list sexpr),
  (forall d, Permutation (dict_order d) d) ->
  (forall o, In o (vars ++ pars) -> o_dim_vals o = [] /\ o_base_name o = o_name o) ->
  (forall e, In e equations -> no_reduction e /\
     (forall b l, In (b, l) (indexed_exprs e) -> exists o, In o (vars ++ pars) /\ o_name o = b /\ o_dims o <> [] /\ l = map IVar (o_dims o))) ->
  forall e, In e (replace_indexed_variables sub_into dict_order equations (make_dummy_sub_dict vars pars)) -> indexed_exprs e = [].
Proof. exact @c103_no_arrays__p. Qed.
Print Assumptions c103_no_arrays.
Example c103_no_arrays_ex : forall e,
  In e (replace_indexed_variables (fun _ _ => true) (@rev _) [dm_eq] (make_dummy_sub_dict [dm_X; dm_p] [dm_tau])) -> indexed_exprs e = [].
Proof.
  apply c103_no_arrays.
  - intros d. apply Permutation_sym, Permutation_rev.
  - exact dm_declared.
  - intros e [<- | []]. split; [cbn; auto |]. cbn. intros b l [H | [H | []]]; injection H as <- <-; [exists dm_p | exists dm_X]; cbn; auto; repeat split; auto; discriminate.
Qed.

Theorem c103_other_index_refuted :
  exists (vars : list mobj) (e e' : sexpr),
    (forall o, In o vars -> o_dim_vals o = [] /\ o_base_name o = o_name o) /\
    (forall b, In b (map fst (indexed_exprs e)) -> exists o, In o vars /\ o_name o = b) /\
    (forall sub_into dict_order, (forall d, Permutation (dict_order d) d) ->
       replace_indexed_variables sub_into dict_order [e] (make_dummy_sub_dict vars []) = [e']) /\
    indexed_exprs e' <> [].
Proof. exact @c103_other_index_refuted__p. Qed.
Print Assumptions c103_other_index_refuted.
