(** C122: models that do not determine the price level. *)
From Coq Require Import Reals Lra.
From Verif Require Import Py PyStr NdArray M_SymExpr M_Calculus S_Calculus L_Calculus S_Reduce M_Lambdify S_Lambdify L_Lambdify
  M_Euler M_Newton S_Euler S_Converge S_Newton S_Kantorovich L_Kantorovich S_Trace S_NewtonNear L_NewtonNear2 S_PriceLevel L_PriceLevel Props_Trace.
Local Open Scope string_scope.
Local Open Scope list_scope.
Local Open Scope R_scope.

(** Zero profit p = w, income p y = w l and the labour market y = l *)
Definition pl_eqs : list sexpr :=
  [SBin OSub (SSym "p") (SSym "w"); SBin OSub (SBin OMul (SSym "p") (SSym "y")) (SBin OMul (SSym "w") (SSym "l")); SBin OSub (SSym "y") (SSym "l")].
Lemma pl_free l : free_price_level ["p"; "w"] ["p"; "w"; "y"] ["l"] pl_eqs [l].
Proof.
  intros [|p [|w [|y [|]]]] lam L Hl Z; try discriminate. apply Forall_cons_iff in Z as (Z1 & Z). apply Forall_cons_iff in Z as (Z2 & Z). apply Forall_cons_iff in Z as (Z3 & _).
  cbn in Z1, Z2, Z3. repeat constructor; cbn.
  - replace (lam * p - lam * w) with (lam * (p - w)) by ring. rewrite Z1. ring.
  - replace (lam * p * y - lam * w * l) with (lam * (p * y - w * l)) by ring. rewrite Z2. ring.
  - exact Z3.
Qed.
Lemma pl_names : NoDup (["p"; "w"; "y"] ++ ["l"]).
Proof. repeat constructor; cbn; intuition discriminate. Qed.
Lemma pl_solution : Forall (fun r => r = 0) (values_at ["p"; "w"; "y"] ["l"] pl_eqs [1; 1; 10] [10]).
Proof. repeat constructor; cbn; ring. Qed.
Lemma pl_smooth : Forall (smooth (state_of (["p"; "w"; "y"] ++ ["l"]) ([1; 1; 10] ++ [10])) no_arrays) pl_eqs.
Proof. repeat constructor; cbn; tauto. Qed.
Lemma pl_price : has_price ["p"; "w"] ["p"; "w"; "y"] [1; 1; 10].
Proof. exists 0%nat, "p". split; [reflexivity|]. split; [now left|]. cbn. lra. Qed.

(** C122 *)
Theorem c122_singular :
  forall prices variables parameters equations x theta,
    NoDup (variables ++ parameters) -> length equations = length variables -> length x = length variables -> length theta = length parameters ->
    Forall (smooth (state_of (variables ++ parameters) (x ++ theta)) no_arrays) equations ->
    Forall (fun r => r = 0) (values_at variables parameters equations x theta) ->
    free_price_level prices variables parameters equations theta -> has_price prices variables x ->
    (forall J, derivatives_at variables parameters equations x theta J -> ~ nonsingular J (length variables)) /\
    ~ regular_solution variables parameters equations x theta.
Proof. exact @c122_singular__p. Qed.
Print Assumptions c122_singular.
Example c122_singular_ex : ~ regular_solution ["p"; "w"; "y"] ["l"] pl_eqs [1; 1; 10] [10].
Proof. apply (@c122_singular ["p"; "w"] ["p"; "w"; "y"] ["l"] pl_eqs [1; 1; 10] [10]); auto using pl_names, pl_smooth, pl_solution, pl_free, pl_price. Qed.

Theorem c122_numba :
  forall cse, eliminates cse -> forall prices variables parameters equations,
    let names := variables ++ parameters in
    NoDup names -> (forall n, In n names -> is_name n = true /\ ~ In n reserved) ->
    (forall e, In e equations -> no_reduction e /\ indexed_exprs e = [] /\ forall s, In s (atoms e) -> In s names) ->
    variables <> [] -> length equations = length variables ->
    exists f, compile_numba_jacobian_function cse (SysList equations) variables parameters = Ok f /\
      forall x theta, length x = length variables -> length theta = length parameters ->
        Forall (smooth (state_of names (x ++ theta)) no_arrays) equations ->
        Forall (fun r => r = 0) (values_at variables parameters equations x theta) ->
        free_price_level prices variables parameters equations theta -> has_price prices variables x ->
        exists J, f x theta = Ok (OMat J) /\ is_matrix (length variables) (length variables) J /\ ~ nonsingular J (length variables).
Proof. exact @c122_numba__p. Qed.
Print Assumptions c122_numba.
Example c122_numba_ex : exists f J, compile_numba_jacobian_function no_cse (SysList pl_eqs) ["p"; "w"; "y"] ["l"] = Ok f /\
  f [1; 1; 10] [10] = Ok (OMat J) /\ ~ nonsingular J 3.
Proof.
  destruct (@c122_numba no_cse no_cse_ok ["p"; "w"] ["p"; "w"; "y"] ["l"] pl_eqs pl_names) as (f & E & H); try discriminate; try reflexivity.
  { intros n [<-|[<-|[<-|[<-|[]]]]]; (split; [reflexivity|cbn; intuition discriminate]). }
  { intros e [<-|[<-|[<-|[]]]]; cbn; intuition. }
  destruct (H [1; 1; 10] [10] eq_refl eq_refl pl_smooth pl_solution (@pl_free 10) pl_price) as (J & EJ & _ & N). exists f, J. auto.
Qed.

Theorem c122_newton :
  forall (F : list (arr R) -> res (list R)) (J : list (arr R) -> res (list (list R)))
         (solve : list (list R) -> list R -> res (list R)) (parameters : option (list (arr R)))
         (prices variables params : list string) (equations : list sexpr) (xs : list (arr R)),
  NoDup (variables ++ params) -> length equations = length variables ->
  length (flat xs) = length variables -> length (flat_parameters parameters) = length params ->
  parameters <> Some [] -> xs <> [] -> Forall (fun a => arr_wf a) xs ->
  Forall (smooth (state_of (variables ++ params) (flat xs ++ flat_parameters parameters)) no_arrays) equations ->
  Forall (fun r => r = 0) (values_at variables params equations (flat xs) (flat_parameters parameters)) ->
  free_price_level prices variables params equations (flat_parameters parameters) -> has_price prices variables (flat xs) ->
  computes F J parameters variables params equations (map (@ashape R) xs) -> refuses_singular solve (length variables) ->
  forall step tol max_iter, exists e, newton_root F J solve xs parameters step tol (S max_iter) = Err e.
Proof. exact @c122_newton__p. Qed.
Print Assumptions c122_newton.
(** A price that is a multiple of itself: a p = p at a = 1. The solver raises
    although it starts at a solution. *)
Definition pl_one : sexpr := SBin OSub (SBin OMul (SSym "a") (SSym "p")) (SSym "p").
Example c122_newton_ex : forall step tol max_iter, exists e,
  newton_root (nw_F ["p"] ["a"] [pl_one]) (nw_J ["p"] ["a"] [pl_one]) nw_solve [mkArr [] [3]] (Some [mkArr [] [1]]) step tol (S max_iter) = Err e.
Proof.
  apply (@c122_newton (nw_F ["p"] ["a"] [pl_one]) (nw_J ["p"] ["a"] [pl_one]) nw_solve (Some [mkArr [] [1]]) ["p"] ["p"] ["a"] [pl_one] [mkArr [] [3]]); auto; try discriminate.
  - repeat constructor; cbn; intuition discriminate.
  - repeat constructor.
  - constructor; [cbn; tauto|constructor].
  - constructor; [cbn; ring|constructor].
  - intros [|p [|]] lam L Hl Z; try discriminate. constructor; [cbn; ring|constructor].
  - exists 0%nat, "p". split; [reflexivity|]. split; [now left|]. cbn. lra.
  - apply nw_computes. intros [|a [|]] E W; try discriminate. injection E as E. inversion W as [|? ? W1 _]. unfold arr_wf in W1. rewrite E in W1.
    unfold flat. cbn. rewrite app_nil_r. exact W1.
  - intros [|row [|]] b (L & RW) NS; try discriminate. assert (Lr := RW row (or_introl eq_refl)). destruct row as [|m [|]]; try discriminate.
    destruct b as [|q [|]]; cbn; eauto. destruct (Req_EM_T m 0) as [|N]; [eauto|]. exfalso. apply NS.
    intros [|u [|]] [|v [|]] Lu Lv E; try discriminate. unfold mv, dot in E. cbn in E. injection E as E. f_equal. apply Rmult_eq_reg_l with m; lra.
Qed.
