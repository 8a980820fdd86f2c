(** C123: models with a redundant equation. *)
From Coq Require Import Reals Lra.
From Verif Require Import Py PyStr NdArray M_SymExpr M_Calculus S_Calculus L_Calculus S_Reduce M_Lambdify S_Lambdify L_Lambdify
  M_Euler M_Newton S_Euler S_Converge S_Newton S_Kantorovich L_Kantorovich S_Trace S_NewtonNear L_NewtonNear2 S_PriceLevel L_PriceLevel Props_Trace
  S_Walras L_Walras.
Local Open Scope string_scope.
Local Open Scope list_scope.
Local Open Scope R_scope.

(** Two markets with prices p and q. The excess demands are q (q - a p) and
    p (a p - q), so the value of excess demand is zero at all prices. *)
Definition wl_first : sexpr := SBin OMul (SSym "q") (SBin OSub (SSym "q") (SBin OMul (SSym "a") (SSym "p"))).
Definition wl_second : sexpr := SBin OMul (SSym "p") (SBin OSub (SBin OMul (SSym "a") (SSym "p")) (SSym "q")).
Definition wl_eqs : list sexpr := [wl_first; wl_second].
Definition wl_prices (x : list R) : list R := x.
Lemma wl_law a : walras_law ["p"; "q"] ["a"] wl_eqs wl_prices [a].
Proof. intros [|p [|q [|]]] L; try discriminate. split; [reflexivity|]. unfold dot. cbn. ring. Qed.
Lemma wl_continuous x : continuous_at wl_prices x.
Proof. intros eps He. exists eps. auto. Qed.
Lemma wl_names : NoDup (["p"; "q"] ++ ["a"]).
Proof. repeat constructor; cbn; intuition discriminate. Qed.
Lemma wl_solution : Forall (fun r => r = 0) (values_at ["p"; "q"] ["a"] wl_eqs [1; 2] [2]).
Proof. repeat constructor; cbn; ring. Qed.
Lemma wl_smooth : Forall (smooth (state_of (["p"; "q"] ++ ["a"]) ([1; 2] ++ [2])) no_arrays) wl_eqs.
Proof. repeat constructor; cbn; tauto. Qed.
Lemma wl_weight : exists k, nth k (wl_prices [1; 2]) 0 <> 0.
Proof. exists 0%nat. cbn. lra. Qed.

(** C123 *)
Theorem c123_singular :
  forall variables parameters equations weights x theta,
    NoDup (variables ++ parameters) -> length equations = length variables -> length x = length variables -> length theta = length parameters ->
    Forall (smooth (state_of (variables ++ parameters) (x ++ theta)) no_arrays) equations ->
    Forall (fun r => r = 0) (values_at variables parameters equations x theta) ->
    walras_law variables parameters equations weights theta -> continuous_at weights x -> (exists k, nth k (weights x) 0 <> 0) ->
    (forall J, derivatives_at variables parameters equations x theta J -> ~ nonsingular J (length variables)) /\
    ~ regular_solution variables parameters equations x theta.
Proof. exact @c123_singular__p. Qed.
Print Assumptions c123_singular.
Example c123_singular_ex : ~ regular_solution ["p"; "q"] ["a"] wl_eqs [1; 2] [2].
Proof. apply (@c123_singular ["p"; "q"] ["a"] wl_eqs wl_prices [1; 2] [2]); auto using wl_names, wl_smooth, wl_solution, wl_law, wl_continuous, wl_weight. Qed.

Theorem c123_numba :
  forall cse, eliminates cse -> forall variables parameters equations weights,
    let names := variables ++ parameters in
    NoDup names -> (forall n, In n names -> is_name n = true /\ ~ In n reserved) ->
    (forall e, In e equations -> no_reduction e /\ indexed_exprs e = [] /\ forall s, In s (atoms e) -> In s names) ->
    variables <> [] -> length equations = length variables ->
    exists f, compile_numba_jacobian_function cse (SysList equations) variables parameters = Ok f /\
      forall x theta, length x = length variables -> length theta = length parameters ->
        Forall (smooth (state_of names (x ++ theta)) no_arrays) equations ->
        Forall (fun r => r = 0) (values_at variables parameters equations x theta) ->
        walras_law variables parameters equations weights theta -> continuous_at weights x -> (exists k, nth k (weights x) 0 <> 0) ->
        exists J, f x theta = Ok (OMat J) /\ is_matrix (length variables) (length variables) J /\ ~ nonsingular J (length variables).
Proof. exact @c123_numba__p. Qed.
Print Assumptions c123_numba.
Example c123_numba_ex : exists f J, compile_numba_jacobian_function no_cse (SysList wl_eqs) ["p"; "q"] ["a"] = Ok f /\
  f [1; 2] [2] = Ok (OMat J) /\ ~ nonsingular J 2.
Proof.
  destruct (@c123_numba no_cse no_cse_ok ["p"; "q"] ["a"] wl_eqs wl_prices wl_names) as (f & E & H); try discriminate; try reflexivity.
  { intros n [<-|[<-|[<-|[]]]]; (split; [reflexivity|cbn; intuition discriminate]). }
  { intros e [<-|[<-|[]]]; cbn; intuition. }
  destruct (H [1; 2] [2] eq_refl eq_refl wl_smooth wl_solution (@wl_law 2) (@wl_continuous _) wl_weight) as (J & EJ & _ & N). exists f, J. auto.
Qed.

Theorem c123_newton :
  forall (F : list (arr R) -> res (list R)) (J : list (arr R) -> res (list (list R)))
         (solve : list (list R) -> list R -> res (list R)) (parameters : option (list (arr R)))
         (variables params : list string) (equations : list sexpr) (weights : list R -> list R) (xs : list (arr R)),
  NoDup (variables ++ params) -> length equations = length variables ->
  length (flat xs) = length variables -> length (flat_parameters parameters) = length params ->
  parameters <> Some [] -> xs <> [] -> Forall (fun a => arr_wf a) xs ->
  Forall (smooth (state_of (variables ++ params) (flat xs ++ flat_parameters parameters)) no_arrays) equations ->
  Forall (fun r => r = 0) (values_at variables params equations (flat xs) (flat_parameters parameters)) ->
  walras_law variables params equations weights (flat_parameters parameters) -> continuous_at weights (flat xs) ->
  (exists k, nth k (weights (flat xs)) 0 <> 0) ->
  computes F J parameters variables params equations (map (@ashape R) xs) -> refuses_singular solve (length variables) ->
  forall step tol max_iter, exists e, newton_root F J solve xs parameters step tol (S max_iter) = Err e.
Proof. exact @c123_newton__p. Qed.
Print Assumptions c123_newton.
(** One market that clears at every price when a = 1. *)
Definition wl_one : sexpr := SBin OSub (SBin OMul (SSym "a") (SSym "p")) (SSym "p").
Example c123_newton_ex : forall step tol max_iter, exists e,
  newton_root (nw_F ["p"] ["a"] [wl_one]) (nw_J ["p"] ["a"] [wl_one]) nw_solve [mkArr [] [3]] (Some [mkArr [] [1]]) step tol (S max_iter) = Err e.
Proof.
  apply (@c123_newton (nw_F ["p"] ["a"] [wl_one]) (nw_J ["p"] ["a"] [wl_one]) nw_solve (Some [mkArr [] [1]]) ["p"] ["a"] [wl_one] (fun _ => [1]) [mkArr [] [3]]); auto; try discriminate.
  - repeat constructor; cbn; intuition discriminate.
  - repeat constructor.
  - constructor; [cbn; tauto|constructor].
  - constructor; [cbn; ring|constructor].
  - intros [|p [|]] L; try discriminate. split; [reflexivity|]. unfold dot. cbn. ring.
  - intros eps He. exists 1. split; [lra|]. intros x' _. split; [reflexivity|]. intros i _. rewrite Rminus_diag_eq, Rabs_R0 by reflexivity. lra.
  - exists 0%nat. cbn. lra.
  - apply nw_computes. intros [|a [|]] E W; try discriminate. injection E as E. inversion W as [|? ? W1 _]. unfold arr_wf in W1. rewrite E in W1.
    unfold flat. cbn. rewrite app_nil_r. exact W1.
  - intros [|row [|]] b (L & RW) NS; try discriminate. assert (Lr := RW row (or_introl eq_refl)). destruct row as [|m [|]]; try discriminate.
    destruct b as [|q [|]]; cbn; eauto. destruct (Req_EM_T m 0) as [|N]; [eauto|]. exfalso. apply NS.
    intros [|u [|]] [|v [|]] Lu Lv E; try discriminate. unfold mv, dot in E. cbn in E. injection E as E. f_equal. apply Rmult_eq_reg_l with m; lra.
Qed.

Theorem c123_dropped :
  forall variables parameters before equation after weights x theta,
    length x = length variables ->
    walras_law variables parameters (before ++ equation :: after) weights theta -> nth (length before) (weights x) 0 <> 0 ->
    Forall (fun r => r = 0) (values_at variables parameters (before ++ after) x theta) ->
    Forall (fun r => r = 0) (values_at variables parameters (before ++ equation :: after) x theta).
Proof. exact @c123_dropped__p. Qed.
Print Assumptions c123_dropped.
(** Prices at which the first market clears: the second one clears as well. *)
Example c123_dropped_ex : Forall (fun r => r = 0) (values_at ["p"; "q"] ["a"] wl_eqs [3; 15] [5]).
Proof.
  apply (@c123_dropped ["p"; "q"] ["a"] [wl_first] wl_second [] wl_prices [3; 15] [5]); [reflexivity|apply wl_law|cbn; lra|]. constructor; [cbn; ring|constructor].
Qed.
