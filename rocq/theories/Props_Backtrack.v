(** C125: the backtracking of the Newton solver ends. *)
From Coq Require Import Reals Lra.
From Verif Require Import Py PyStr NdArray M_SymExpr M_Calculus S_Calculus L_Calculus
  M_Euler M_Newton S_Euler S_Converge S_Newton S_Trace S_NewtonNear L_NewtonNear2 L_Newton S_Backtrack L_Backtrack.
Local Open Scope string_scope.
Local Open Scope list_scope.
Local Open Scope R_scope.

(** C125 *)
Theorem c125_progress :
  forall (F : list (arr R) -> res (list R)) (J : list (arr R) -> res (list (list R)))
         (solve : list (list R) -> list R -> res (list R)) (parameters : option (list (arr R)))
         (variables params : list string) (equations : list sexpr) (xs : list (arr R)) (step tol u : R),
  NoDup (variables ++ params) -> length equations = length variables ->
  length (flat xs) = length variables -> length (flat_parameters parameters) = length params ->
  parameters <> Some [] -> xs <> [] -> Forall (fun a => arr_wf a) xs ->
  Forall (smooth (state_of (variables ++ params) (flat xs ++ flat_parameters parameters)) no_arrays) equations ->
  (exists M, derivatives_at variables params equations (flat xs) (flat_parameters parameters) M /\ nonsingular M (length variables)) ->
  computes F J parameters variables params equations (map (@ashape R) xs) -> always_returns F parameters (map (@ashape R) xs) ->
  right_solver_res solve (length variables) -> 0 < step -> residual_norm F parameters xs u -> 0 < u -> tol <= u ->
  exists j hist st v, newton_root F J solve xs parameters step tol (S j) = Ok hist /\ nth_error hist j = Some st /\
    residual_norm F parameters (nx st) v /\ v < u /\ nstep st = step /\
    forall t s, (t < j)%nat -> nth_error hist t = Some s -> nx s = xs /\ nconv s = false /\ nstep s = step * (1 / 2) ^ S t.
Proof. exact @c125_progress__p. Qed.
Print Assumptions c125_progress.
(** p p = a with a = 1, started at p = 1/10: the full step leads to p = 101/20,
    where the residual is larger, so the solver has to backtrack. *)
Definition bt_eq : sexpr := SBin OSub (SBin OMul (SSym "p") (SSym "p")) (SSym "a").
Example c125_progress_ex : exists j hist st v,
  newton_root (nw_F ["p"] ["a"] [bt_eq]) (nw_J ["p"] ["a"] [bt_eq]) nw_solve [mkArr [] [1 / 10]] (Some [mkArr [] [1]]) 1 (1 / 1000) (S j) = Ok hist /\
  nth_error hist j = Some st /\ residual_norm (nw_F ["p"] ["a"] [bt_eq]) (Some [mkArr [] [1]]) (nx st) v /\ v < 99 / 100 /\ (0 < j)%nat.
Proof.
  destruct (@c125_progress (nw_F ["p"] ["a"] [bt_eq]) (nw_J ["p"] ["a"] [bt_eq]) nw_solve (Some [mkArr [] [1]]) ["p"] ["a"] [bt_eq] [mkArr [] [1 / 10]] 1 (1 / 1000) (99 / 100))
    as (j & hist & st & v & E & En & Ev & Hv & Hi & H); auto; try discriminate; try lra.
  - repeat constructor; cbn; intuition discriminate.
  - repeat constructor.
  - constructor; [cbn; tauto|constructor].
  - exists [[2 / 10]]. split.
    + constructor; [|constructor]. constructor; [|constructor]. assert (Sm : smooth (state_of (["p"] ++ ["a"]) (flat [mkArr [] [1 / 10]] ++ flat_parameters (Some [mkArr [] [1]]))) no_arrays bt_eq) by (cbn; tauto).
      pose proof (@deriv_val _ no_arrays "p" bt_eq Sm) as D. unfold partial_derivative. eapply eq_rect; [exact D|]. cbn. lra.
    + intros [|u [|]] [|w [|]] Lu Lv E; try discriminate. unfold mv, dot in E. cbn in E. injection E as E. f_equal. lra.
  - apply nw_computes. intros [|a [|]] E W; try discriminate. injection E as E. inversion W as [|? ? W1 _]. unfold arr_wf in W1. rewrite E in W1.
    unfold flat. cbn. rewrite app_nil_r. exact W1.
  - intros x _ _. eexists. reflexivity.
  - exact nw_solver.
  - eexists. split; [reflexivity|]. cbn. rewrite Rabs_left; lra.
  - exists j, hist, st, v. repeat (split; [assumption|]). destruct j as [|j]; [exfalso|lia].
    assert (L1 : length hist = 1%nat /\ forall a b, consecutive (mkN [mkArr [] [1 / 10]] false 1 0) hist a b ->
      body_spec (nw_F ["p"] ["a"] [bt_eq]) (nw_J ["p"] ["a"] [bt_eq]) nw_solve (Some [mkArr [] [1]]) [[]] 1 (1 / 1000) a b /\ good [[]] (nx a)).
    { apply root_ok in E; [exact E|discriminate|discriminate|repeat constructor]. }
    destruct L1 as (_ & L1). destruct (L1 (mkN [mkArr [] [1 / 10]] false 1 0) st) as (BS & _); [exists 0%nat; split; [reflexivity|exact En]|].
    destruct BS as [C|r jm s xn rn _ Er Ej Es _ (G1 & G2) Ex Ern _ Enx _ _]; [discriminate|]. cbn [nx nstep] in *.
    cbn in Er. injection Er as <-. cbn in Ej. injection Ej as <-. cbn in Es. destruct (Req_EM_T _ 0) as [C|N]; [lra|]. injection Es as <-.
    destruct xn as [|[sh d] [|]]; try discriminate G1. cbn in Ex. rewrite app_nil_r in Ex. subst d. match type of Ern with context [mkArr sh [?t]] => set (q := t) in * end.
    assert (Q : q = 101 / 20) by (unfold q; field). clearbody q. subst q. cbn in Ern. injection Ern as <-.
    unfold rlt in Enx. destruct (Rlt_dec _ _) as [D|D].
    + unfold norm1 in D. cbn in D. rewrite (Rabs_pos_eq (101 / 20 * (101 / 20) - 1)), (Rabs_left (1 / 10 * (1 / 10) - 1)) in D; lra.
    + rewrite Enx in Ev. destruct Ev as (r & Er & Ev). cbn in Er. injection Er as <-. cbn in Ev. rewrite Rabs_left in Ev; lra.
Qed.
