(** C119: the Newton solver near a regular solution of written equations. *)
From Coq Require Import Reals Lra.
From Verif Require Import Py PyStr NdArray M_SymExpr M_Calculus S_Calculus L_Calculus M_Euler M_Newton S_Euler S_Converge S_Newton S_Kantorovich
  L_Kantorovich S_Trace S_NewtonNear L_NewtonNear2.
Local Open Scope string_scope.
Local Open Scope list_scope.
Local Open Scope R_scope.

Lemma nw_regular : regular_solution ["p"] ["a"] [nw_eq] [2] [4].
Proof.
  constructor.
  - constructor; [|constructor]. cbn. ring.
  - constructor; [|constructor]. cbn. tauto.
  - exists [[4]]. split.
    + constructor; [|constructor]. constructor; [|constructor].
      assert (Sm : smooth (state_of (["p"] ++ ["a"]) ([2] ++ [4])) no_arrays nw_eq) by (cbn; tauto).
      pose proof (@deriv_val (state_of (["p"] ++ ["a"]) ([2] ++ [4])) no_arrays "p" nw_eq Sm) as D. unfold partial_derivative.
      eapply eq_rect; [exact D|]. cbn. lra.
    + intros [|u [|]] [|v [|]] Lu Lv E; try discriminate. unfold mv, dot in E. cbn in E. injection E as E. f_equal. lra.
Qed.

(** C119 *)
Theorem c119_near :
  forall (F : list (arr R) -> res (list R)) (J : list (arr R) -> res (list (list R)))
         (solve : list (list R) -> list R -> res (list R)) (parameters : option (list (arr R)))
         (variables params : list string) (equations : list sexpr) (xs : list (arr R)),
  NoDup (variables ++ params) -> length equations = length variables ->
  length (flat xs) = length variables -> length (flat_parameters parameters) = length params ->
  parameters <> Some [] -> xs <> [] -> Forall (fun a => arr_wf a) xs ->
  regular_solution variables params equations (flat xs) (flat_parameters parameters) ->
  computes F J parameters variables params equations (map (@ashape R) xs) -> right_solver_res solve (length variables) ->
  exists rho C, 0 < rho /\ 0 <= C /\
    forall step tol, 0 < step <= 1 -> 0 < tol ->
    exists T, forall x0 max_iter, around xs rho x0 ->
    exists hist, newton_root F J solve x0 parameters step tol max_iter = Ok hist /\ length hist = max_iter /\
      forall t st, nth_error hist t = Some st ->
        (nconv st = true -> dist1 (flat (nx st)) (flat xs) <= C * tol) /\
        (nconv st = false -> dist1 (flat (nx st)) (flat xs) <= C * (1 - step / 2) ^ S t * dist1 (flat x0) (flat xs) /\
           (step = 1 -> dist1 (flat (nx st)) (flat xs) <= C * (1 / 2) ^ (2 ^ S t))) /\
        ((T <= t)%nat -> nconv st = true).
Proof. exact @c119_near__p. Qed.
Print Assumptions c119_near.
(** Square roots of 4: from a neighbourhood of 2 the solver converges, in the
    number of iterations that tol asks for. *)
Example c119_near_ex :
  exists rho C, 0 < rho /\ forall tol, 0 < tol -> exists T, forall p max_iter, Rabs (p - 2) <= rho ->
    exists hist, newton_root (nw_F ["p"] ["a"] [nw_eq]) (nw_J ["p"] ["a"] [nw_eq]) nw_solve [mkArr [] [p]] (Some [mkArr [] [4]]) 1 tol max_iter = Ok hist /\
      forall t st, nth_error hist t = Some st ->
        (nconv st = true -> dist1 (flat (nx st)) [2] <= C * tol) /\ (nconv st = false -> dist1 (flat (nx st)) [2] <= C * (1 / 2) ^ (2 ^ S t)) /\
        ((T <= t)%nat -> nconv st = true).
Proof.
  assert (CO : computes (nw_F ["p"] ["a"] [nw_eq]) (nw_J ["p"] ["a"] [nw_eq]) (Some [mkArr [] [4]]) ["p"] ["a"] [nw_eq] [[]]).
  { apply nw_computes. intros [|a [|]] E W; try discriminate. injection E as E. inversion W as [|? ? W1 _]. unfold arr_wf in W1. rewrite E in W1.
    unfold flat. cbn. rewrite app_nil_r. exact W1. }
  destruct (@c119_near (nw_F ["p"] ["a"] [nw_eq]) (nw_J ["p"] ["a"] [nw_eq]) nw_solve (Some [mkArr [] [4]]) ["p"] ["a"] [nw_eq] [mkArr [] [2]])
    as (rho & C & Hr & _ & H); auto using nw_solver, nw_regular; try discriminate.
  { repeat constructor; cbn; intuition discriminate. }
  { repeat constructor. }
  exists rho, C. split; [exact Hr|]. intros tol Ht. destruct (H 1 tol ltac:(lra) Ht) as (T & HT). exists T. intros p k Hp.
  destruct (HT [mkArr [] [p]] k) as (hist & E & _ & HH).
  { split; [reflexivity|]. split; [repeat constructor|]. unfold dist1, flat, abs_sum. cbn. lra. }
  exists hist. split; [exact E|]. intros t st Hst. destruct (HH t st Hst) as (A & B & D). split; [exact A|]. split; [|exact D]. intros Hc. now apply B.
Qed.

Theorem c119_singular_refuted :
  exists (F : list (arr R) -> res (list R)) (J : list (arr R) -> res (list (list R)))
         (solve : list (list R) -> list R -> res (list R)) (parameters : option (list (arr R)))
         (variables params : list string) (equations : list sexpr) (xs : list (arr R)),
  NoDup (variables ++ params) /\ length equations = length variables /\
  length (flat xs) = length variables /\ length (flat_parameters parameters) = length params /\
  parameters <> Some [] /\ xs <> [] /\ Forall (fun a => arr_wf a) xs /\
  Forall (fun r => r = 0) (values_at variables params equations (flat xs) (flat_parameters parameters)) /\
  Forall (smooth (state_of (variables ++ params) (flat xs ++ flat_parameters parameters)) no_arrays) equations /\
  computes F J parameters variables params equations (map (@ashape R) xs) /\ right_solver_res solve (length variables) /\
  forall step tol max_iter, newton_root F J solve xs parameters step tol (S max_iter) = Err ValueError.
Proof. exact @c119_singular_refuted__p. Qed.
Print Assumptions c119_singular_refuted.
(** The same functions at a = 0, from the solution p = 0 *)
Example c119_singular_refuted_ex :
  newton_root (nw_F ["p"] ["a"] [nw_eq]) (nw_J ["p"] ["a"] [nw_eq]) nw_solve [mkArr [] [0]] (Some [mkArr [] [0]]) 1 1 5 = Err ValueError /\
  values_at ["p"] ["a"] [nw_eq] [0] [0] = [0].
Proof. split; [apply nw_raises|]. cbn. f_equal. ring. Qed.
