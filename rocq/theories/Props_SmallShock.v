(** C120: small shocks to a calibrated model have a solution, and the solvers find it. *)
From Coq Require Import Reals Lra.
From Verif Require Import Py PyStr NdArray M_SymExpr M_Calculus S_Calculus L_Calculus S_Reduce L_Reduce5 M_Lambdify S_Lambdify L_Lambdify M_NumbaStep
  M_Euler M_Newton S_Euler S_Converge S_Newton S_Kantorovich L_Kantorovich M_NumbaEuler S_Trace S_NewtonNear L_NewtonNear2 L_SmallShock L_SmallShock2
  Props_Converge Props_Trace Props_NewtonNear.
Local Open Scope string_scope.
Local Open Scope list_scope.
Local Open Scope R_scope.

(** C120 *)
Theorem c120_newton :
  forall (F : list (arr R) -> res (list R)) (J : list (arr R) -> res (list (list R)))
         (solve : list (list R) -> list R -> res (list R)) (parameters0 : list (arr R))
         (variables params : list string) (equations : list sexpr) (xs : list (arr R)),
  NoDup (variables ++ params) -> length equations = length variables ->
  length (flat xs) = length variables -> length (flat parameters0) = length params ->
  parameters0 <> [] -> xs <> [] -> Forall (fun a => arr_wf a) xs -> Forall (fun a => arr_wf a) parameters0 ->
  regular_solution variables params equations (flat xs) (flat parameters0) ->
  (forall parameters, map (@ashape R) parameters = map (@ashape R) parameters0 -> Forall (fun a => arr_wf a) parameters ->
     computes F J (Some parameters) variables params equations (map (@ashape R) xs)) ->
  right_solver_res solve (length variables) ->
  exists rho delta C, 0 < rho /\ 0 < delta /\ 0 <= C /\
    forall parameters, around parameters0 delta parameters ->
    exists x1, around xs rho x1 /\
      Forall (fun r => r = 0) (values_at variables params equations (flat x1) (flat parameters)) /\
      dist1 (flat x1) (flat xs) <= C * dist1 (flat parameters) (flat parameters0) /\
      (forall y, around xs rho y -> Forall (fun r => r = 0) (values_at variables params equations (flat y) (flat parameters)) -> flat y = flat x1) /\
      forall step tol, 0 < step <= 1 -> 0 < tol ->
      exists T, forall x0 max_iter, around xs rho x0 ->
      exists hist, newton_root F J solve x0 (Some parameters) step tol max_iter = Ok hist /\ length hist = max_iter /\
        forall t st, nth_error hist t = Some st ->
          (nconv st = true -> dist1 (flat (nx st)) (flat x1) <= C * tol) /\
          (nconv st = false -> dist1 (flat (nx st)) (flat x1) <= C * (1 - step / 2) ^ S t * dist1 (flat x0) (flat x1)) /\
          ((T <= t)%nat -> nconv st = true).
Proof. exact @c120_newton__p. Qed.
Print Assumptions c120_newton.
(** Square roots of numbers near 4: the solver started near 2 finds them. *)
Example c120_newton_ex :
  exists rho delta C, 0 < rho /\ 0 < delta /\ forall a, Rabs (a - 4) <= delta ->
    exists q, q * q = a /\ Rabs (q - 2) <= C * Rabs (a - 4) /\
    forall tol, 0 < tol -> exists T, forall p max_iter, Rabs (p - 2) <= rho ->
      exists hist, newton_root (nw_F ["p"] ["a"] [nw_eq]) (nw_J ["p"] ["a"] [nw_eq]) nw_solve [mkArr [] [p]] (Some [mkArr [] [a]]) 1 tol max_iter = Ok hist /\
        forall t st, nth_error hist t = Some st -> (nconv st = true -> dist1 (flat (nx st)) [q] <= C * tol) /\ ((T <= t)%nat -> nconv st = true).
Proof.
  assert (CO : forall parameters, map (@ashape R) parameters = map (@ashape R) [mkArr [] [4]] -> Forall (fun a => arr_wf a) parameters ->
     computes (nw_F ["p"] ["a"] [nw_eq]) (nw_J ["p"] ["a"] [nw_eq]) (Some parameters) ["p"] ["a"] [nw_eq] (map (@ashape R) [mkArr [] [2]])).
  { intros pars _ _. apply nw_computes. intros [|a [|]] E W; try discriminate. injection E as E. inversion W as [|? ? W1 _]. unfold arr_wf in W1. rewrite E in W1.
    unfold flat. cbn. rewrite app_nil_r. exact W1. }
  destruct (@c120_newton (nw_F ["p"] ["a"] [nw_eq]) (nw_J ["p"] ["a"] [nw_eq]) nw_solve [mkArr [] [4]] ["p"] ["a"] [nw_eq] [mkArr [] [2]])
    as (rho & delta & C & Hr & Hd & _ & H); auto using nw_solver, nw_regular; try discriminate.
  { repeat constructor; cbn; intuition discriminate. }
  { repeat constructor. }
  { repeat constructor. }
  exists rho, delta, C. split; [exact Hr|]. split; [exact Hd|]. intros a Ha. destruct (H [mkArr [] [a]]) as (x1 & (S1 & W1 & _) & Z & B & _ & N).
  { split; [reflexivity|]. split; [repeat constructor|]. unfold dist1, flat, abs_sum. cbn. lra. }
  destruct x1 as [|[sh d] [|]]; try discriminate. injection S1 as S1. cbn in S1. subst sh. apply Forall_cons_iff in W1 as (W1 & _). unfold arr_wf in W1. cbn in W1.
  destruct d as [|q [|]]; try discriminate. exists q. split.
  { apply Forall_cons_iff in Z as (Z & _). cbn in Z. lra. }
  split; [unfold dist1, flat, abs_sum in B; cbn in B; lra|]. intros tol Ht. destruct (N 1 tol ltac:(lra) Ht) as (T & HT). exists T. intros p k Hp.
  destruct (HT [mkArr [] [p]] k) as (hist & E & _ & HH).
  { split; [reflexivity|]. split; [repeat constructor|]. unfold dist1, flat, abs_sum. cbn. lra. }
  exists hist. split; [exact E|]. intros t st Hst. destruct (HH t st Hst) as (A & _ & D). split; [exact A|exact D].
Qed.

Lemma wx_regular : regular_solution ["p"] ["a"] [wx_eq] [1] [0].
Proof.
  constructor.
  - constructor; [|constructor]. cbn. ring.
  - constructor; [|constructor]. cbn. tauto.
  - exists [[1]]. split.
    + constructor; [|constructor]. constructor; [|constructor].
      assert (Sm : smooth (state_of (["p"] ++ ["a"]) ([1] ++ [0])) no_arrays wx_eq) by (cbn; tauto).
      pose proof (@deriv_val (state_of (["p"] ++ ["a"]) ([1] ++ [0])) no_arrays "p" wx_eq Sm) as D. unfold partial_derivative.
      eapply eq_rect; [exact D|]. cbn. lra.
    + intros [|u [|]] [|v [|]] Lu Lv E; try discriminate. unfold mv, dot in E. cbn in E. injection E as E. f_equal. lra.
Qed.

Theorem c120_euler :
  forall sub_into dict_order cse linalg_solve, walks_set dict_order -> eliminates cse ->
  forall variables parameters equations x0 theta0,
    let names := variables ++ parameters in
    NoDup names -> (forall n m, In n names -> In m names -> n <> (m ++ "_0")%string) ->
    (forall n, In n names -> is_name n = true) -> (forall n, In n parameters -> ~ In n reserved) ->
    variables <> [] -> length equations = length variables ->
    (forall e, In e equations -> indexed_exprs e = [] /\ forall s, In s (atoms e) -> In s names) ->
    length x0 = length variables -> length theta0 = length parameters ->
    right_solver linalg_solve (length variables) -> regular_solution variables parameters equations x0 theta0 ->
    exists rho delta, 0 < rho /\ 0 < delta /\
    forall theta1, length theta1 = length parameters -> dist1 theta1 theta0 <= delta ->
    exists x1, length x1 = length variables /\ dist1 x1 x0 <= rho /\
      Forall (fun r => r = 0) (values_at variables parameters equations x1 theta1) /\
      (forall y, length y = length variables -> dist1 y x0 <= rho -> Forall (fun r => r = 0) (values_at variables parameters equations y theta1) -> y = x1) /\
      exists C N, 0 <= C /\ forall n, (N <= n)%nat ->
        exists rows, numba_euler sub_into dict_order cse linalg_solve false variables parameters equations x0 theta0 theta1 n = Ok rows /\
          length rows = S n /\ exists x, nth_error rows n = Some (x ++ theta1) /\ within (C / INR n) x x1.
Proof. exact @c120_euler__p. Qed.
Print Assumptions c120_euler.
(** The tax model: after a small tax the price is 1 / (1 + a), and the
    approximation is within C / n of it. *)
Example c120_euler_ex :
  exists delta, 0 < delta /\ forall a, Rabs a <= delta -> exists q, q * (1 + a) = 1 /\
    exists C N, 0 <= C /\ forall n, (N <= n)%nat -> exists rows p,
      numba_euler sympy_rule (uniq pair_eqb) no_cse tx_solve false ["p"] ["a"] [wx_eq] [1] [0] [a] n = Ok rows /\
      nth_error rows n = Some [p; a] /\ Rabs (p - q) <= C / INR n.
Proof.
  destruct wx_hyps as (H1 & H2 & H3 & H4 & H5 & H6 & H7).
  destruct (@c120_euler sympy_rule (uniq pair_eqb) no_cse tx_solve H1 H2 ["p"] ["a"] [wx_eq] [1] [0] H3 H4 H5 H6 ltac:(discriminate) eq_refl H7 eq_refl eq_refl wx_solver wx_regular)
    as (rho & delta & Hr & Hd & H). exists delta. split; [exact Hd|]. intros a Ha. destruct (H [a] eq_refl) as (x1 & L1 & _ & Z & _ & C & N & HC & HN).
  { unfold dist1, abs_sum. cbn. rewrite Rminus_0_r. lra. }
  destruct x1 as [|q [|]]; try discriminate. exists q. split; [apply Forall_cons_iff in Z as (Z & _); cbn in Z; lra|].
  exists C, N. split; [exact HC|]. intros n Hn. destruct (HN n Hn) as (rows & E & _ & x & Ex & Wx). destruct (within_one Wx) as (p & -> & Hp).
  exists rows, p. auto.
Qed.

(** Without a bound on the shock there need not be a solution, and the
    approximation does not notice. *)
Theorem c120_large_refuted :
  exists variables parameters equations x0 theta0 theta1,
    let names := variables ++ parameters in
    NoDup names /\ (forall n m, In n names -> In m names -> n <> (m ++ "_0")%string) /\
    (forall n, In n names -> is_name n = true) /\ (forall n, In n parameters -> ~ In n reserved) /\
    variables <> [] /\ length equations = length variables /\
    (forall e, In e equations -> indexed_exprs e = [] /\ forall s, In s (atoms e) -> In s names) /\
    length x0 = length variables /\ length theta0 = length parameters /\ length theta1 = length parameters /\
    regular_solution variables parameters equations x0 theta0 /\
    (forall y, length y = length variables -> ~ Forall (fun r => r = 0) (values_at variables parameters equations y theta1)) /\
    forall sub_into dict_order cse linalg_solve, walks_set dict_order -> eliminates cse -> right_solver linalg_solve (length variables) ->
      exists rows, numba_euler sub_into dict_order cse linalg_solve false variables parameters equations x0 theta0 theta1 1 = Ok rows.
Proof. exact @c120_large_refuted__p. Qed.
Print Assumptions c120_large_refuted.
(** The model is p p = a with a going from 1 to -1. *)
Example c120_large_refuted_ex :
  values_at ["p"] ["a"] [nw_eq] [1] [1] = [0] /\ forall p, exists r, values_at ["p"] ["a"] [nw_eq] [p] [-1] = [r] /\ r <> 0.
Proof. split; [cbn; f_equal; ring|]. intros p. exists (p * p - -1). split; [reflexivity|nra]. Qed.
