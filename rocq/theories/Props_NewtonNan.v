(** C126: the Newton solver and residuals that are not defined everywhere. *)
From Coq Require Import Reals Lra.
From Verif Require Import Py PyStr NdArray M_SymExpr M_Calculus S_Calculus L_Calculus
  M_Euler M_Newton S_Euler S_Converge S_Newton S_Kantorovich S_Trace S_NewtonNear L_NewtonNear2 L_Newton L_Converge L_Kantorovich M_NewtonNan S_NewtonNan L_NewtonNan.
Local Open Scope string_scope.
Local Open Scope list_scope.
Local Open Scope R_scope.

(** log(p) = a. At negative prices the residual is NaN. The linear solver returns
    NaN for systems with NaN and raises for singular ones. *)
Definition nn_eq : sexpr := SBin OSub (SFun FLog (SSym "p")) (SSym "a").
Definition nn_F (args : list (arr R)) : res (list (option R)) :=
  let p := nth 0 (flat args) 0 in let a := nth 1 (flat args) 0 in Ok [if Rlt_dec 0 p then Some (ln p - a) else None].
Definition nn_J (args : list (arr R)) : res (list (list (option R))) :=
  let p := nth 0 (flat args) 0 in Ok [[if Req_EM_T p 0 then None else Some (/ p)]].
Definition nn_strip {A} (v : list (option A)) : option (list A) :=
  fold_right (fun a s => match a, s with Some x, Some l => Some (x :: l) | _, _ => None end) (Some []) v.
Definition nn_solve (M : list (list (option R))) (b : list (option R)) : res (option (list R)) :=
  match nn_strip (map nn_strip M), nn_strip b with
  | Some M', Some b' => match nw_solve M' b' with Ok s => Ok (Some s) | Err e => Err e end
  | _, _ => Ok None
  end.

Lemma nn_strip_some {A} (v : list A) : nn_strip (map Some v) = Some v.
Proof. induction v as [|a v IH]; [reflexivity|]. unfold nn_strip in *. cbn [map fold_right]. now rewrite IH. Qed.
Lemma nn_solve_numbers M b : nn_solve (map (map Some) M) (map Some b) = match nw_solve M b with Ok s => Ok (Some s) | Err e => Err e end.
Proof.
  unfold nn_solve. rewrite map_map, (map_ext _ Some) by apply nn_strip_some. now rewrite !nn_strip_some.
Qed.
Lemma nn_solver : right_solver_nan nn_solve 1.
Proof. intros M b HM NM Lb. destruct (@nw_solver M b HM NM Lb) as (s & E & H). exists s. rewrite nn_solve_numbers, E. auto. Qed.
Lemma nn_point (x : list (arr R)) : map (@ashape R) x = [[]] -> Forall (fun a => arr_wf a) x -> exists p, x = [mkArr [] [p]].
Proof.
  intros E W. destruct x as [|[sh d] [|]]; try discriminate. cbn in E. injection E as ->. inversion W as [|? ? W1 _]. unfold arr_wf in W1. cbn in W1. destruct d as [|p [|]]; try discriminate. now exists p.
Qed.
Lemma nn_computes a : computes_or_nan nn_F nn_J (Some [mkArr [] [a]]) ["p"] ["a"] [nn_eq] [[]].
Proof.
  intros x E W. destruct (@nn_point x E W) as (p & ->). split; [eexists; reflexivity|]. intros S. inversion S as [|e0 l0 S1 S1r]. destruct S1 as ((_ & S1) & _). cbn in S1. split.
  - unfold defined_at, nn_F. cbn. destruct (Rlt_dec 0 p) as [Hp|Hp]; [|contradiction]. reflexivity.
  - exists [[/ p]]. split.
    + unfold nn_J. cbn. destruct (Req_EM_T p 0); [lra|reflexivity].
    + constructor; [|constructor]. constructor; [|constructor]. inversion S as [|e2 l2 S2 S2r]. pose proof (@deriv_val _ no_arrays "p" nn_eq S2) as D. unfold partial_derivative. eapply eq_rect; [exact D|]. cbn. field. lra.
Qed.

(** C126 *)
Theorem c126_defined :
  forall F J solve xs parameters step tol k hist r,
  parameters <> Some [] -> xs <> [] -> Forall (fun a => arr_wf a) xs ->
  defined_at F parameters xs r -> nan_root F J solve xs parameters step tol k = Ok hist ->
  forall t s, nth_error hist t = Some s -> exists r', defined_at F parameters (nx s) r' /\ abs_sum r' <= abs_sum r.
Proof. exact @c126_defined__p. Qed.
Print Assumptions c126_defined.
(** log(p) = 0 started at p = e^2: the first trial point is -e^2. *)
Lemma nn_e2 : 0 < exp 2. Proof. apply exp_pos. Qed.
Lemma nn_start : defined_at nn_F (Some [mkArr [] [0]]) [mkArr [] [exp 2]] [2].
Proof.
  unfold defined_at, nn_F. cbn [at_point app flat map adata concat nth]. destruct (Rlt_dec 0 (exp 2)) as [H|H]; [|destruct (H nn_e2)]. rewrite ln_exp. cbn. do 3 f_equal. lra.
Qed.
Example c126_defined_ex : forall k hist, nan_root nn_F nn_J nn_solve [mkArr [] [exp 2]] (Some [mkArr [] [0]]) 1 (1 / 1000) k = Ok hist ->
  forall t s, nth_error hist t = Some s -> exists r', defined_at nn_F (Some [mkArr [] [0]]) (nx s) r' /\ abs_sum r' <= abs_sum [2].
Proof.
  intros k hist E t s Hs. apply (@c126_defined nn_F nn_J nn_solve [mkArr [] [exp 2]] (Some [mkArr [] [0]]) 1 (1 / 1000) k hist [2]) with t; auto; try discriminate; [repeat constructor|exact nn_start].
Qed.

(** C126 *)
Theorem c126_progress :
  forall F J solve (parameters : option (list (arr R))) (variables params : list string) (equations : list sexpr) (xs : list (arr R)) (step tol : R) r,
  NoDup (variables ++ params) -> length equations = length variables ->
  length (flat xs) = length variables -> length (flat_parameters parameters) = length params ->
  parameters <> Some [] -> xs <> [] -> Forall (fun a => arr_wf a) xs ->
  Forall (smooth (state_of (variables ++ params) (flat xs ++ flat_parameters parameters)) no_arrays) equations ->
  (exists M, derivatives_at variables params equations (flat xs) (flat_parameters parameters) M /\ nonsingular M (length variables)) ->
  computes_or_nan F J parameters variables params equations (map (@ashape R) xs) ->
  right_solver_nan solve (length variables) -> 0 < step -> defined_at F parameters xs r -> 0 < abs_sum r -> tol <= abs_sum r ->
  exists j hist st r', nan_root F J solve xs parameters step tol (S j) = Ok hist /\ nth_error hist j = Some st /\
    defined_at F parameters (nx st) r' /\ abs_sum r' < abs_sum r /\ nstep st = step /\
    forall t s, (t < j)%nat -> nth_error hist t = Some s -> nx s = xs /\ nconv s = false /\ nstep s = step * (1 / 2) ^ S t.
Proof. exact @c126_progress__p. Qed.
Print Assumptions c126_progress.
Example c126_progress_ex : exists j hist st r',
  nan_root nn_F nn_J nn_solve [mkArr [] [exp 2]] (Some [mkArr [] [0]]) 1 (1 / 1000) (S j) = Ok hist /\
  nth_error hist j = Some st /\ defined_at nn_F (Some [mkArr [] [0]]) (nx st) r' /\ abs_sum r' < 2 /\ (0 < j)%nat.
Proof.
  pose proof nn_e2 as H2. assert (A2 : abs_sum [2] = 2) by (unfold abs_sum; cbn; rewrite Rabs_pos_eq; lra).
  assert (SM : Forall (smooth (state_of (["p"] ++ ["a"]) (flat [mkArr [] [exp 2]] ++ flat_parameters (Some [mkArr [] [0]]))) no_arrays) [nn_eq]) by (constructor; [cbn; tauto|constructor]).
  destruct (@c126_progress nn_F nn_J nn_solve (Some [mkArr [] [0]]) ["p"] ["a"] [nn_eq] [mkArr [] [exp 2]] 1 (1 / 1000) [2])
    as (j & hist & st & r' & E & En & Er & Hr & _ & _); auto; try discriminate; try lra.
  - repeat constructor; cbn; intuition discriminate.
  - repeat constructor.
  - exists [[/ exp 2]]. split.
    + destruct (proj2 (@nn_computes 0 [mkArr [] [exp 2]] eq_refl ltac:(repeat constructor)) SM) as (_ & M & EM & D). unfold nn_J in EM. cbn [at_point app flat map adata concat nth] in EM.
      destruct (Req_EM_T (exp 2) 0) as [C|_]; [lra|]. injection EM as EM. destruct M as [|[|m [|]] [|]]; try discriminate. cbn in EM. injection EM as <-. exact D.
    + assert (0 < / exp 2) by now apply Rinv_0_lt_compat. intros [|u [|]] [|w [|]] Lu Lv E; try discriminate. unfold mv, dot in E. cbn in E. injection E as E. f_equal. nra.
  - apply nn_computes.
  - exact nn_solver.
  - exact nn_start.
  - exists j, hist, st, r'. do 3 (split; [assumption|]). split; [lra|]. destruct j as [|j]; [exfalso|lia].
    assert (Q : nx st = [mkArr [] [exp 2]]).
    { refine (@nan_root_invariant nn_F nn_J nn_solve [mkArr [] [exp 2]] (Some [mkArr [] [0]]) 1 (1 / 1000) 1 hist
        (fun t s => match t with 0%nat => s = mkN [mkArr [] [exp 2]] false 1 0 | 1%nat => nx s = [mkArr [] [exp 2]] | _ => True end) _ _ _ E eq_refl _ 0%nat st En); try discriminate; [repeat constructor|].
      intros [|[|]] a b _ Ia SP; auto. subst a. destruct SP as [C|r jm s xn rn _ Er1 Ej Es (G1 & G2) Ex Ern _ Enx _|r _ _ _ Enx _]; [discriminate| |exact Enx].
      cbn [nx nstep] in *. pose proof nn_start as NS. unfold defined_at in NS. rewrite NS in Er1. injection Er1 as <-.
      unfold nn_J in Ej. cbn [at_point app flat map adata concat nth] in Ej. destruct (Req_EM_T (exp 2) 0) as [C|_]; [lra|]. injection Ej as <-.
      unfold nn_solve in Es. cbn in Es. destruct (Req_EM_T _ 0) as [C|N]; [assert (0 < / exp 2) by (now apply Rinv_0_lt_compat); lra|]. injection Es as <-.
      destruct (@nn_point xn G1 G2) as (p & ->). cbn in Ex. injection Ex as Ex. assert (P : p = - exp 2) by (rewrite Ex; field; lra). clear Ex. subst p.
      unfold nn_F in Ern. cbn [at_point app flat map adata concat nth] in Ern. destruct (Rlt_dec 0 (- exp 2)) as [C|_]; [lra|]. injection Ern as <-. exact Enx. }
    rewrite Q in Er. pose proof nn_start as NS. unfold defined_at in *. rewrite NS in Er. injection Er as Er. destruct r' as [|q [|]]; try discriminate. cbn in Er. injection Er as <-. lra.
Qed.

(** C126 *)
Theorem c126_stuck :
  forall F J solve xs parameters step tol k hist,
  parameters <> Some [] -> xs <> [] -> Forall (fun a => arr_wf a) xs ->
  undefined_at F parameters xs -> nan_root F J solve xs parameters step tol k = Ok hist ->
  forall t s, nth_error hist t = Some s -> nx s = xs /\ nconv s = false /\ nstep s = step * (1 / 2) ^ S t.
Proof. exact @c126_stuck__p. Qed.
Print Assumptions c126_stuck.
Example c126_stuck_ex : exists hist, nan_root nn_F nn_J nn_solve [mkArr [] [- 1]] (Some [mkArr [] [0]]) 1 (1 / 1000) 2 = Ok hist /\ length hist = 2%nat /\
  undefined_at nn_F (Some [mkArr [] [0]]) [mkArr [] [- 1]] /\
  forall t s, nth_error hist t = Some s -> nx s = [mkArr [] [- 1]] /\ nconv s = false /\ nstep s = 1 * (1 / 2) ^ S t.
Proof.
  assert (U : undefined_at nn_F (Some [mkArr [] [0]]) [mkArr [] [- 1]]).
  { exists [None]. split; [|left; reflexivity]. unfold nn_F. cbn [at_point app flat map adata concat nth]. destruct (Rlt_dec 0 (- 1)); [lra|reflexivity]. }
  assert (E : exists hist, nan_root nn_F nn_J nn_solve [mkArr [] [- 1]] (Some [mkArr [] [0]]) 1 (1 / 1000) 2 = Ok hist /\ length hist = 2%nat).
  { assert (B : forall a c, exists c', nan_body nn_F nn_J nn_solve true 1 (1 / 1000) 1 1 (mkN [mkArr [] [- 1]] false a c) [mkArr [] [0]] = Ok (mkN [mkArr [] [- 1]] false (a * (1 / 2)) c')).
    { intros a c. eexists. unfold nan_body, body_args. cbn -[nn_F nn_J nn_solve nan_norm1]. unfold nn_F at 1. cbn -[nn_F nn_J nn_solve nan_norm1].
      destruct (Rlt_dec 0 (- 1)) as [C|_]; [lra|]. unfold nn_J. cbn -[nn_solve nan_norm1]. destruct (Req_EM_T (- 1) 0) as [C|_]; [lra|]. cbn. reflexivity. }
    unfold nan_root. cbn [process_root_data length nan_loop]. destruct (B 1 0%nat) as (c1 & E1). rewrite E1. cbn [bind]. destruct (B (1 * (1 / 2)) c1) as (c2 & E2). rewrite E2. cbn [bind].
    eexists. split; reflexivity. }
  destruct E as (hist & E & L). exists hist. split; [exact E|]. split; [exact L|]. split; [exact U|].
  apply (@c126_stuck nn_F nn_J nn_solve [mkArr [] [- 1]] (Some [mkArr [] [0]]) 1 (1 / 1000) 2); auto; try discriminate. repeat constructor.
Qed.

(** C126 *)
Theorem c126_numbers :
  forall F J solve (F0 : list (arr R) -> res (list R)) (J0 : list (arr R) -> res (list (list R))) (solve0 : list (list R) -> list R -> res (list R)) xs parameters step tol k,
  (forall a, F a = match F0 a with Ok r => Ok (map Some r) | Err e => Err e end) ->
  (forall a, J a = match J0 a with Ok M => Ok (map (map Some) M) | Err e => Err e end) ->
  (forall M b, solve (map (map Some) M) (map Some b) = match solve0 M b with Ok s => Ok (Some s) | Err e => Err e end) ->
  nan_root F J solve xs parameters step tol k = newton_root F0 J0 solve0 xs parameters step tol k.
Proof. exact @c126_numbers__p. Qed.
Print Assumptions c126_numbers.
Example c126_numbers_ex : forall k,
  nan_root (fun a => match nw_F ["p"] ["a"] [nw_eq] a with Ok r => Ok (map Some r) | Err e => Err e end)
           (fun a => match nw_J ["p"] ["a"] [nw_eq] a with Ok M => Ok (map (map Some) M) | Err e => Err e end)
           nn_solve [mkArr [] [2]] (Some [mkArr [] [1]]) 1 (1 / 1000) k =
  newton_root (nw_F ["p"] ["a"] [nw_eq]) (nw_J ["p"] ["a"] [nw_eq]) nw_solve [mkArr [] [2]] (Some [mkArr [] [1]]) 1 (1 / 1000) k.
Proof. intros k. apply c126_numbers; [reflexivity|reflexivity|exact nn_solve_numbers]. Qed.
