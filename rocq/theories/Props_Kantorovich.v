(** C116: the Newton solver finds a solution near its starting point. *)
From Coq Require Import Reals Lra.
From Verif Require Import Py PyStr NdArray M_Euler M_Newton S_Euler S_Newton S_Kantorovich L_Kantorovich L_Kantorovich2.
Local Open Scope list_scope.
Local Open Scope R_scope.

(** The model used in the examples: x x = p with p = 4, starting at x = 2.1. *)
Definition sq_F (args : list (arr R)) : res (list R) :=
  match args with [mkArr _ [x]; mkArr _ [p]] => Ok [x * x - p] | _ => Err TypeError end.
Definition sq_J (args : list (arr R)) : res (list (list R)) :=
  match args with [mkArr _ [x]; mkArr _ [p]] => Ok [[2 * x]] | _ => Err TypeError end.
Definition sq_solve (m : list (list R)) (b : list R) : res (list R) :=
  match m, b with [[a]], [v] => Ok [v / a] | _, _ => Err ValueError end.
Definition sq_x0 : list (arr R) := [mkArr [1%nat] [21 / 10]].
Definition sq_params : option (list (arr R)) := Some [mkArr [] [4]].

Lemma sq_around x : around sq_x0 1 x -> exists v, x = [mkArr [1%nat] [v]] /\ Rabs (v - 21 / 10) <= 1.
Proof.
  intros (S & W & D). destruct x as [|[s d] [|]]; try discriminate. cbn in S. injection S as ->.
  apply Forall_inv in W. unfold arr_wf in W. cbn in W. destruct d as [|v [|]]; try discriminate. exists v. split; [reflexivity|].
  unfold dist1, flat, vsub in D. cbn in D. lra.
Qed.

Lemma sq_region : newton_region sq_F sq_J sq_solve sq_params sq_x0 1 (1 / 2) 1.
Proof.
  constructor.
  - intros x A. destruct (sq_around A) as (v & -> & D). apply Rabs_le_inv in D || (unfold Rabs in D; destruct (Rcase_abs _)).
    all: eexists; eexists; eexists; split; [reflexivity|]; split; [reflexivity|]; split; [reflexivity|]; split; [reflexivity|]; split;
      [split; [reflexivity|intros row [<-|[]]; reflexivity]|]; split; [reflexivity|]; split.
    all: try (unfold mv, dot; cbn; f_equal; field; lra).
    all: unfold abs_sum; cbn; rewrite !Rplus_0_r; unfold Rdiv; rewrite Rabs_mult, (Rabs_pos_eq (/ (2 * v))) by (left; apply Rinv_0_lt_compat; lra);
      rewrite Rmult_comm; apply Rmult_le_compat_r; [apply Rabs_pos|]; rewrite Rmult_1_l; apply Rinv_le_contravar; lra.
  - intros x y r r' j A A' E1 E2 E3. destruct (sq_around A) as (v & -> & _), (sq_around A') as (w & -> & _).
    cbn in E1, E2, E3. assert (r = [v * v - 4]) as -> by congruence. assert (r' = [w * w - 4]) as -> by congruence. assert (j = [[2 * v]]) as -> by congruence.
    unfold dist1, flat, vsub, vadd, mv, dot, abs_sum. cbn. rewrite !Rplus_0_r.
    replace (w * w - 4 - (v * v - 4 + 2 * v * (w - v))) with ((w - v) * (w - v)) by ring. rewrite Rabs_mult. lra.
Qed.
Lemma sq_norm : residual_norm sq_F sq_params sq_x0 (41 / 100).
Proof. eexists. split; [reflexivity|]. cbn. rewrite Rabs_pos_eq; lra. Qed.

(** C116 *)
Theorem c116_converges :
  forall (F : list (arr R) -> res (list R)) (J : list (arr R) -> res (list (list R)))
         (solve : list (list R) -> list R -> res (list R)) (parameters : option (list (arr R))) (x0 : list (arr R))
         (step tol rho beta K u0 : R) (max_iter : nat),
  parameters <> Some [] -> x0 <> [] -> Forall (fun a => arr_wf a) x0 ->
  newton_region F J solve parameters x0 rho beta K -> residual_norm F parameters x0 u0 ->
  0 < step <= 1 -> 0 < tol -> 0 <= beta -> 0 <= K -> 2 * (K * beta ^ 2 * u0) <= 1 -> 2 * beta * u0 <= rho ->
  exists hist, newton_root F J solve x0 parameters step tol max_iter = Ok hist /\ length hist = max_iter /\
    forall t st, nth_error hist t = Some st ->
      exists v, residual_norm F parameters (nx st) v /\ dist1 (flat (nx st)) (flat x0) <= 2 * beta * u0 /\
        (nconv st = true -> v < tol) /\
        (nconv st = false -> nstep st = step /\ v <= (1 - step / 2) ^ S t * u0 /\
           (step = 1 -> K * beta ^ 2 * v <= (K * beta ^ 2 * u0) ^ (2 ^ S t))) /\
        ((1 - step / 2) ^ t * u0 < tol -> nconv st = true).
Proof. exact @c116_converges__p. Qed.
Print Assumptions c116_converges.
(** Ten iterations are enough for an error below 0.001. *)
Example c116_converges_ex : exists hist st v,
  newton_root sq_F sq_J sq_solve sq_x0 sq_params 1 (1 / 1000) 12 = Ok hist /\ nth_error hist 9 = Some st /\ nconv st = true /\
  residual_norm sq_F sq_params (nx st) v /\ v < 1 / 1000.
Proof.
  destruct (@c116_converges sq_F sq_J sq_solve sq_params sq_x0 1 (1 / 1000) 1 (1 / 2) 1 (41 / 100) 12) as (hist & E & L & H);
    try discriminate; try lra.
  - repeat constructor.
  - apply sq_region.
  - apply sq_norm.
  - destruct (nth_error hist 9) as [st|] eqn:N; [|apply nth_error_None in N; lia].
    destruct (H 9%nat st N) as (v & Hv & _ & C1 & _ & C). assert (Ct : nconv st = true) by (apply C; cbn; lra).
    exists hist, st, v. specialize (C1 Ct). repeat (split; [assumption|]). exact C1.
Qed.

Theorem c116_solution :
  forall (F : list (arr R) -> res (list R)) (J : list (arr R) -> res (list (list R)))
         (solve : list (list R) -> list R -> res (list R)) (parameters : option (list (arr R))) (x0 : list (arr R))
         (step tol rho beta K u0 : R) (max_iter : nat),
  parameters <> Some [] -> x0 <> [] -> Forall (fun a => arr_wf a) x0 ->
  newton_region F J solve parameters x0 rho beta K -> residual_norm F parameters x0 u0 ->
  0 < step <= 1 -> 0 < tol -> 0 <= beta -> 0 <= K -> 2 * (K * beta ^ 2 * u0) <= 1 -> 2 * beta * u0 <= rho ->
  exists hist, newton_root F J solve x0 parameters step tol max_iter = Ok hist /\
    forall st, In st hist ->
      exists v xs, residual_norm F parameters (nx st) v /\ (nconv st = true -> v < tol) /\
        map (@ashape R) xs = map (@ashape R) x0 /\ Forall (fun a => arr_wf a) xs /\
        F (at_point parameters xs) = Ok (zeros (length (flat x0))) /\ dist1 (flat xs) (flat (nx st)) <= 2 * beta * v.
Proof. exact @c116_solution__p. Qed.
Print Assumptions c116_solution.
Example c116_solution_ex : exists hist,
  newton_root sq_F sq_J sq_solve sq_x0 sq_params (1 / 2) (1 / 1000) 30 = Ok hist /\
  forall st, In st hist -> nconv st = true -> exists s, s * s = 4 /\ dist1 [s] (flat (nx st)) <= 1 / 1000.
Proof.
  destruct (@c116_solution sq_F sq_J sq_solve sq_params sq_x0 (1 / 2) (1 / 1000) 1 (1 / 2) 1 (41 / 100) 30) as (hist & E & H);
    try discriminate; try lra.
  - repeat constructor.
  - apply sq_region.
  - apply sq_norm.
  - exists hist. split; [exact E|]. intros st Hin Hc. destruct (H st Hin) as (v & xs & _ & C & S & W & Z & D). specialize (C Hc).
    destruct xs as [|[sh d] [|]]; try discriminate. cbn in S. injection S as ->. apply Forall_inv in W. unfold arr_wf in W. cbn in W.
    destruct d as [|s [|]]; try discriminate. exists s. cbn in Z. assert (Z' : s * s - 4 = 0) by congruence. split; [lra|].
    change (flat [mkArr [1%nat] [s]]) with [s] in D. lra.
Qed.
