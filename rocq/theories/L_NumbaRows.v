(** Lemmas for C118: the rows of the approximation for all equations. *)
From Coq Require Import Reals Lra.
From Verif Require Import Py PyStr M_SymExpr M_Calculus M_Lambdify M_NumbaStep M_Euler S_Euler S_Converge L_Euler L_Converge M_NumbaEuler L_Trace2.
Local Open Scope list_scope.
Local Open Scope R_scope.

Lemma vadd_app (u v u' v' : list R) : length u = length u' -> vadd (u ++ v) (u' ++ v') = vadd u u' ++ vadd v v'.
Proof.
  revert u'. induction u as [|a u IH]; intros [|b u'] L; try discriminate; [reflexivity|]. unfold vadd, vmap2 in *. cbn in *. f_equal. apply IH. now injection L.
Qed.
Lemma vdiv_vscale v n : vdiv v n = vscale (/ INR n) v.
Proof. unfold vdiv, vscale. apply map_ext. intros a. unfold Rdiv. ring. Qed.

Lemma euler_rows_line f th0 th1 n k : (n <> 0)%nat -> length th0 = length th1 -> forall j x rows, (j + k = n)%nat ->
  euler_rows f (vdiv (vsub th1 th0) n) k (x ++ line th0 th1 (INR j / INR n)) = Ok rows ->
  length rows = k /\ forall i, (i < k)%nat -> exists y, length y = length x /\ nth_error rows i = Some (y ++ line th0 th1 (INR (S (j + i)) / INR n)).
Proof.
  intros Hn L. induction k as [|k IH]; intros j x rows Hj E; cbn [euler_rows] in E; [injection E as <-; split; [reflexivity|lia]|].
  set (s := vdiv (vsub th1 th0) n) in *. destruct (f s _) as [dx|] eqn:Ef; [|discriminate]. cbn [bind] in E. unfold checked_add in E.
  destruct (Nat.eqb _ _) eqn:En; [|discriminate]. apply Nat.eqb_eq in En. rewrite !app_length, line_length in En by auto.
  assert (Ls : length s = length th0) by (unfold s; rewrite vdiv_length, vsub_length; lia). assert (Ld : length dx = length x) by lia. cbn [bind] in E.
  assert (ES : vadd (line th0 th1 (INR j / INR n)) s = line th0 th1 (INR (S j) / INR n)).
  { unfold s. rewrite vdiv_vscale, line_add by auto. f_equal. rewrite S_INR. unfold Rdiv. ring. }
  rewrite vadd_app, ES in E by auto.
  destruct (euler_rows f s k _) as [rest|] eqn:Er; [|discriminate]. cbn [bind] in E. injection E as <-.
  destruct (IH (S j) (vadd x dx) rest ltac:(lia) Er) as (Lr & H). split; [cbn; congruence|]. intros [|i] Hi.
  - exists (vadd x dx). rewrite Nat.add_0_r. split; [rewrite vadd_length; lia|reflexivity].
  - destruct (H i ltac:(lia)) as (y & Ly & Ey). exists y. split; [rewrite Ly, vadd_length; lia|]. cbn [nth_error]. now replace (S (j + S i)) with (S (S j + i)) by lia.
Qed.

Lemma c118_rows__p :
  forall sub_into dict_order cse linalg_solve use_rk4 variables parameters equations x0 theta0 theta1 n rows,
    length theta1 = length theta0 ->
    numba_euler sub_into dict_order cse linalg_solve use_rk4 variables parameters equations x0 theta0 theta1 n = Ok rows ->
    use_rk4 = false /\ length rows = S n /\ nth_error rows 0 = Some (x0 ++ theta0) /\
    forall k, (k <= n)%nat -> exists x, length x = length x0 /\ nth_error rows k = Some (x ++ line theta0 theta1 (INR k / INR n)).
Proof.
  intros sub_into dict_order cse linalg_solve use_rk4 variables parameters equations x0 theta0 theta1 n rows E H. unfold numba_euler in H. destruct use_rk4; [discriminate|].
  rewrite (proj2 (Nat.eqb_eq _ _) E) in H. split; [reflexivity|].
  destruct (euler_rows _ _ _ _) as [rest|] eqn:Er; [|discriminate]. cbn [bind] in H. injection H as <-.
  assert (L0 : line theta0 theta1 (INR 0 / INR n) = theta0) by (unfold Rdiv; cbn [INR]; rewrite Rmult_0_l; now apply line_0).
  destruct (Nat.eq_dec n 0) as [->|Hn].
  { cbn in Er. injection Er as <-. split; [reflexivity|]. split; [reflexivity|]. intros k Hk. assert (k = 0%nat) by lia. subst k. exists x0. split; [reflexivity|]. now rewrite L0. }
  rewrite <- L0 in Er at 2. destruct (@euler_rows_line _ theta0 theta1 n n Hn ltac:(lia) 0 x0 rest ltac:(lia) Er) as (Lr & HL). split; [cbn; congruence|]. split; [reflexivity|].
  intros [|k] Hk; [exists x0; split; [reflexivity|]; now rewrite L0|]. destruct (HL k ltac:(lia)) as (y & Ly & Ey). exists y. now split.
Qed.
