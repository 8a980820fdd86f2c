(** C121: the Euler functions of all backends, for written equations. *)
From Coq Require Import Reals Lra.
From Verif Require Import Py PyStr NdArray M_SymExpr M_Calculus S_Calculus L_Calculus M_Primitives M_Utilities M_Wrappers M_Euler
  S_Layout S_Euler S_Converge S_Kantorovich S_Trace S_NewtonNear S_AllEuler L_AllEuler Props_Converge Props_Trace Props_SmallShock.
Local Open Scope string_scope.
Local Open Scope list_scope.
Local Open Scope R_scope.

Lemma tx_differentiates : differentiates tx_A tx_B ["p"] ["a"] [wx_eq].
Proof.
  intros [|p [|]] [|a [|]] Lx Lt S; try discriminate. apply Forall_cons_iff in S as (Sm & _).
  split; (constructor; [|constructor]; constructor; [|constructor]; unfold partial_derivative).
  - pose proof (@deriv_val (state_of (["p"] ++ ["a"]) ([p] ++ [a])) no_arrays "p" wx_eq Sm) as D. eapply eq_rect; [exact D|]. cbn. ring.
  - pose proof (@deriv_val (state_of (["p"] ++ ["a"]) ([p] ++ [a])) no_arrays "a" wx_eq Sm) as D. eapply eq_rect; [exact D|]. cbn. ring.
Qed.
Lemma tx_names : NoDup (["p"] ++ ["a"]).
Proof. repeat constructor; cbn; intuition discriminate. Qed.
Lemma tx_lengths : forall m v, length (tx_solve m v) = length v.
Proof. intros. unfold tx_solve. apply map_length. Qed.

(** C121 *)
Theorem c121_path :
  forall (b : backend) (use_rk4 : bool) (A B : list R -> list R -> list (list R)) (solve : list (list R) -> list R -> list R)
         (c : coords) (vars params : list mobj) (sv sp : list (list nat)) (data : dict (arr R)) (x0 theta0 theta1 : list R)
         (variables parameters : list string) (equations : list sexpr) (X : R -> list R),
  euler_input c vars params sv sp data x0 theta0 theta1 -> supports b use_rk4 ->
  (forall x th, length (B x th) = total sv) -> (forall m v, length (solve m v) = length v) ->
  NoDup (variables ++ parameters) -> length variables = total sv -> length parameters = total sp -> length equations = length variables ->
  differentiates A B variables parameters equations -> right_solver solve (length variables) ->
  solution_path variables parameters equations theta0 theta1 X -> X 0 = x0 ->
  exists C N, 0 <= C /\ forall n, (N <= n)%nat ->
    exists out, run_euler b use_rk4 (euler_inc A B solve) vars params c theta1 n data = Ok out /\
      (forall t, (first_step b <= t <= n)%nat -> within (C / INR n) (firstn (total sv) (row_of out (t - first_step b))) (X (INR t / INR n))) /\
      within (C / INR n) (firstn (total sv) (row_of out (n - first_step b))) (X 1) /\
      skipn (total sv) (row_of out (n - first_step b)) = theta1 /\
      within (C / INR n) (values_at variables parameters equations (firstn (total sv) (row_of out (n - first_step b))) theta1) (zeros (total sv)).
Proof. exact @c121_path__p. Qed.
Print Assumptions c121_path.
(** The tax goes from 0 to 1; in every backend, with Euler or RK4 steps where
    supported, the price comes as close to 1/2 as one likes. *)
Example c121_path_ex : forall b use_rk4, supports b use_rk4 ->
  exists C N, 0 <= C /\ forall n, (N <= n)%nat ->
    exists out, run_euler b use_rk4 (euler_inc tx_A tx_B tx_solve) tx_vars tx_params [] [1] n tx_data = Ok out /\
      exists p, firstn 1 (row_of out (n - first_step b)) = [p] /\ Rabs (p - / 2) <= C / INR n.
Proof.
  intros b rk4 Hs.
  destruct (@c121_path b rk4 tx_A tx_B tx_solve [] tx_vars tx_params [[]] [[]] tx_data [1] [0] [1] ["p"] ["a"] [wx_eq] tx_X
    tx_input Hs (fun _ _ => eq_refl) tx_lengths tx_names eq_refl eq_refl eq_refl tx_differentiates wx_solver wx_path) as (C & N & HC & H).
  { unfold tx_X. f_equal. field. }
  exists C, N. split; [exact HC|]. intros n Hn. destruct (H n Hn) as (out & E & _ & W & _). exists out. split; [exact E|].
  assert (X1 : tx_X 1 = [/ 2]) by (unfold tx_X; do 2 f_equal; lra). rewrite X1 in W. exact (within_one W).
Qed.

Theorem c121_small :
  forall (b : backend) (use_rk4 : bool) (A B : list R -> list R -> list (list R)) (solve : list (list R) -> list R -> list R)
         (c : coords) (vars params : list mobj) (sv sp : list (list nat)) (data : dict (arr R)) (x0 theta0 : list R)
         (variables parameters : list string) (equations : list sexpr),
  euler_input c vars params sv sp data x0 theta0 theta0 -> supports b use_rk4 ->
  (forall x th, length (B x th) = total sv) -> (forall m v, length (solve m v) = length v) ->
  NoDup (variables ++ parameters) -> length variables = total sv -> length parameters = total sp -> length equations = length variables ->
  differentiates A B variables parameters equations -> right_solver solve (length variables) ->
  regular_solution variables parameters equations x0 theta0 ->
  exists rho delta, 0 < rho /\ 0 < delta /\
  forall theta1, length theta1 = total sp -> dist1 theta1 theta0 <= delta ->
  exists x1, length x1 = total sv /\ dist1 x1 x0 <= rho /\
    Forall (fun r => r = 0) (values_at variables parameters equations x1 theta1) /\
    (forall y, length y = total sv -> dist1 y x0 <= rho -> Forall (fun r => r = 0) (values_at variables parameters equations y theta1) -> y = x1) /\
    exists C N, 0 <= C /\ forall n, (N <= n)%nat ->
      exists out, run_euler b use_rk4 (euler_inc A B solve) vars params c theta1 n data = Ok out /\
        within (C / INR n) (firstn (total sv) (row_of out (n - first_step b))) x1 /\
        skipn (total sv) (row_of out (n - first_step b)) = theta1.
Proof. exact @c121_small__p. Qed.
Print Assumptions c121_small.
(** After a small tax a the price is near 1 / (1 + a) in every backend. *)
Example c121_small_ex : forall b use_rk4, supports b use_rk4 ->
  exists delta, 0 < delta /\ forall a, Rabs a <= delta -> exists q, q * (1 + a) = 1 /\
    exists C N, 0 <= C /\ forall n, (N <= n)%nat ->
      exists out, run_euler b use_rk4 (euler_inc tx_A tx_B tx_solve) tx_vars tx_params [] [a] n tx_data = Ok out /\
        exists p, firstn 1 (row_of out (n - first_step b)) = [p] /\ Rabs (p - q) <= C / INR n.
Proof.
  intros b rk4 Hs. assert (EI : euler_input [] tx_vars tx_params [[]] [[]] tx_data [1] [0] [0]) by (destruct tx_input; constructor; auto).
  destruct (@c121_small b rk4 tx_A tx_B tx_solve [] tx_vars tx_params [[]] [[]] tx_data [1] [0] ["p"] ["a"] [wx_eq]
    EI Hs (fun _ _ => eq_refl) tx_lengths tx_names eq_refl eq_refl eq_refl tx_differentiates wx_solver wx_regular) as (rho & delta & _ & Hd & H).
  exists delta. split; [exact Hd|]. intros a Ha. destruct (H [a] eq_refl) as (x1 & L1 & _ & Z & _ & C & N & HC & HN).
  { unfold dist1, abs_sum. cbn. rewrite Rminus_0_r. lra. }
  destruct x1 as [|q [|]]; try discriminate. exists q. split; [apply Forall_cons_iff in Z as (Z & _); cbn in Z; lra|].
  exists C, N. split; [exact HC|]. intros n Hn. destruct (HN n Hn) as (out & E & W & _). exists out. split; [exact E|]. exact (within_one W).
Qed.
