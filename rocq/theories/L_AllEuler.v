(** Lemmas for C121: all Euler functions for written equations. *)
From Coq Require Import Reals Lra.
From Verif Require Import Py PyStr NdArray M_SymExpr M_Calculus S_Calculus L_Calculus S_Reduce M_Primitives M_Utilities M_Wrappers M_Euler
  S_Layout S_Euler S_Converge S_Kantorovich L_Euler L_Euler3 L_Converge L_Converge2
  L_Kantorovich S_Trace L_Trace L_Trace2 L_Trace3 L_Trace4 L_Trace5 S_NewtonNear L_NewtonNear L_SmallShock L_SmallShock2 S_AllEuler.
Local Open Scope string_scope.
Local Open Scope list_scope.
Local Open Scope R_scope.

Section Transfer.
Context (A B : list R -> list R -> list (list R)) (vs ps : list string) (eqs : list sexpr).
Hypothesis ND : NoDup (vs ++ ps).
Hypothesis SQ : length eqs = length vs.
Hypothesis AB : differentiates A B vs ps eqs.

Lemma derivatives_unique' x th J : Forall (smooth (state_of (vs ++ ps) (x ++ th)) no_arrays) eqs -> derivatives_in ps vs ps eqs x th J -> J = Bm vs ps eqs x th.
Proof.
  unfold derivatives_in, Bm. intros S H. clear SQ AB. induction H as [|e row es J He HJ IH]; [reflexivity|]. apply Forall_cons_iff in S as (S1 & S2).
  cbn [map]. rewrite <- IH by auto. f_equal. clear - He S1. set (v := state_of _ _) in *. clearbody v. induction He as [|y d l row Hd _ IH]; [reflexivity|].
  cbn [map]. rewrite <- IH. f_equal. eapply uniqueness_limite; [exact Hd|]. now apply deriv_val.
Qed.
Lemma same_matrices x th : length x = length vs -> length th = length ps -> Forall (smooth (state_of (vs ++ ps) (x ++ th)) no_arrays) eqs ->
  A x th = Am vs ps eqs x th /\ B x th = Bm vs ps eqs x th.
Proof. intros Lx Lt S. destruct (AB x th Lx Lt S) as (DA & DB). split; [now apply derivatives_unique|now apply derivatives_unique']. Qed.

Lemma backend_path solve th0 th1 X : length th0 = length ps -> length th1 = length ps -> right_solver solve (length vs) -> solution_path vs ps eqs th0 th1 X ->
  exists X' r K, 0 < r /\ 0 <= K /\ equilibrium_path (Fm vs ps eqs) A B solve (length vs) (length ps) (X 0) th0 th1 X X' r K K.
Proof.
  intros T0 T1 RS SP. destruct (written_path ND SQ T0 T1 RS SP) as (r & K & Hr & HK & EP). destruct (path_smooth ND SQ T0 T1 RS SP) as (r1 & Hr1 & SM).
  exists (Xd vs ps eqs solve th0 th1 X), (Rmin r r1), K. split; [now apply Rmin_pos|]. split; [auto|].
  assert (M0 : Rmin r r1 <= r) by apply Rmin_l. assert (M1 : Rmin r r1 <= r1) by apply Rmin_r. assert (M2 : 0 < Rmin r r1) by now apply Rmin_pos.
  assert (LL : forall t, length (line th0 th1 t) = length ps) by (intros; rewrite line_length; congruence).
  assert (EQ : forall t x e, 0 <= t <= 1 -> e <= Rmin r r1 -> within e x (X t) ->
    A x (line th0 th1 t) = Am vs ps eqs x (line th0 th1 t) /\ B x (line th0 th1 t) = Bm vs ps eqs x (line th0 th1 t)).
  { intros t x e Ht He W. apply same_matrices; auto; [destruct W as (W & _); rewrite W; apply (so_length SP Ht)|]. apply SM; auto. eapply within_mono; [exact W|lra]. }
  assert (EX : forall t, 0 <= t <= 1 -> A (X t) (line th0 th1 t) = Am vs ps eqs (X t) (line th0 th1 t) /\ B (X t) (line th0 th1 t) = Bm vs ps eqs (X t) (line th0 th1 t)).
  { intros t Ht. apply (EQ t (X t) 0 Ht); [lra|]. apply within_refl. lra. }
  constructor.
  - reflexivity.
  - apply (ep_length EP).
  - apply (ep_derivative EP).
  - apply (ep_solution EP).
  - intros t Ht. destruct (EX t Ht) as (-> & ->). now apply (ep_differentiable EP).
  - intros t x Ht W. destruct (EQ t x _ Ht (Rle_refl _) W) as (-> & ->). apply (ep_systems EP); auto. eapply within_mono; [exact W|lra].
  - intros t x e Ht He W. unfold euler_inc. destruct (EX t Ht) as (-> & ->). destruct (EQ t x e Ht (proj2 He) W) as (-> & ->).
    apply (ep_lipschitz EP); auto. lra.
  - apply (ep_smooth EP).
Qed.
End Transfer.

Lemma c121_path__p :
  forall (b : backend) (use_rk4 : bool) (A B : list R -> list R -> list (list R)) (solve : list (list R) -> list R -> list R)
         (c : coords) (vars params : list mobj) (sv sp : list (list nat)) (data : dict (arr R)) (x0 theta0 theta1 : list R)
         (variables parameters : list string) (equations : list sexpr) (X : R -> list R),
  euler_input c vars params sv sp data x0 theta0 theta1 -> supports b use_rk4 ->
  (forall x th, length (B x th) = total sv) -> (forall m v, length (solve m v) = length v) ->
  NoDup (variables ++ parameters) -> length variables = total sv -> length parameters = total sp -> length equations = length variables ->
  differentiates A B variables parameters equations -> right_solver solve (length variables) ->
  solution_path variables parameters equations theta0 theta1 X -> X 0 = x0 ->
  exists C N, 0 <= C /\ forall n, (N <= n)%nat ->
    exists out, run_euler b use_rk4 (euler_inc A B solve) vars params c theta1 n data = Ok out /\
      (forall t, (first_step b <= t <= n)%nat -> within (C / INR n) (firstn (total sv) (row_of out (t - first_step b))) (X (INR t / INR n))) /\
      within (C / INR n) (firstn (total sv) (row_of out (n - first_step b))) (X 1) /\
      skipn (total sv) (row_of out (n - first_step b)) = theta1 /\
      within (C / INR n) (values_at variables parameters equations (firstn (total sv) (row_of out (n - first_step b))) theta1) (zeros (total sv)).
Proof.
  intros b rk4 A B solve c vars params sv sp data x0 th0 th1 vs ps eqs X EI Hs HB HS ND Lv Lp SQ AB RS SP X0.
  destruct (input_lengths EI) as (Lx & Lt & _). pose proof (ei_final EI) as L1.
  assert (T0 : length th0 = length ps) by congruence. assert (T1 : length th1 = length ps) by congruence.
  destruct (@backend_path A B vs ps eqs ND SQ AB solve th0 th1 X T0 T1 RS SP) as (X' & r & K & Hr & HK & EP). rewrite X0 in EP.
  destruct (end_values SQ T0 T1 SP) as (r2 & K2 & Hr2 & HK2 & EV).
  set (E := 3 * K * exp (2 * K)). assert (HE : 0 <= E) by (unfold E; pose proof (exp_pos (2 * K)); nra).
  assert (HK2E : 0 <= K2 * E) by (apply Rmult_le_pos; auto).
  destruct (large_number (1 + K + 12 * K * exp (2 * K) / r + E / r2)) as (N & HN).
  assert (P1 : 0 <= 12 * K * exp (2 * K) / r) by (unfold Rdiv; apply Rmult_le_pos; [pose proof (exp_pos (2 * K)); nra|left; now apply Rinv_0_lt_compat]).
  assert (P3 : 0 <= E / r2) by (unfold Rdiv; apply Rmult_le_pos; [auto|left; now apply Rinv_0_lt_compat]).
  exists (E + K2 * E), N. split; [lra|]. intros n Hn. specialize (HN n Hn).
  assert (N1 : (1 <= n)%nat) by (destruct n; [cbn in HN; lra|lia]). assert (Np : 0 < INR n) by (apply lt_0_INR; lia).
  assert (Hi : 0 < / INR n) by now apply Rinv_0_lt_compat.
  assert (B1 : 12 * K * exp (2 * K) <= r * INR n).
  { apply Rmult_le_reg_r with (/ r); [now apply Rinv_0_lt_compat|]. replace (r * INR n * / r) with (INR n) by (field; lra). unfold Rdiv in *. lra. }
  assert (B3 : E / INR n <= r2).
  { assert (H : E / r2 <= INR n) by lra. apply Rmult_le_reg_r with (INR n); [auto|]. unfold Rdiv at 1. rewrite Rmult_assoc, Rinv_l by lra.
    apply Rmult_le_compat_l with (r := r2) in H; [|lra]. replace (r2 * (E / r2)) with E in H by (field; lra). lra. }
  rewrite Lv, Lp in EP.
  destruct (@c115_bound__p b rk4 (Fm vs ps eqs) A B solve c vars params sv sp data x0 th0 th1 X X' r K K n EI Hs HB HS EP Hr HK HK N1 ltac:(lra) B1) as (out & Eo & W). fold E in W.
  destruct (@c37_line__p b rk4 (euler_inc A B solve) c vars params sv sp data x0 th0 th1 n EI Hs (inc_sized A B solve HB HS) N1) as (out' & E' & _ & _ & HT).
  assert (out' = out) by congruence. subst out'. assert (FS : (first_step b <= n)%nat) by (destruct b; cbn; lia).
  assert (CE : E / INR n <= (E + K2 * E) / INR n) by (unfold Rdiv; apply Rmult_le_compat_r; lra).
  assert (WL : within (E / INR n) (firstn (total sv) (row_of out (n - first_step b))) (X 1)).
  { specialize (W n ltac:(lia)). replace (INR n / INR n) with 1 in W by (field; lra). exact W. }
  exists out. split; [exact Eo|]. split; [|split; [|split; [exact HT|]]].
  - intros t Ht. eapply within_mono; [apply (W t Ht)|exact CE].
  - eapply within_mono; [exact WL|exact CE].
  - rewrite <- Lv at 2. eapply within_mono; [apply (EV _ (E / INR n)); [split; [unfold Rdiv; apply Rmult_le_pos; lra|auto]|exact WL]|].
    unfold Rdiv. rewrite <- Rmult_assoc. apply Rmult_le_compat_r; lra.
Qed.

Lemma c121_small__p :
  forall (b : backend) (use_rk4 : bool) (A B : list R -> list R -> list (list R)) (solve : list (list R) -> list R -> list R)
         (c : coords) (vars params : list mobj) (sv sp : list (list nat)) (data : dict (arr R)) (x0 theta0 : list R)
         (variables parameters : list string) (equations : list sexpr),
  euler_input c vars params sv sp data x0 theta0 theta0 -> supports b use_rk4 ->
  (forall x th, length (B x th) = total sv) -> (forall m v, length (solve m v) = length v) ->
  NoDup (variables ++ parameters) -> length variables = total sv -> length parameters = total sp -> length equations = length variables ->
  differentiates A B variables parameters equations -> right_solver solve (length variables) ->
  regular_solution variables parameters equations x0 theta0 ->
  exists rho delta, 0 < rho /\ 0 < delta /\
  forall theta1, length theta1 = total sp -> dist1 theta1 theta0 <= delta ->
  exists x1, length x1 = total sv /\ dist1 x1 x0 <= rho /\
    Forall (fun r => r = 0) (values_at variables parameters equations x1 theta1) /\
    (forall y, length y = total sv -> dist1 y x0 <= rho -> Forall (fun r => r = 0) (values_at variables parameters equations y theta1) -> y = x1) /\
    exists C N, 0 <= C /\ forall n, (N <= n)%nat ->
      exists out, run_euler b use_rk4 (euler_inc A B solve) vars params c theta1 n data = Ok out /\
        within (C / INR n) (firstn (total sv) (row_of out (n - first_step b))) x1 /\
        skipn (total sv) (row_of out (n - first_step b)) = theta1.
Proof.
  intros b rk4 A B solve c vars params sv sp data x0 th0 vs ps eqs EI Hs HB HS ND Lv Lp SQ AB RS RG.
  destruct (input_lengths EI) as (Lx & Lt & _). assert (T0 : length th0 = length ps) by congruence. assert (LX : length x0 = length vs) by congruence.
  destruct (@path_exists vs ps eqs th0 x0 solve ND SQ T0 LX RG RS) as (rho & delta & Hr & Hd & H). exists rho, delta. split; [auto|]. split; [auto|].
  intros th1 Lt1 Dt1. assert (T1 : length th1 = length ps) by congruence. destruct (H th1 T1 Dt1) as (X & SP & X0 & D1 & U).
  assert (O1 : 0 <= 1 <= 1) by lra. assert (L1 := so_length SP O1). assert (Z1 := so_solution SP O1). rewrite line_1 in Z1 by congruence.
  exists (X 1). split; [congruence|]. split; [exact D1|]. split; [exact Z1|]. split.
  { intros y Ly Dy Zy. assert (Ly' : length y = length vs) by congruence. apply U; auto. rewrite (all_zeros Zy). f_equal. apply f_length; auto. }
  assert (EI1 : euler_input c vars params sv sp data x0 th0 th1) by (destruct EI; constructor; auto).
  destruct (@c121_path__p b rk4 A B solve c vars params sv sp data x0 th0 th1 vs ps eqs X EI1 Hs HB HS ND Lv Lp SQ AB RS SP X0) as (C & N & HC & HN).
  exists C, N. split; [auto|]. intros n Hn. destruct (HN n Hn) as (out & E & _ & W & T & _). eauto.
Qed.
