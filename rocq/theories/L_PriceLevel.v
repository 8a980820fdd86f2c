(** Lemmas for C122. *)
From Coq Require Import Reals Lra Classical.
From Verif Require Import Py PyStr NdArray M_SymExpr M_Calculus S_Calculus L_Calculus S_Reduce M_Lambdify S_Lambdify L_Lambdify L_Lambdify2 M_Utilities
  M_Euler M_Newton S_Euler S_Converge S_Newton S_Kantorovich L_Euler L_Euler3 L_Newton L_Converge L_Converge2
  L_Kantorovich S_Trace L_Trace L_Trace2 L_Trace3 L_Trace4 L_Trace5 S_NewtonNear L_NewtonNear L_SmallShock S_PriceLevel.
Local Open Scope string_scope.
Local Open Scope list_scope.
Local Open Scope R_scope.

Definition price_direction (prices variables : list string) (x : list R) : list R :=
  map (fun yv => if mem_str (fst yv) prices then snd yv else 0) (combine variables x).
Lemma direction_length P vs x : length x = length vs -> length (price_direction P vs x) = length vs.
Proof. intros L. unfold price_direction. rewrite map_length, combine_length. lia. Qed.
Lemma level_direction P : forall vs x h, length x = length vs -> at_price_level P vs (1 + h) x = vadd x (vscale h (price_direction P vs x)).
Proof.
  induction vs as [|y vs IH]; intros [|v x] h L; try discriminate; [reflexivity|]. injection L as L. specialize (IH x h L).
  unfold at_price_level, price_direction, vadd, vscale in *. cbn. f_equal; [destruct (mem_str y P); ring|exact IH].
Qed.
Lemma direction_entry P : forall vs x i y, nth_error vs i = Some y -> In y P -> length x = length vs -> nth i (price_direction P vs x) 0 = nth i x 0.
Proof.
  induction vs as [|z vs IH]; intros [|v x] [|i] y E Hy L; try discriminate; cbn in *.
  - injection E as ->. assert (M : mem_str y P = true) by (apply mem_str_In; auto). now rewrite M.
  - eapply IH; eauto.
Qed.

Lemma nth_mv_zeros M n : forall i, nth i (mv M (zeros n)) 0 = 0.
Proof. unfold mv. induction M as [|r M IH]; intros [|i]; cbn [map nth]; auto using dot_zeros. Qed.

Section Level.
Context (P vs ps : list string) (eqs : list sexpr) (x th : list R).
Hypothesis ND : NoDup (vs ++ ps).
Hypothesis SQ : length eqs = length vs.
Hypothesis LX : length x = length vs.
Hypothesis LT : length th = length ps.
Hypothesis SM : Forall (smooth (state_of (vs ++ ps) (x ++ th)) no_arrays) eqs.
Hypothesis SO : Forall (fun r => r = 0) (values_at vs ps eqs x th).
Hypothesis FR : free_price_level P vs ps eqs th.
Notation u := (price_direction P vs x).

Lemma direction_zero : mv (Am vs ps eqs x th) u = zeros (length vs).
Proof.
  set (A := Am vs ps eqs x th). assert (MA : is_matrix (length vs) (length vs) A) by (apply Am_matrix; auto).
  assert (LA : length (mv A u) = length vs) by (rewrite mv_length; apply MA).
  apply vec_ext; [rewrite LA; unfold zeros; now rewrite repeat_length|]. rewrite LA. intros i Hi. rewrite nth_zeros.
  set (c := abs_sum u). assert (Hc : 0 <= c) by apply abs_pos.
  apply NNPP. intros NZ. apply Rabs_pos_lt in NZ. apply (Rlt_not_le _ _ NZ). apply le_epsilon. intros eps He. rewrite Rplus_0_l.
  set (e1 := eps / (c + 1)). assert (He1 : 0 < e1) by (unfold e1; apply Rdiv_lt_0_compat; lra).
  destruct (@model_differentiable vs ps eqs ND SQ x th LX LT SM e1 He1) as (del & Hd & HF).
  set (h := del / (c + 1)). assert (Hh : 0 < h) by (unfold h; apply Rdiv_lt_0_compat; lra).
  assert (Hm : 0 <= h * c <= del).
  { split; [apply Rmult_le_pos; lra|]. unfold h. apply Rmult_le_reg_r with (c + 1); [lra|]. replace (del / (c + 1) * c * (c + 1)) with (del * c) by (field; lra). nra. }
  assert (Lu : length u = length vs) by now apply direction_length. assert (Lhu : length x = length (vscale h u)) by (rewrite vscale_length; congruence).
  assert (W1 : within (h * c) (vadd x (vscale h u)) x).
  { split; [now apply vadd_length|]. intros j Hj. rewrite nth_vadd, nth_vscale by auto. replace (nth j x 0 + h * nth j u 0 - nth j x 0) with (h * nth j u 0) by ring.
    rewrite Rabs_mult, (Rabs_pos_eq h) by lra. apply Rmult_le_compat_l; [lra|apply entry_le]. }
  assert (W2 : within (h * c) th th) by (apply within_refl; lra).
  specialize (HF _ _ _ Hm W1 W2). unfold Fm in HF.
  assert (S2 : Forall (fun r => r = 0) (values_at vs ps eqs (vadd x (vscale h u)) th)) by (rewrite <- level_direction by auto; apply FR; auto; lra).
  rewrite (all_zeros S2), (all_zeros SO), !f_length in HF by auto.
  assert (EV : vsub (vadd x (vscale h u)) x = vscale h u).
  { apply vec_ext; [rewrite vsub_length, vadd_length; auto; now rewrite vadd_length|]. intros j _. rewrite nth_vsub, nth_vadd by (auto; now rewrite vadd_length). ring. }
  rewrite EV, mv_vscale in HF. fold A in HF. rewrite vsub_self in HF. destruct HF as (_ & HF).
  specialize (HF i). rewrite zeros_length in HF. specialize (HF Hi).
  assert (LB : length (Bm vs ps eqs x th) = length vs) by (apply Bm_matrix; auto).
  assert (NB : nth i (mv (Bm vs ps eqs x th) (zeros (length th))) 0 = 0).
  { apply nth_mv_zeros. }
  assert (LVB : length (vscale h (mv A u)) = length (mv (Bm vs ps eqs x th) (zeros (length th)))) by (rewrite vscale_length, LA, mv_length; congruence).
  rewrite nth_vadd in HF by (rewrite zeros_length, vadd_length, vscale_length; auto). rewrite nth_vadd, nth_vscale, !nth_zeros, NB in HF by auto.
  replace (0 - (0 + (h * nth i (mv A u) 0 + 0))) with (- (h * nth i (mv A u) 0)) in HF by ring. rewrite Rabs_Ropp, Rabs_mult, (Rabs_pos_eq h) in HF by lra.
  apply Rmult_le_reg_l with h; [auto|]. eapply Rle_trans; [exact HF|]. replace (e1 * (h * c)) with (h * (e1 * c)) by ring. apply Rmult_le_compat_l; [lra|].
  unfold e1. apply Rmult_le_reg_r with (c + 1); [lra|]. replace (eps / (c + 1) * c * (c + 1)) with (eps * c) by (field; lra). nra.
Qed.

Lemma level_singular : has_price P vs x -> ~ nonsingular (Am vs ps eqs x th) (length vs).
Proof.
  intros (i & y & E & Hy & N) NS. apply N. rewrite <- (@direction_entry P vs x i y E Hy LX). assert (Q : u = zeros (length vs)).
  { apply NS; [now apply direction_length|apply zeros_length|]. rewrite direction_zero. symmetry. apply vec_ext; [rewrite mv_length, zeros_length; apply Am_matrix; auto|]. intros j _. rewrite nth_zeros. apply nth_mv_zeros. }
  rewrite Q. apply nth_zeros.
Qed.
End Level.

Lemma c122_singular__p :
  forall prices variables parameters equations x theta,
    NoDup (variables ++ parameters) -> length equations = length variables -> length x = length variables -> length theta = length parameters ->
    Forall (smooth (state_of (variables ++ parameters) (x ++ theta)) no_arrays) equations ->
    Forall (fun r => r = 0) (values_at variables parameters equations x theta) ->
    free_price_level prices variables parameters equations theta -> has_price prices variables x ->
    (forall J, derivatives_at variables parameters equations x theta J -> ~ nonsingular J (length variables)) /\
    ~ regular_solution variables parameters equations x theta.
Proof.
  intros P vs ps eqs x th ND SQ LX LT SM SO FR HP. assert (N : forall J, derivatives_at vs ps eqs x th J -> ~ nonsingular J (length vs)).
  { intros J D. rewrite (@derivatives_unique vs ps eqs x th J SM D). now apply level_singular with (P := P). }
  split; [exact N|]. intros RG. destruct (rs_regular RG) as (J & D & NS). exact (N J D NS).
Qed.

Lemma c122_numba__p :
  forall cse, eliminates cse -> forall prices variables parameters equations,
    let names := variables ++ parameters in
    NoDup names -> (forall n, In n names -> is_name n = true /\ ~ In n reserved) ->
    (forall e, In e equations -> no_reduction e /\ indexed_exprs e = [] /\ forall s, In s (atoms e) -> In s names) ->
    variables <> [] -> length equations = length variables ->
    exists f, compile_numba_jacobian_function cse (SysList equations) variables parameters = Ok f /\
      forall x theta, length x = length variables -> length theta = length parameters ->
        Forall (smooth (state_of names (x ++ theta)) no_arrays) equations ->
        Forall (fun r => r = 0) (values_at variables parameters equations x theta) ->
        free_price_level prices variables parameters equations theta -> has_price prices variables x ->
        exists J, f x theta = Ok (OMat J) /\ is_matrix (length variables) (length variables) J /\ ~ nonsingular J (length variables).
Proof.
  intros cse EL P vs ps eqs names ND NM HE VN SQ. assert (EN : eqs <> []) by (intros ->; destruct vs; [auto|discriminate]).
  destruct (@c80_jacobian__p cse EL vs ps eqs ND NM HE EN VN) as (f & Ef & H). exists f. split; [exact Ef|].
  intros x th LX LT SM SO FR HP. destruct (H x th no_arrays LX LT) as (J & EJ & LJ & HJ). exists J. split; [exact EJ|].
  assert (Q : J = Am vs ps eqs x th).
  { apply nth_ext with (d := []) (d' := []); [unfold Am; now rewrite map_length|]. intros i Hi. rewrite LJ in Hi.
    destruct (nth_error eqs i) as [e|] eqn:Ee; [|apply nth_error_None in Ee; lia]. assert (Se : smooth (state_of names (x ++ th)) no_arrays e).
    { rewrite Forall_forall in SM. apply SM. eapply nth_error_In; eauto. }
    unfold Am. rewrite (nth_error_nth (map _ eqs) i [] (x := map (fun y => val (state_of names (x ++ th)) no_arrays (diff y e)) vs)) by (rewrite nth_error_map, Ee; reflexivity).
    assert (V0 : exists y, nth_error vs 0 = Some y) by (destruct vs; [congruence|eexists; reflexivity]). destruct V0 as (y0 & Ey0).
    destruct (HJ i 0%nat e y0 Ee Ey0) as (row & d0 & Er & Lr & _). rewrite (nth_error_nth J i [] Er).
    apply vec_ext; [now rewrite map_length|]. intros j Hj. rewrite Lr in Hj. destruct (nth_error vs j) as [y|] eqn:Ey; [|apply nth_error_None in Ey; lia].
    destruct (HJ i j e y Ee Ey) as (row' & d & Er' & _ & Ed & HD). assert (row' = row) by congruence. subst row'. specialize (HD Se).
    rewrite (nth_error_nth row j 0 Ed), (nth_error_nth (map _ vs) j 0 (x := val (state_of names (x ++ th)) no_arrays (diff y e))) by (rewrite nth_error_map, Ey; reflexivity).
    rewrite <- numval_val by now apply smooth_diff. eapply uniqueness_limite; [exact HD|]. now apply numval_deriv. }
  rewrite Q. split; [apply Am_matrix; auto|]. now apply level_singular with (P := P).
Qed.

Lemma c122_newton__p :
  forall (F : list (arr R) -> res (list R)) (J : list (arr R) -> res (list (list R)))
         (solve : list (list R) -> list R -> res (list R)) (parameters : option (list (arr R)))
         (prices variables params : list string) (equations : list sexpr) (xs : list (arr R)),
  NoDup (variables ++ params) -> length equations = length variables ->
  length (flat xs) = length variables -> length (flat_parameters parameters) = length params ->
  parameters <> Some [] -> xs <> [] -> Forall (fun a => arr_wf a) xs ->
  Forall (smooth (state_of (variables ++ params) (flat xs ++ flat_parameters parameters)) no_arrays) equations ->
  Forall (fun r => r = 0) (values_at variables params equations (flat xs) (flat_parameters parameters)) ->
  free_price_level prices variables params equations (flat_parameters parameters) -> has_price prices variables (flat xs) ->
  computes F J parameters variables params equations (map (@ashape R) xs) -> refuses_singular solve (length variables) ->
  forall step tol max_iter, exists e, newton_root F J solve xs parameters step tol (S max_iter) = Err e.
Proof.
  intros F J solve pars P vs ps eqs xs ND SQ LX LT PN XN WF SM SO FR HP CO RF step tol k.
  destruct (newton_root F J solve xs pars step tol (S k)) as [hist|e] eqn:E; [exfalso|eauto].
  unfold newton_root in E. cbn [newton_loop] in E. apply bind_ok in E as (st' & E & _).
  assert (G : good (map (@ashape R) xs) xs) by (split; [reflexivity|exact WF]).
  assert (SN : map (@ashape R) xs <> []) by (destruct xs; [congruence|discriminate]).
  destruct (@body_ok F J solve pars (map (@ashape R) xs) step tol PN SN (mkN xs false step 0) st' (length xs) G eq_refl E) as (BS & _).
  destruct BS as [C|r j s xn rn _ Hr Hj Hs]; [discriminate|]. cbn [nx] in Hr, Hj.
  destruct (CO xs eq_refl WF SM) as (_ & M & EM & DM). assert (j = M) by congruence. subst j.
  assert (MM := @derivatives_unique vs ps eqs (flat xs) (flat_parameters pars) M SM DM).
  destruct (RF M r) as (e & Ee); [rewrite MM; apply Am_matrix; auto|rewrite MM; now apply level_singular with (P := P)|congruence].
Qed.
