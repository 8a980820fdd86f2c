(** Lemmas for C123. *)
From Coq Require Import Reals Lra Classical.
From Verif Require Import Py PyStr NdArray M_SymExpr M_Calculus S_Calculus L_Calculus S_Reduce M_Lambdify S_Lambdify L_Lambdify L_Lambdify2 M_Utilities
  M_Euler M_Newton S_Euler S_Converge S_Newton S_Kantorovich L_Euler L_Euler3 L_Newton L_Converge L_Converge2
  L_Kantorovich S_Trace L_Trace L_Trace2 L_Trace3 L_Trace4 L_Trace5 S_NewtonNear L_NewtonNear L_SmallShock S_PriceLevel L_PriceLevel S_Walras.
Local Open Scope string_scope.
Local Open Scope list_scope.
Local Open Scope R_scope.

(** ** Fewer equations than unknowns *)
Definition eliminate (p : R) (r : list R) (row : list R) : list R :=
  match row with [] => [] | q :: s => vsub s (vscale (q / p) r) end.
Lemma eliminate_dot p r q s u : p <> 0 -> length s = length r -> length u = length r ->
  dot (eliminate p r (q :: s)) u = dot (q :: s) (- (dot r u / p) :: u).
Proof.
  intros Hp Ls Lu. cbn [eliminate]. rewrite dot_cons, <- dot_rows by now rewrite vscale_length.
  replace (dot (vscale (q / p) r) u) with (q / p * dot r u); [field; auto|].
  clear s Ls. revert u Lu. induction r as [|a r IH]; intros [|b u] L; try discriminate; [unfold dot; cbn; ring|]. injection L as L.
  change (vscale (q / p) (a :: r)) with (q / p * a :: vscale (q / p) r). rewrite !dot_cons, <- IH by auto. ring.
Qed.
Lemma wide_kernel : forall n (M : list (list R)), (length M < n)%nat -> (forall r, In r M -> length r = n) ->
  exists u, length u = n /\ u <> zeros n /\ forall r, In r M -> dot r u = 0.
Proof.
  induction n as [|n IH]; intros M L H; [lia|].
  destruct (classic (exists r, In r M /\ hd 0 r <> 0)) as [(r0 & I0 & N0)|NO].
  - apply in_split in I0 as I1. destruct I1 as (M1 & M2 & ->). assert (L0 := H _ I0). destruct r0 as [|p r]; [discriminate|]. cbn [hd] in N0. injection L0 as L0.
    destruct (IH (map (eliminate p r) (M1 ++ M2))) as (u & Lu & Nu & Z).
    + rewrite map_length. rewrite app_length in L |- *. cbn [length] in L. lia.
    + intros s Hs. apply in_map_iff in Hs as (t & <- & Ht). assert (Lt : length t = S n) by (apply H; apply in_app_iff in Ht as [|]; apply in_app_iff; cbn; auto).
      destruct t as [|q t]; [discriminate|]. injection Lt as Lt. cbn [eliminate]. rewrite vsub_length; [auto|]. rewrite vscale_length. congruence.
    + exists (- (dot r u / p) :: u). split; [cbn; congruence|]. split; [unfold zeros; cbn; intros E; injection E as _ E; now apply Nu|].
      assert (Q : forall s, In s (M1 ++ M2) -> dot s (- (dot r u / p) :: u) = 0).
      { intros s Hs. assert (Ls : length s = S n) by (apply H; apply in_app_iff in Hs as [|]; apply in_app_iff; cbn; auto). destruct s as [|q s]; [discriminate|].
        injection Ls as Ls. rewrite <- eliminate_dot by (auto; congruence). apply Z. now apply in_map. }
      intros s Hs. apply in_app_iff in Hs as [Hs|[<-|Hs]]; [apply Q, in_app_iff; auto| |apply Q, in_app_iff; auto].
      rewrite dot_cons. field. auto.
  - exists (1 :: zeros n). split; [cbn; now rewrite zeros_length|]. split; [unfold zeros; cbn; intros E; injection E as E; lra|].
    intros r Hr. assert (Lr := H r Hr). destruct r as [|q r]; [discriminate|]. assert (q = 0) by (apply NNPP; intros N; apply NO; exists (q :: r); auto). subst q.
    rewrite dot_cons, dot_zeros. ring.
Qed.

(** A square matrix whose rows are dependent is singular. *)
Lemma dot_split w1 : forall b w2 r1 c r2, length w1 = length r1 -> dot (w1 ++ b :: w2) (r1 ++ c :: r2) = dot w1 r1 + b * c + dot w2 r2.
Proof.
  induction w1 as [|a w1 IH]; intros b w2 [|d r1] c r2 L; try discriminate; cbn [app].
  - rewrite dot_cons. unfold dot at 2. cbn. ring.
  - rewrite !dot_cons, IH by (cbn in L; lia). ring.
Qed.
Lemma dot_all_zero w : forall v, Forall (fun r => r = 0) v -> dot w v = 0.
Proof.
  induction w as [|a w IH]; intros [|b v] F; try reflexivity. inversion F as [|? ? -> F']; subst. rewrite dot_cons, IH by auto. ring.
Qed.
Lemma dependent_rows M n w k : is_matrix n n M -> length w = n -> nth k w 0 <> 0 -> (forall u, length u = n -> dot w (mv M u) = 0) -> ~ nonsingular M n.
Proof.
  intros (LM & RM) Lw Nk H NS. assert (Hk : (k < n)%nat). { rewrite <- Lw. destruct (Nat.lt_ge_cases k (length w)); [auto|]. rewrite nth_overflow in Nk by auto. congruence. }
  assert (S1 : exists M1 r M2, M = M1 ++ r :: M2 /\ length M1 = k) by (rewrite <- LM in Hk; destruct (nth_split M [] Hk) as (a & b & E & La); eauto).
  destruct S1 as (M1 & r & M2 & -> & L1). assert (Hw : (k < length w)%nat) by congruence. destruct (nth_split w 0 Hw) as (w1 & w2 & Ew & Lw1).
  destruct (@wide_kernel n (M1 ++ M2)) as (u & Lu & Nu & Z).
  - rewrite app_length in LM |- *. cbn in LM. lia.
  - intros s Hs. apply RM. apply in_app_iff in Hs as [|]; apply in_app_iff; cbn; auto.
  - apply Nu. apply NS; [auto|apply zeros_length|]. specialize (H u Lu). unfold mv in H |- *. rewrite map_app in H. cbn [map] in H. rewrite Ew in H at 1.
    rewrite dot_split in H by (rewrite map_length; congruence).
    assert (Z1 : forall N, (forall s, In s N -> In s (M1 ++ M2)) -> Forall (fun q => q = 0) (map (fun row => dot row u) N)).
    { intros N HN. apply Forall_forall. intros q Hq. apply in_map_iff in Hq as (s & <- & Hs). auto. }
    rewrite (dot_all_zero w1), (dot_all_zero w2) in H by (apply Z1; intros s Hs; apply in_app_iff; auto).
    assert (R0 : dot r u = 0) by (apply Rmult_eq_reg_l with (nth k w 0); [lra|exact Nk]).
    apply map_ext_in. intros s Hs. rewrite dot_zeros. apply in_app_iff in Hs as [Hs|[<-|Hs]]; [apply Z, in_app_iff; auto|exact R0|apply Z, in_app_iff; auto].
Qed.

Section Walras.
Context (vs ps : list string) (eqs : list sexpr) (x th : list R) (w : list R -> list R).
Hypothesis ND : NoDup (vs ++ ps).
Hypothesis SQ : length eqs = length vs.
Hypothesis LX : length x = length vs.
Hypothesis LT : length th = length ps.
Hypothesis SM : Forall (smooth (state_of (vs ++ ps) (x ++ th)) no_arrays) eqs.
Hypothesis SO : Forall (fun r => r = 0) (values_at vs ps eqs x th).
Hypothesis WL : walras_law vs ps eqs w th.
Hypothesis CW : continuous_at w x.

Lemma small_part k q eps : 0 <= q -> 0 < eps -> k <= eps / (q + 1) -> k * q <= eps.
Proof.
  intros Hq He Hk. apply Rle_trans with (eps / (q + 1) * q); [now apply Rmult_le_compat_r|].
  apply Rmult_le_reg_r with (q + 1); [lra|]. replace (eps / (q + 1) * q * (q + 1)) with (eps * q) by (field; lra). nra.
Qed.

Lemma walras_rows u : length u = length vs -> dot (w x) (mv (Am vs ps eqs x th) u) = 0.
Proof.
  intros Lu. set (A := Am vs ps eqs x th). assert (MA : is_matrix (length vs) (length vs) A) by (apply Am_matrix; auto).
  set (y := mv A u). assert (Ly : length y = length vs) by (unfold y; rewrite mv_length; apply MA).
  set (N := INR (length vs)). assert (HN : 0 <= N) by apply pos_INR.
  set (c := abs_sum u). assert (Hc : 0 <= c) by apply abs_pos. set (a := abs_sum y). assert (Ha : 0 <= a) by apply abs_pos.
  set (W := abs_sum (w x)). assert (HW : 0 <= W) by apply abs_pos. destruct (WL x LX) as (Lw & _). rewrite SQ in Lw.
  apply NNPP. intros NZ. apply Rabs_pos_lt in NZ. apply (Rlt_not_le _ _ NZ). apply le_epsilon. intros eps He. rewrite Rplus_0_l.
  assert (Q1 : 0 <= N * (W + 1) * c) by (repeat apply Rmult_le_pos; lra). assert (Q2 : 0 <= N * a) by (apply Rmult_le_pos; lra).
  set (e1 := eps / 2 / (N * (W + 1) * c + 1)). assert (He1 : 0 < e1) by (unfold e1; apply Rdiv_lt_0_compat; lra).
  set (ew := Rmin 1 (eps / 2 / (N * a + 1))). assert (Hew : 0 < ew) by (unfold ew; apply Rmin_pos; [lra|apply Rdiv_lt_0_compat; lra]).
  assert (Hw1 : ew <= 1) by apply Rmin_l. assert (Hw2 : ew * (N * a) <= eps / 2) by (apply small_part; [auto|lra|apply Rmin_r]).
  assert (Hd1 : e1 * (N * (W + 1) * c) <= eps / 2) by (apply small_part; [auto|lra|apply Rle_refl]).
  destruct (@model_differentiable vs ps eqs ND SQ x th LX LT SM e1 He1) as (d1 & Hd & HF). destruct (CW Hew) as (d2 & Hd2 & HC).
  set (del := Rmin d1 d2). assert (Hdel : 0 < del) by (unfold del; apply Rmin_pos; auto). assert (D1 : del <= d1) by apply Rmin_l. assert (D2 : del <= d2) by apply Rmin_r.
  set (h := del / (c + 1)). assert (Hh : 0 < h) by (unfold h; apply Rdiv_lt_0_compat; lra).
  assert (Hhc : 0 <= h * c) by (apply Rmult_le_pos; lra). assert (Hm : h * c <= del) by (apply small_part; [auto|auto|apply Rle_refl]).
  assert (Lhu : length x = length (vscale h u)) by (rewrite vscale_length; congruence). set (x' := vadd x (vscale h u)).
  assert (Lx' : length x' = length vs) by (unfold x'; rewrite vadd_length; auto).
  assert (W1 : within (h * c) x' x).
  { split; [now apply vadd_length|]. intros j Hj. unfold x'. rewrite nth_vadd, nth_vscale by auto. replace (nth j x 0 + h * nth j u 0 - nth j x 0) with (h * nth j u 0) by ring.
    rewrite Rabs_mult, (Rabs_pos_eq h) by lra. apply Rmult_le_compat_l; [lra|apply entry_le]. }
  assert (W2 : within (h * c) th th) by (apply within_refl; lra).
  assert (Hm1 : 0 <= h * c <= d1) by lra. specialize (HF _ _ _ Hm1 W1 W2). unfold Fm in HF.
  assert (EV : vsub x' x = vscale h u).
  { apply vec_ext; [rewrite vsub_length; auto; congruence|]. intros j _. rewrite nth_vsub by congruence. unfold x'. rewrite nth_vadd by auto. ring. }
  rewrite (all_zeros SO), !f_length, EV, mv_vscale in HF by auto. fold A y in HF. rewrite vsub_self in HF.
  destruct (WL x' Lx') as (Lw' & Z'). rewrite SQ in Lw'. set (f := values_at vs ps eqs x' th) in *. assert (Lf : length f = length vs) by (unfold f; rewrite f_length; auto).
  assert (LB : length (mv (Bm vs ps eqs x th) (zeros (length th))) = length vs) by (rewrite mv_length; apply Bm_matrix; auto).
  assert (Lhy : length (vscale h y) = length vs) by (rewrite vscale_length; auto).
  assert (BE : vbd (e1 * (h * c)) (vsub f (vscale h y))).
  { intros i. destruct (Nat.lt_ge_cases i (length vs)) as [Hi|Hi].
    - destruct HF as (_ & HF). specialize (HF i). rewrite Lf in HF. specialize (HF Hi). rewrite nth_vsub by congruence.
      rewrite nth_vadd in HF by (rewrite zeros_length, vadd_length; congruence). rewrite nth_vadd, nth_zeros, nth_mv_zeros in HF by congruence.
      replace (nth i f 0 - (0 + (nth i (vscale h y) 0 + 0))) with (nth i f 0 - nth i (vscale h y) 0) in HF by ring. exact HF.
    - rewrite nth_overflow by (rewrite vsub_length; lia). rewrite Rabs_R0. apply Rmult_le_pos; lra. }
  assert (HCx : within ew (w x') (w x)). { apply HC. split; [congruence|]. intros j Hj. destruct W1 as (_ & W1). specialize (W1 j Hj). lra. }
  destruct HCx as (_ & HCx).
  assert (BW : vbd (W + 1) (w x')).
  { intros i. destruct (Nat.lt_ge_cases i (length (w x'))) as [Hi|Hi]; [|rewrite nth_overflow by auto; rewrite Rabs_R0; lra].
    specialize (HCx i Hi). pose proof (entry_le (w x) i) as Q. fold W in Q. pose proof (Rabs_triang (nth i (w x') 0 - nth i (w x) 0) (nth i (w x) 0)) as T.
    replace (nth i (w x') 0 - nth i (w x) 0 + nth i (w x) 0) with (nth i (w x') 0) in T by ring. lra. }
  pose proof (dot_bound BW BE) as B1. rewrite dot_vsub, Z', dot_vscale, Lw' in B1 by congruence. fold N in B1.
  replace (0 - h * dot (w x') y) with (- (h * dot (w x') y)) in B1 by ring. rewrite Rabs_Ropp, Rabs_mult, (Rabs_pos_eq h) in B1 by lra.
  assert (B2 : Rabs (dot (w x') y) <= eps / 2).
  { apply Rmult_le_reg_l with h; [auto|]. eapply Rle_trans; [exact B1|]. replace (N * ((W + 1) * (e1 * (h * c)))) with (h * (e1 * (N * (W + 1) * c))) by ring. apply Rmult_le_compat_l; lra. }
  assert (BD : vbd ew (vsub (w x') (w x))).
  { intros i. rewrite nth_vsub by congruence. destruct (Nat.lt_ge_cases i (length (w x'))) as [Hi|Hi]; [now apply HCx|]. rewrite !nth_overflow by (auto; congruence || lia). rewrite Rminus_0_r, Rabs_R0. lra. }
  assert (BY : vbd a y) by (intros i; apply entry_le).
  pose proof (dot_bound BD BY) as B3. rewrite <- dot_rows, vsub_length, Lw' in B3 by congruence. fold N in B3.
  replace (N * (ew * a)) with (ew * (N * a)) in B3 by ring.
  pose proof (Rabs_triang (dot (w x') y) (- (dot (w x') y - dot (w x) y))) as T. rewrite Rabs_Ropp in T.
  replace (dot (w x') y + - (dot (w x') y - dot (w x) y)) with (dot (w x) y) in T by ring. lra.
Qed.
Lemma walras_singular : (exists k, nth k (w x) 0 <> 0) -> ~ nonsingular (Am vs ps eqs x th) (length vs).
Proof.
  intros (k & Nk). destruct (WL x LX) as (Lw & _). apply dependent_rows with (w := w x) (k := k); auto using walras_rows; [apply Am_matrix; auto|congruence].
Qed.
End Walras.

Lemma c123_singular__p :
  forall variables parameters equations weights x theta,
    NoDup (variables ++ parameters) -> length equations = length variables -> length x = length variables -> length theta = length parameters ->
    Forall (smooth (state_of (variables ++ parameters) (x ++ theta)) no_arrays) equations ->
    Forall (fun r => r = 0) (values_at variables parameters equations x theta) ->
    walras_law variables parameters equations weights theta -> continuous_at weights x -> (exists k, nth k (weights x) 0 <> 0) ->
    (forall J, derivatives_at variables parameters equations x theta J -> ~ nonsingular J (length variables)) /\
    ~ regular_solution variables parameters equations x theta.
Proof.
  intros vs ps eqs W x th ND SQ LX LT SM SO WL CW HP. assert (N : forall J, derivatives_at vs ps eqs x th J -> ~ nonsingular J (length vs)).
  { intros J D. rewrite (@derivatives_unique vs ps eqs x th J SM D). now apply walras_singular with (w := W). }
  split; [exact N|]. intros RG. destruct (rs_regular RG) as (J & D & NS). exact (N J D NS).
Qed.

Lemma c123_numba__p :
  forall cse, eliminates cse -> forall variables parameters equations weights,
    let names := variables ++ parameters in
    NoDup names -> (forall n, In n names -> is_name n = true /\ ~ In n reserved) ->
    (forall e, In e equations -> no_reduction e /\ indexed_exprs e = [] /\ forall s, In s (atoms e) -> In s names) ->
    variables <> [] -> length equations = length variables ->
    exists f, compile_numba_jacobian_function cse (SysList equations) variables parameters = Ok f /\
      forall x theta, length x = length variables -> length theta = length parameters ->
        Forall (smooth (state_of names (x ++ theta)) no_arrays) equations ->
        Forall (fun r => r = 0) (values_at variables parameters equations x theta) ->
        walras_law variables parameters equations weights theta -> continuous_at weights x -> (exists k, nth k (weights x) 0 <> 0) ->
        exists J, f x theta = Ok (OMat J) /\ is_matrix (length variables) (length variables) J /\ ~ nonsingular J (length variables).
Proof.
  intros cse EL vs ps eqs W names ND NM HE VN SQ. assert (EN : eqs <> []) by (intros ->; destruct vs; [auto|discriminate]).
  destruct (@c80_jacobian__p cse EL vs ps eqs ND NM HE EN VN) as (f & Ef & H). exists f. split; [exact Ef|].
  intros x th LX LT SM SO WL CW HP. destruct (H x th no_arrays LX LT) as (J & EJ & LJ & HJ). exists J. split; [exact EJ|].
  assert (Q : J = Am vs ps eqs x th).
  { apply nth_ext with (d := []) (d' := []); [unfold Am; now rewrite map_length|]. intros i Hi. rewrite LJ in Hi.
    destruct (nth_error eqs i) as [e|] eqn:Ee; [|apply nth_error_None in Ee; lia]. assert (Se : smooth (state_of names (x ++ th)) no_arrays e).
    { rewrite Forall_forall in SM. apply SM. eapply nth_error_In; eauto. }
    unfold Am. rewrite (nth_error_nth (map _ eqs) i [] (x := map (fun y => val (state_of names (x ++ th)) no_arrays (diff y e)) vs)) by (rewrite nth_error_map, Ee; reflexivity).
    assert (V0 : exists y, nth_error vs 0 = Some y) by (destruct vs; [congruence|eexists; reflexivity]). destruct V0 as (y0 & Ey0).
    destruct (HJ i 0%nat e y0 Ee Ey0) as (row & d0 & Er & Lr & _). rewrite (nth_error_nth J i [] Er).
    apply vec_ext; [now rewrite map_length|]. intros j Hj. rewrite Lr in Hj. destruct (nth_error vs j) as [y|] eqn:Ey; [|apply nth_error_None in Ey; lia].
    destruct (HJ i j e y Ee Ey) as (row' & d & Er' & _ & Ed & HD). assert (row' = row) by congruence. subst row'. specialize (HD Se).
    rewrite (nth_error_nth row j 0 Ed), (nth_error_nth (map _ vs) j 0 (x := val (state_of names (x ++ th)) no_arrays (diff y e))) by (rewrite nth_error_map, Ey; reflexivity).
    rewrite <- numval_val by now apply smooth_diff. eapply uniqueness_limite; [exact HD|]. now apply numval_deriv. }
  rewrite Q. split; [apply Am_matrix; auto|]. now apply walras_singular with (w := W).
Qed.

Lemma c123_newton__p :
  forall (F : list (arr R) -> res (list R)) (J : list (arr R) -> res (list (list R)))
         (solve : list (list R) -> list R -> res (list R)) (parameters : option (list (arr R)))
         (variables params : list string) (equations : list sexpr) (weights : list R -> list R) (xs : list (arr R)),
  NoDup (variables ++ params) -> length equations = length variables ->
  length (flat xs) = length variables -> length (flat_parameters parameters) = length params ->
  parameters <> Some [] -> xs <> [] -> Forall (fun a => arr_wf a) xs ->
  Forall (smooth (state_of (variables ++ params) (flat xs ++ flat_parameters parameters)) no_arrays) equations ->
  Forall (fun r => r = 0) (values_at variables params equations (flat xs) (flat_parameters parameters)) ->
  walras_law variables params equations weights (flat_parameters parameters) -> continuous_at weights (flat xs) ->
  (exists k, nth k (weights (flat xs)) 0 <> 0) ->
  computes F J parameters variables params equations (map (@ashape R) xs) -> refuses_singular solve (length variables) ->
  forall step tol max_iter, exists e, newton_root F J solve xs parameters step tol (S max_iter) = Err e.
Proof.
  intros F J solve pars vs ps eqs W xs ND SQ LX LT PN XN WF SM SO WL CW HP CO RF step tol k.
  destruct (newton_root F J solve xs pars step tol (S k)) as [hist|e] eqn:E; [exfalso|eauto].
  unfold newton_root in E. cbn [newton_loop] in E. apply bind_ok in E as (st' & E & _).
  assert (G : good (map (@ashape R) xs) xs) by (split; [reflexivity|exact WF]).
  assert (SN : map (@ashape R) xs <> []) by (destruct xs; [congruence|discriminate]).
  destruct (@body_ok F J solve pars (map (@ashape R) xs) step tol PN SN (mkN xs false step 0) st' (length xs) G eq_refl E) as (BS & _).
  destruct BS as [C|r j s xn rn _ Hr Hj Hs]; [discriminate|]. cbn [nx] in Hr, Hj.
  destruct (CO xs eq_refl WF SM) as (_ & M & EM & DM). assert (j = M) by congruence. subst j.
  assert (MM := @derivatives_unique vs ps eqs (flat xs) (flat_parameters pars) M SM DM).
  destruct (RF M r) as (e & Ee); [rewrite MM; apply Am_matrix; auto|rewrite MM; now apply walras_singular with (w := W)|congruence].
Qed.

(** Leaving out an equation with a non-zero weight loses nothing. *)
Lemma c123_dropped__p :
  forall variables parameters before equation after weights x theta,
    length x = length variables ->
    walras_law variables parameters (before ++ equation :: after) weights theta -> nth (length before) (weights x) 0 <> 0 ->
    Forall (fun r => r = 0) (values_at variables parameters (before ++ after) x theta) ->
    Forall (fun r => r = 0) (values_at variables parameters (before ++ equation :: after) x theta).
Proof.
  intros vs ps l e l' W x th LX WL Nk SO. destruct (WL x LX) as (Lw & Z). unfold values_at in *. rewrite map_app in SO, Z |- *. cbn [map] in Z |- *.
  apply Forall_app in SO as (S1 & S2). assert (Hk : (length l < length (W x))%nat) by (rewrite Lw, app_length; cbn; lia).
  destruct (nth_split (W x) 0 Hk) as (w1 & w2 & Ew & L1). rewrite Ew in Z at 1. rewrite dot_split in Z by now rewrite map_length.
  rewrite (dot_all_zero w1), (dot_all_zero w2) in Z by auto. apply Forall_app. split; [auto|]. constructor; [|auto].
  apply Rmult_eq_reg_l with (nth (length l) (W x) 0); [lra|exact Nk].
Qed.
