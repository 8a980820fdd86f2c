(** Lemmas for C125. *)
From Coq Require Import Reals Lra Classical.
From Verif Require Import Py PyStr NdArray M_Primitives M_Utilities M_Wrappers S_Layout L_Utilities L_Layout L_Wrappers M_SymExpr M_Calculus S_Calculus L_Calculus
  M_Euler M_Newton S_Euler S_Converge S_Newton S_Kantorovich L_Euler L_Euler3 L_Newton L_Converge L_Converge2
  L_Kantorovich S_Trace L_Trace L_Trace2 L_Trace3 L_Trace4 L_Trace5 S_NewtonNear L_NewtonNear L_SmallShock L_PriceLevel L_Walras S_Backtrack.
Local Open Scope string_scope.
Local Open Scope list_scope.
Local Open Scope R_scope.

(** ** Short Newton steps reduce the residuals *)
Section Descent.
Context (vs ps : list string) (eqs : list sexpr) (x th s : list R).
Hypothesis ND : NoDup (vs ++ ps).
Hypothesis SQ : length eqs = length vs.
Hypothesis LX : length x = length vs.
Hypothesis LT : length th = length ps.
Hypothesis SM : Forall (smooth (state_of (vs ++ ps) (x ++ th)) no_arrays) eqs.
Hypothesis Ls : length s = length vs.
Hypothesis Es : mv (Am vs ps eqs x th) s = values_at vs ps eqs x th.
Notation r := (values_at vs ps eqs x th).

Lemma descent : 0 < abs_sum r -> exists S0, 0 < S0 /\ forall a, 0 < a <= S0 ->
  let x' := vsub x (vscale a s) in
  Forall (smooth (state_of (vs ++ ps) (x' ++ th)) no_arrays) eqs /\ abs_sum (values_at vs ps eqs x' th) < abs_sum r.
Proof.
  intros Hu. set (u := abs_sum r) in *. set (N := INR (length vs)). assert (HN : 0 <= N) by apply pos_INR.
  set (c := abs_sum s). assert (Hc : 0 <= c) by apply abs_pos. assert (Lr : length r = length vs) by (rewrite f_length; auto).
  assert (Q1 : 0 <= N * c) by (apply Rmult_le_pos; auto).
  set (e1 := u / 2 / (N * c + 1)). assert (He1 : 0 < e1) by (unfold e1; apply Rdiv_lt_0_compat; lra).
  assert (Hd1 : e1 * (N * c) <= u / 2) by (apply small_part; [auto|lra|apply Rle_refl]).
  destruct (@model_differentiable vs ps eqs ND SQ x th LX LT SM e1 He1) as (d1 & Hd & HF).
  destruct (@model_smooth_near vs ps eqs x th LX LT SM) as (d2 & Hd2 & HS).
  set (del := Rmin d1 d2). assert (Hdel : 0 < del) by (unfold del; apply Rmin_pos; auto). assert (D1 : del <= d1) by apply Rmin_l. assert (D2 : del <= d2) by apply Rmin_r.
  assert (Hq : 0 < del / (c + 1)) by (apply Rdiv_lt_0_compat; lra).
  exists (Rmin 1 (del / (c + 1))). split; [apply Rmin_pos; lra|]. intros a (Ha0 & Ha) x'.
  assert (A1 : a <= 1) by (eapply Rle_trans; [exact Ha|apply Rmin_l]). assert (A2 : a <= del / (c + 1)) by (eapply Rle_trans; [exact Ha|apply Rmin_r]).
  assert (Hac : 0 <= a * c) by (apply Rmult_le_pos; lra). assert (Hm : a * c <= del) by (apply small_part; auto).
  assert (Lhs : length x = length (vscale a s)) by (rewrite vscale_length; congruence).
  assert (Lx' : length x' = length vs) by (unfold x'; rewrite vsub_length; auto).
  assert (W1 : within (a * c) x' x).
  { split; [congruence|]. intros j Hj. unfold x'. rewrite nth_vsub, nth_vscale by auto. replace (nth j x 0 - a * nth j s 0 - nth j x 0) with (- (a * nth j s 0)) by ring.
    rewrite Rabs_Ropp, Rabs_mult, (Rabs_pos_eq a) by lra. apply Rmult_le_compat_l; [lra|apply entry_le]. }
  assert (W2 : forall m, 0 <= m -> within m th th) by (intros; now apply within_refl).
  split. { apply HS; [|apply W2; lra]. split; [congruence|]. intros j Hj. destruct W1 as (_ & W1). specialize (W1 j Hj). lra. }
  assert (Hm1 : 0 <= a * c <= d1) by lra. specialize (HF _ _ _ Hm1 W1 (W2 _ Hac)). unfold Fm in HF.
  assert (EV : vsub x' x = vscale (- a) s).
  { apply vec_ext; [rewrite vsub_length, vscale_length; congruence|]. intros j _. rewrite nth_vsub by congruence. unfold x'. rewrite nth_vsub, !nth_vscale by auto. ring. }
  rewrite EV, mv_vscale, Es, vsub_self in HF. set (f := values_at vs ps eqs x' th) in *. assert (Lf : length f = length vs) by (unfold f; rewrite f_length; auto).
  assert (LB : length (mv (Bm vs ps eqs x th) (zeros (length th))) = length vs) by (rewrite mv_length; apply Bm_matrix; auto).
  assert (Lar : length (vscale (- a) r) = length vs) by (rewrite vscale_length; auto).
  assert (BE : forall i, (i < length (vsub f (vscale (1 - a) r)))%nat -> Rabs (nth i (vsub f (vscale (1 - a) r)) 0) <= e1 * (a * c)).
  { intros i Hi. rewrite vsub_length in Hi by (rewrite vscale_length; congruence). destruct HF as (_ & HF). specialize (HF i Hi). rewrite nth_vsub by (rewrite vscale_length; congruence).
    rewrite nth_vadd in HF by (rewrite vadd_length; congruence). rewrite nth_vadd, nth_mv_zeros, nth_vscale in HF by congruence.
    rewrite nth_vscale. replace (nth i f 0 - (1 - a) * nth i r 0) with (nth i f 0 - (nth i r 0 + (- a * nth i r 0 + 0))) by ring. exact HF. }
  apply abs_le in BE. rewrite vsub_length, Lf in BE by (rewrite vscale_length; congruence). fold N in BE.
  pose proof (@abs_of_dist f (vscale (1 - a) r)) as T. unfold dist1 in T. rewrite abs_scale, (Rabs_pos_eq (1 - a)) in T by lra. specialize (T ltac:(rewrite vscale_length; congruence)). fold u in T.
  assert (Q3 : N * (e1 * (a * c)) <= a * (u / 2)) by (replace (N * (e1 * (a * c))) with (a * (e1 * (N * c))) by ring; apply Rmult_le_compat_l; lra). nra.
Qed.
End Descent.

(** ** The iterations until a step is accepted *)
Section Loop.
Context (F : list (arr R) -> res (list R)) (J : list (arr R) -> res (list (list R))) (solve : list (list R) -> list R -> res (list R))
  (pars : option (list (arr R))) (shapes : list (list nat)) (init tol : R) (xs : list (arr R)) (r s : list R) (M : list (list R)) (S0 : R).
Hypothesis PN : pars <> Some [].
Hypothesis SN : shapes <> [].
Hypothesis GX : good shapes xs.
Hypothesis AR : always_returns F pars shapes.
Hypothesis Fx : F (at_point pars xs) = Ok r.
Hypothesis Jx : J (at_point pars xs) = Ok M.
Hypothesis Sv : solve M r = Ok s.
Hypothesis Ls : length s = length (flat xs).
Hypothesis NC : tol <= abs_sum r.
Hypothesis DE : forall a rn, 0 < a <= S0 -> F (at_point pars (chop shapes (vsub (flat xs) (vscale a s)))) = Ok rn -> abs_sum rn < abs_sum r.
Let has_exog := match pars with None => false | Some _ => true end.
Let exog := process_root_data pars.

Lemma one_iteration a cnt : let xn := chop shapes (vsub (flat xs) (vscale a s)) in
  good shapes xn /\ exists rn cnt', F (at_point pars xn) = Ok rn /\
    scan_body F J solve has_exog init tol (length xs) (length exog) (mkN xs false a cnt) exog =
    Ok (if rlt (abs_sum rn) (abs_sum r) then mkN xn false init cnt' else mkN xs false (a * (1 / 2)) cnt').
Proof.
  intros xn. destruct (good_flat GX) as (Lf & _). assert (Lz : length (vsub (flat xs) (vscale a s)) = total shapes) by (rewrite vsub_length; [auto|rewrite vscale_length; congruence]).
  destruct (@good_chop shapes _ Lz) as (Gn & Fn). split; [exact Gn|]. destruct (AR (proj1 Gn) (proj2 Gn)) as (rn & Ern). exists rn. eexists. split; [exact Ern|].
  pose proof (@body_unfold F J solve pars shapes init tol PN SN (mkN xs false a cnt) (length xs) GX eq_refl) as E. fold has_exog exog in E. rewrite E. clear E. cbn [nx nconv nstep ncount].
  unfold newton_step. rewrite (ragged_good GX). cbn [bind]. unfold has_exog, exog. rewrite !eval_at, Fx by auto. cbn [bind]. rewrite Jx. cbn [bind]. rewrite Sv. cbn [bind].
  unfold vsub_checked. rewrite vscale_length, Ls, Nat.eqb_refl. cbn [bind]. rewrite (proj1 GX), ragged_chop0 by exact Lz. cbn [bind]. rewrite eval_at, Ern by auto. cbn [bind].
  rewrite !norm1_abs. assert (C : rlt (abs_sum r) tol = false) by (unfold rlt; destruct (Rlt_dec _ _); [lra|reflexivity]). rewrite C.
  destruct (rlt (abs_sum rn) (abs_sum r)).
  - rewrite ragged_chop0 by exact Lz. reflexivity.
  - rewrite (ragged_good GX). reflexivity.
Qed.

Lemma accepted : forall k a cnt, 0 < a -> a * (1 / 2) ^ k <= S0 -> exists j hist st rn,
  newton_loop F J solve has_exog init tol (length xs) (length exog) (S j) (mkN xs false a cnt) exog = Ok hist /\ (j <= k)%nat /\
  nth_error hist j = Some st /\ F (at_point pars (nx st)) = Ok rn /\ abs_sum rn < abs_sum r /\ nstep st = init /\ nconv st = false /\
  forall t s', (t < j)%nat -> nth_error hist t = Some s' -> nx s' = xs /\ nconv s' = false /\ nstep s' = a * (1 / 2) ^ S t.
Proof.
  induction k as [|k IH]; intros a cnt Ha Hk; destruct (one_iteration a cnt) as (Gn & rn & cnt' & Ern & EB); destruct (rlt (abs_sum rn) (abs_sum r)) eqn:Ed.
  - exists 0%nat. cbn [newton_loop]. rewrite EB. cbn [bind]. eexists. eexists. exists rn. split; [reflexivity|]. split; [lia|]. split; [reflexivity|]. apply rlt_true in Ed.
    cbn [nx nstep nconv]. do 4 (split; [auto|]). intros t s' Ht. lia.
  - exfalso. apply rlt_false in Ed. apply Ed. apply DE with a; [|exact Ern]. cbn [pow] in Hk. lra.
  - exists 0%nat. cbn [newton_loop]. rewrite EB. cbn [bind]. eexists. eexists. exists rn. split; [reflexivity|]. split; [lia|]. split; [reflexivity|]. apply rlt_true in Ed.
    cbn [nx nstep nconv]. do 4 (split; [auto|]). intros t s' Ht. lia.
  - destruct (IH (a * (1 / 2)) cnt') as (j & hist & st & rn' & E & Hj & En & Er & Hr & Hi & Hc & H); [lra|cbn [pow] in Hk; lra|].
    exists (S j). change (newton_loop F J solve has_exog init tol (length xs) (length exog) (S (S j)) (mkN xs false a cnt) exog) with
      (let* st' := scan_body F J solve has_exog init tol (length xs) (length exog) (mkN xs false a cnt) exog in
       let* rest := newton_loop F J solve has_exog init tol (length xs) (length exog) (S j) st' exog in Ok (st' :: rest)).
    rewrite EB. cbn [bind]. rewrite E. cbn [bind]. eexists. exists st, rn'. split; [reflexivity|]. split; [lia|]. split; [exact En|]. do 4 (split; [auto|]).
    intros [|t] s' Ht Hs.
    + injection Hs as <-. cbn [nx nconv nstep pow]. split; [reflexivity|]. split; [reflexivity|]. ring.
    + cbn [nth_error] in Hs. destruct (H t s' ltac:(lia) Hs) as (H1 & H2 & H3). split; [exact H1|]. split; [exact H2|]. rewrite H3. cbn [pow]. ring.
Qed.
End Loop.

Lemma c125_progress__p :
  forall (F : list (arr R) -> res (list R)) (J : list (arr R) -> res (list (list R)))
         (solve : list (list R) -> list R -> res (list R)) (parameters : option (list (arr R)))
         (variables params : list string) (equations : list sexpr) (xs : list (arr R)) (step tol u : R),
  NoDup (variables ++ params) -> length equations = length variables ->
  length (flat xs) = length variables -> length (flat_parameters parameters) = length params ->
  parameters <> Some [] -> xs <> [] -> Forall (fun a => arr_wf a) xs ->
  Forall (smooth (state_of (variables ++ params) (flat xs ++ flat_parameters parameters)) no_arrays) equations ->
  (exists M, derivatives_at variables params equations (flat xs) (flat_parameters parameters) M /\ nonsingular M (length variables)) ->
  computes F J parameters variables params equations (map (@ashape R) xs) -> always_returns F parameters (map (@ashape R) xs) ->
  right_solver_res solve (length variables) -> 0 < step -> residual_norm F parameters xs u -> 0 < u -> tol <= u ->
  exists j hist st v, newton_root F J solve xs parameters step tol (S j) = Ok hist /\ nth_error hist j = Some st /\
    residual_norm F parameters (nx st) v /\ v < u /\ nstep st = step /\
    forall t s, (t < j)%nat -> nth_error hist t = Some s -> nx s = xs /\ nconv s = false /\ nstep s = step * (1 / 2) ^ S t.
Proof.
  intros F J solve pars vs ps eqs xs step tol u ND SQ LX LT PN XN WF SM (M & DM & NM) CO AR RS Hs (r0 & Er0 & Eu) Hu Ht.
  set (shapes := map (@ashape R) xs) in *. assert (GX : good shapes xs) by (split; [reflexivity|exact WF]). assert (SN : shapes <> []) by (unfold shapes; destruct xs; [congruence|discriminate]).
  set (x := flat xs) in *. set (th := flat_parameters pars) in *. destruct (CO xs eq_refl WF SM) as (Fx & M' & Jx & DM').
  assert (E1 := @derivatives_unique vs ps eqs x th M SM DM). assert (E2 := @derivatives_unique vs ps eqs x th M' SM DM'). rewrite E2, <- E1 in Jx. clear E2 DM'.
  assert (MM : is_matrix (length vs) (length vs) M) by (rewrite E1; apply Am_matrix; auto).
  set (r := values_at vs ps eqs x th) in *. assert (Lr : length r = length vs) by (unfold r; rewrite f_length; auto). fold x th r in Fx. assert (r0 = r) by congruence. subst r0.
  assert (Eu' : u = abs_sum r) by exact Eu. destruct (RS M r MM NM Lr) as (s & Es & Ls & Ms). rewrite E1 in Ms.
  destruct (@descent vs ps eqs x th s ND SQ LX LT SM Ls Ms) as (S0 & HS0 & DE); [fold r; lra|].
  assert (DE' : forall a rn, 0 < a <= S0 -> F (at_point pars (chop shapes (vsub (flat xs) (vscale a s)))) = Ok rn -> abs_sum rn < abs_sum r).
  { intros a rn Ha Ern. destruct (DE a Ha) as (SA & LA). destruct (good_flat GX) as (Lf & _).
    assert (Lz : length (vsub (flat xs) (vscale a s)) = total shapes) by (rewrite vsub_length; [auto|rewrite vscale_length; fold x; congruence]).
    destruct (@good_chop shapes _ Lz) as (Gn & Fn). destruct (CO _ (proj1 Gn) (proj2 Gn)) as (Fn' & _); [rewrite Fn; exact SA|]. rewrite Fn in Fn'. fold th x in Fn'. fold x in Ern. rewrite Ern in Fn'. injection Fn' as ->. exact LA. }
  assert (EK : exists k, step * (1 / 2) ^ k <= S0).
  { destruct (pow_lt_1_zero (1 / 2)) with (y := S0 / step) as (k & Hk); [rewrite Rabs_pos_eq; lra|apply Rdiv_lt_0_compat; lra|]. exists k. specialize (Hk k (Nat.le_refl k)).
    rewrite Rabs_pos_eq in Hk by (apply pow_le; lra). apply Rmult_lt_compat_l with (r := step) in Hk; [|lra]. replace (step * (S0 / step)) with S0 in Hk by (field; lra). lra. }
  destruct EK as (k & Hk). assert (Lsx : length s = length (flat xs)) by (fold x; congruence). assert (NC : tol <= abs_sum r) by lra.
  destruct (@accepted F J solve pars shapes step tol xs r s M S0 PN SN GX AR Fx Jx Es Lsx NC DE' k step 0%nat Hs Hk) as (j & hist & st & rn & E & _ & En & Er & Hr & Hi & _ & H).
  exists j, hist, st, (abs_sum rn). split; [exact E|]. split; [exact En|]. split; [exists rn; split; [exact Er|reflexivity]|]. split; [lra|]. split; [exact Hi|exact H].
Qed.
