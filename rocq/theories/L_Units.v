(** Lemmas for C127. *)
From Coq Require Import Reals Lra.
From Verif Require Import Py PyStr NdArray M_Primitives M_Utilities M_Wrappers S_Layout L_Utilities L_Layout L_Wrappers M_SymExpr
  M_Euler M_Newton S_Euler S_Converge S_Newton S_Kantorovich L_Euler L_Euler3 L_Newton L_Converge L_Converge2
  L_Kantorovich S_Trace L_Trace L_Trace2 S_NewtonNear S_Units.
Local Open Scope string_scope.
Local Open Scope list_scope.
Local Open Scope R_scope.

Definition times (d v : list R) : list R := vmap2 Rmult d v.
Lemma times_length d v : length d = length v -> length (times d v) = length v.
Proof. intros E. unfold times, vmap2. rewrite map_length, combine_length. lia. Qed.
Lemma nth_times d v k : length d = length v -> nth k (times d v) 0 = nth k d 0 * nth k v 0.
Proof.
  revert v k. induction d as [|a d IH]; intros [|b v] [|k] E; try discriminate; cbn; try ring. apply IH. now injection E.
Qed.
Lemma dot_units c : forall row row' d s, length row = length s -> length row' = length s -> length d = length s ->
  (forall j, nth j row' 0 * nth j d 0 = c * nth j row 0) -> dot row' (times d s) = c * dot row s.
Proof.
  induction row as [|a row IH]; intros [|a' row'] [|b d] [|q s] L1 L2 L3 H; try discriminate; unfold dot, times, vmap2 in *; cbn in *; [ring|].
  rewrite (IH row' d s); try lia; [|intros j; exact (H (S j))]. specialize (H 0%nat). cbn in H. rewrite <- Rmult_assoc, H. ring.
Qed.
Lemma mv_units M M' n d s c : is_matrix n n M -> is_matrix n n M' -> length d = n -> length s = n ->
  (forall i j, nth j (nth i M' []) 0 * nth j d 0 = c * nth j (nth i M []) 0) -> mv M' (times d s) = vscale c (mv M s).
Proof.
  intros HM HM' Ld Ls H. apply vec_ext; [rewrite vscale_length, !mv_length; destruct HM, HM'; congruence|]. intros i Hi. rewrite mv_length in Hi.
  destruct HM' as (E' & R'), HM as (E & R0). rewrite nth_vscale, !nth_mv. assert (L1 : length (nth i M []) = n) by (apply R0, nth_In; lia). assert (L2 : length (nth i M' []) = n) by (apply R', nth_In; lia).
  apply dot_units; auto; congruence.
Qed.

Section Units.
Context (F F' : list (arr R) -> res (list R)) (J J' : list (arr R) -> res (list (list R))) (solve solve' : list (list R) -> list R -> res (list R))
  (pars pars' : option (list (arr R))) (shapes : list (list nat)) (d : list R) (c init tol : R).
Hypothesis PN : pars <> Some [].
Hypothesis PN' : pars' <> Some [].
Hypothesis SN : shapes <> [].
Hypothesis LD : length d = total shapes.
Hypothesis ND : Forall (fun u => u <> 0) d.
Hypothesis C0 : c <> 0.
Hypothesis HF : rescaled_residuals F F' pars pars' shapes d c.
Hypothesis HJ : rescaled_derivatives J J' pars pars' shapes d c (total shapes).
Hypothesis HS : right_solver_res solve (total shapes).
Hypothesis HS' : right_solver_res solve' (total shapes).
Let has_exog := match pars with None => false | Some _ => true end.
Let exog := process_root_data pars.
Let has_exog' := match pars' with None => false | Some _ => true end.
Let exog' := process_root_data pars'.

Lemma d_nonzero k : (k < total shapes)%nat -> nth k d 0 <> 0.
Proof. intros H. rewrite Forall_forall in ND. apply ND, nth_In. lia. Qed.

Definition over (v : list R) : list R := vmap2 (fun a b => a / b) v d.
Lemma over_ok v : length v = total shapes -> length (over v) = total shapes /\ times d (over v) = v.
Proof.
  intros L. assert (LO : length (over v) = total shapes) by (unfold over, vmap2; rewrite map_length, combine_length; lia). split; [exact LO|].
  apply vec_ext; [rewrite times_length; lia|]. rewrite times_length by lia. intros k Hk. rewrite nth_times by lia.
  assert (E : forall v e j, length v = length e -> (j < length v)%nat -> nth j (vmap2 (fun a b => a / b) v e) 0 = nth j v 0 / nth j e 0).
  { clear. induction v as [|a v IH]; intros [|b e] [|j] E L; try discriminate; cbn in *; try lia; [reflexivity|]. apply IH; [now injection E|lia]. }
  unfold over. rewrite E by lia. pose proof (@d_nonzero k ltac:(lia)). field. assumption.
Qed.

Lemma regular_units M M' : is_matrix (total shapes) (total shapes) M -> is_matrix (total shapes) (total shapes) M' -> nonsingular M (total shapes) ->
  (forall i j, nth j (nth i M' []) 0 * nth j d 0 = c * nth j (nth i M []) 0) -> nonsingular M' (total shapes).
Proof.
  intros HM HM' NM H u v Lu Lv E. destruct (over_ok u Lu) as (L1 & E1), (over_ok v Lv) as (L2 & E2). rewrite <- E1, <- E2 in E |- *.
  rewrite !(@mv_units M M' (total shapes) d _ c) in E by auto. f_equal. apply NM; auto. apply vec_ext; [now rewrite !mv_length|]. intros i _.
  apply (f_equal (fun l => nth i l 0)) in E. rewrite !nth_vscale in E. now apply Rmult_eq_reg_l in E.
Qed.

Lemma units_good x y : good shapes x -> in_units d x y -> good shapes y /\ flat y = times d (flat x).
Proof.
  intros G [E W V]. assert (Gy : good shapes y) by (split; [rewrite E; exact (proj1 G)|exact W]). split; [exact Gy|]. destruct (good_flat G) as (L & _), (good_flat Gy) as (Ly & _).
  apply vec_ext; [rewrite times_length; lia|]. intros k _. rewrite nth_times by lia. apply V.
Qed.
Lemma units_flat x y : good shapes x -> good shapes y -> flat y = times d (flat x) -> in_units d x y.
Proof.
  intros G Gy E. destruct (good_flat G) as (L & _). split; [rewrite (proj1 G), (proj1 Gy); reflexivity|exact (proj2 Gy)|]. intros k. rewrite E, nth_times by lia. reflexivity.
Qed.

Lemma same_decision r r' q q' : length r' = length r -> (forall i, nth i r' 0 = c * nth i r 0) -> length q' = length q -> (forall i, nth i q' 0 = c * nth i q 0) ->
  rlt (norm1 r') (norm1 q') = rlt (norm1 r) (norm1 q) /\ rlt (norm1 r') (Rabs c * tol) = rlt (norm1 r) tol.
Proof.
  intros L1 E1 L2 E2. assert (Q : forall u u', length u' = length u -> (forall i, nth i u' 0 = c * nth i u 0) -> norm1 u' = Rabs c * norm1 u).
  { intros u u' L E. rewrite !norm1_abs, <- abs_scale. f_equal. apply vec_ext; [now rewrite vscale_length|]. intros i _. now rewrite nth_vscale. }
  rewrite (Q r r'), (Q q q') by auto. assert (0 < Rabs c) by now apply Rabs_pos_lt.
  assert (K : forall a b, rlt (Rabs c * a) (Rabs c * b) = rlt a b).
  { intros a b. unfold rlt. destruct (Rlt_dec a b) as [A|A], (Rlt_dec (Rabs c * a) (Rabs c * b)) as [B|B]; auto; exfalso; [apply B|apply A]; nra. }
  now rewrite !K.
Qed.

Lemma body_units st st1 st2 n : good shapes (nx st) -> length (nx st) = n -> same_state d st st1 ->
  (forall M, J (at_point pars (nx st)) = Ok M -> is_matrix (total shapes) (total shapes) M /\ nonsingular M (total shapes)) ->
  (forall r, F (at_point pars (nx st)) = Ok r -> length r = total shapes) ->
  scan_body F J solve has_exog init tol n (length exog) st exog = Ok st2 ->
  good shapes (nx st2) /\ exists st3, scan_body F' J' solve' has_exog' init (Rabs c * tol) n (length exog') st1 exog' = Ok st3 /\ same_state d st2 st3.
Proof.
  intros G Hn (U & Cv & Sp & Ct) RG LF H. destruct (units_good G U) as (G1 & F1).
  assert (Hn1 : length (nx st1) = n) by (rewrite <- Hn, <- (map_length (@ashape R) (nx st1)), <- (map_length (@ashape R) (nx st)), (proj1 G), (proj1 G1); reflexivity).
  pose proof (@body_unfold F J solve pars shapes init tol PN SN st n G Hn) as E. fold has_exog exog in E. rewrite E in H. clear E.
  pose proof (@body_unfold F' J' solve' pars' shapes init (Rabs c * tol) PN' SN st1 n G1 Hn1) as E. fold has_exog' exog' in E. rewrite E. clear E. rewrite Cv, Sp, Ct.
  destruct (nconv st) eqn:Ec.
  - cbn [bind] in *. rewrite !rlt_irrefl in *. rewrite (ragged_good G) in H. rewrite (ragged_good G1). cbn [bind] in *. injection H as <-. split; [exact G|].
    eexists. split; [reflexivity|]. split; [exact U|]. repeat split.
  - apply bind_ok in H as ((((fx & fnx) & r) & rn) & H1 & H). unfold newton_step in H1.
    rewrite (ragged_good G) in H1. cbn [bind] in H1. unfold has_exog, exog in H1. rewrite !eval_at in H1 by auto.
    apply bind_ok in H1 as (r0 & Hr & H1). apply bind_ok in H1 as (M & Hj & H1). apply bind_ok in H1 as (s & Hsv & H1).
    apply bind_ok in H1 as (fn & Hf & H1). apply bind_ok in H1 as (xn & Hx & H1). rewrite eval_at in H1 by auto.
    apply bind_ok in H1 as (rn0 & Hrn & H1). injection H1 as <- <- <- <-.
    unfold vsub_checked in Hf. destruct (Nat.eqb _ _) eqn:El in Hf; [|discriminate]. apply Nat.eqb_eq in El. rewrite vscale_length in El. injection Hf as <-.
    destruct (good_flat G) as (Lf & _). assert (Ln : length (vsub (flat (nx st)) (vscale (nstep st) s)) = total shapes) by (rewrite vsub_length; [exact Lf|]; rewrite vscale_length; congruence).
    destruct (@good_chop shapes _ Ln) as (Gn & Fn). rewrite (proj1 G) in Hx. rewrite ragged_chop0 in Hx by exact Ln. injection Hx as <-.
    destruct (RG M Hj) as (HM & NM). specialize (LF r0 Hr). destruct (@HS M r0 HM NM LF) as (s0 & Es0 & Ls0 & Ms0). rewrite Hsv in Es0. injection Es0 as <-.
    destruct (@HF (nx st) (nx st1) r0 (proj1 G) (proj2 G) U Hr) as (r1 & Hr1 & Lr1 & Er1). destruct (@HJ (nx st) (nx st1) M (proj1 G) (proj2 G) U HM Hj) as (M1 & Hj1 & HM1 & EM1).
    assert (NM1 := regular_units HM HM1 NM EM1). destruct (@HS' M1 r1 HM1 NM1 ltac:(congruence)) as (s1 & Es1 & Ls1 & Ms1).
    assert (Es : s1 = times d s).
    { apply NM1; [exact Ls1|rewrite times_length; congruence|]. rewrite Ms1, (@mv_units M M1 (total shapes) d s c) by auto. rewrite Ms0. apply vec_ext; [now rewrite vscale_length|]. intros i _. now rewrite nth_vscale. }
    set (z := vsub (flat (nx st)) (vscale (nstep st) s)) in *.
    assert (Ez : vsub (flat (nx st1)) (vscale (nstep st) s1) = times d z).
    { rewrite F1, Es. assert (LL : length d = length s) by congruence. assert (LS : length (flat (nx st)) = length (vscale (nstep st) s)) by (rewrite vscale_length; congruence).
      apply vec_ext; [rewrite vsub_length, !times_length; try lia; rewrite vscale_length, !times_length; lia|]. intros k _.
      rewrite nth_vsub by (rewrite vscale_length, !times_length; lia). rewrite nth_vscale, !nth_times by lia. unfold z. rewrite nth_vsub, nth_vscale by auto. ring. }
    assert (Lz1 : length (times d z) = total shapes) by (rewrite times_length; lia). destruct (@good_chop shapes _ Lz1) as (Gz & Fz).
    assert (Uz : in_units d (chop shapes z) (chop shapes (times d z))) by (apply units_flat; auto; rewrite Fz, Fn; reflexivity).
    destruct (@HF _ _ rn0 (proj1 Gn) (proj2 Gn) Uz Hrn) as (rn1 & Hrn1 & Lrn1 & Ern1).
    assert (EN : newton_step F' J' solve' has_exog' (flat (nx st1)) exog' (nstep st) shapes = Ok (flat (nx st1), times d z, r1, rn1)).
    { unfold newton_step. rewrite (ragged_good G1). cbn [bind]. unfold has_exog', exog'. rewrite !eval_at by auto. rewrite Hr1. cbn [bind]. rewrite Hj1. cbn [bind]. rewrite Es1. cbn [bind].
      destruct (good_flat G1) as (Lf1 & _). unfold vsub_checked. rewrite vscale_length, Lf1, Ls1, Nat.eqb_refl. cbn [bind]. rewrite Ez, (proj1 G1), ragged_chop0 by exact Lz1. cbn [bind].
      rewrite eval_at, Hrn1 by auto. reflexivity. }
    rewrite EN. cbn [bind]. destruct (@same_decision rn0 rn1 r0 r1 Lrn1 Ern1 Lr1 Er1) as (D1 & _). destruct (@same_decision r0 r1 r0 r1 Lr1 Er1 Lr1 Er1) as (_ & D2). rewrite D1, D2.
    destruct (rlt (norm1 rn0) (norm1 r0)).
    + rewrite ragged_chop0 in H by exact Ln. rewrite ragged_chop0 by exact Lz1. cbn [bind] in *. injection H as <-. split; [exact Gn|]. eexists. split; [reflexivity|]. split; [exact Uz|]. repeat split.
    + rewrite (ragged_good G) in H. rewrite (ragged_good G1). cbn [bind] in *. injection H as <-. split; [exact G|]. eexists. split; [reflexivity|]. split; [exact U|]. repeat split.
Qed.

Lemma loop_units n : forall k st st1 hist, good shapes (nx st) -> length (nx st) = n -> same_state d st st1 ->
  (forall s M, In s (st :: hist) -> J (at_point pars (nx s)) = Ok M -> is_matrix (total shapes) (total shapes) M /\ nonsingular M (total shapes)) ->
  (forall s r, In s (st :: hist) -> F (at_point pars (nx s)) = Ok r -> length r = total shapes) ->
  newton_loop F J solve has_exog init tol n (length exog) k st exog = Ok hist ->
  exists hist', newton_loop F' J' solve' has_exog' init (Rabs c * tol) n (length exog') k st1 exog' = Ok hist' /\ Forall2 (same_state d) hist hist'.
Proof.
  induction k as [|k IH]; intros st st1 hist G Hn SS RG LF E; cbn [newton_loop] in *; [injection E as <-; eauto|].
  apply bind_ok in E as (st2 & E1 & E). apply bind_ok in E as (rest & E2 & E). injection E as <-.
  destruct (@body_units st st1 st2 n G Hn SS) as (G2 & st3 & E3 & S3); auto; [intros M; apply RG; now left|intros r; apply LF; now left|].
  assert (Hn2 : length (nx st2) = n) by (rewrite <- Hn, <- (map_length (@ashape R) (nx st2)), <- (map_length (@ashape R) (nx st)), (proj1 G), (proj1 G2); reflexivity).
  destruct (IH st2 st3 rest G2 Hn2 S3) as (rest' & E4 & S4); auto; [intros s M Hs; apply RG; now right|intros s r Hs; apply LF; now right|].
  exists (st3 :: rest'). rewrite E3. cbn [bind]. rewrite E4. cbn [bind]. split; [reflexivity|]. now constructor.
Qed.
End Units.

Lemma c127_newton__p :
  forall (F F' : list (arr R) -> res (list R)) (J J' : list (arr R) -> res (list (list R))) (solve solve' : list (list R) -> list R -> res (list R))
         (parameters parameters' : option (list (arr R))) (xs ys : list (arr R)) (d : list R) (c step tol : R) (k n : nat) (hist : list nstate),
  parameters <> Some [] -> parameters' <> Some [] -> xs <> [] -> Forall (fun a => arr_wf a) xs -> length (flat xs) = n ->
  length d = n -> Forall (fun u => u <> 0) d -> c <> 0 -> in_units d xs ys ->
  rescaled_residuals F F' parameters parameters' (map (@ashape R) xs) d c ->
  rescaled_derivatives J J' parameters parameters' (map (@ashape R) xs) d c n ->
  right_solver_res solve n -> right_solver_res solve' n ->
  newton_root F J solve xs parameters step tol k = Ok hist ->
  (forall s, In s (mkN xs false step 0 :: hist) ->
     (forall r, F (at_point parameters (nx s)) = Ok r -> length r = n) /\
     (forall M, J (at_point parameters (nx s)) = Ok M -> is_matrix n n M /\ nonsingular M n)) ->
  exists hist', newton_root F' J' solve' ys parameters' step (Rabs c * tol) k = Ok hist' /\ Forall2 (same_state d) hist hist'.
Proof.
  intros F F' J J' solve solve' pars pars' xs ys d c step tol k n hist PN PN' XN WF Ln Ld ND C0 U HF HJ HS HS' E RG.
  assert (SN : map (@ashape R) xs <> []) by (destruct xs; [congruence|discriminate]). assert (G : good (map (@ashape R) xs) xs) by (split; [reflexivity|exact WF]).
  destruct (good_flat G) as (Lf & _). assert (T : n = total (map (@ashape R) xs)) by congruence. rewrite T in *. clear n T.
  assert (Ly : length ys = length xs) by (rewrite <- (map_length (@ashape R) ys), <- (map_length (@ashape R) xs); f_equal; exact (iu_shapes U)).
  unfold newton_root in *. rewrite Ly.
  refine (@loop_units F F' J J' solve solve' pars pars' (map (@ashape R) xs) d c step tol PN PN' SN Ld ND C0 HF HJ HS HS' (length xs) k (mkN xs false step 0) (mkN ys false step 0) hist G eq_refl _ _ _ E).
  - repeat split; try exact U; apply U.
  - intros s M Hs. apply RG, Hs.
  - intros s r Hs. apply RG, Hs.
Qed.
