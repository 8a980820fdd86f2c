(** Lemmas for C119: the Newton solver near a regular solution of written
    equations. *)
From Coq Require Import Reals Lra FunctionalExtensionality.
From Verif Require Import Py PyStr NdArray M_SymExpr M_Calculus S_Calculus L_Calculus S_Reduce M_Euler M_Newton S_Euler S_Converge S_Newton S_Kantorovich
  L_Euler L_Euler3 L_Newton L_Converge L_Converge2 L_Kantorovich S_Trace L_Trace L_Trace2 L_Trace3 L_Trace4 S_NewtonNear.
Local Open Scope list_scope.
Local Open Scope R_scope.

(** *** Second order *)
Lemma second_order p names (ND : NoDup names) e v0 : smooth v0 p e -> exists r K, 0 < r /\ 0 <= K /\
  forall v w m, close r v v0 -> close r w v0 -> close m v w -> (forall s, ~ In s names -> v s = w s) ->
    Rabs (val v p e - val w p e - gsum p names w (fun s => v s - w s) e) <= K * m ^ 2.
Proof.
  intros S. destruct (smooth_open p e v0 S) as (r1 & Hr1 & Op).
  destruct (@common_loclip string (fun x v => val v p (diff x e)) v0 names) as (r2 & K & Hr2 & HK & E).
  { intros x _. apply loclip_val, smooth_diff, S. }
  exists (Rmin r1 r2), (INR (length names) * K). split; [now apply Rmin_pos|]. split; [apply Rmult_le_pos; auto using pos_INR|].
  intros v w m Cv Cw C O. pose proof (close_pos C) as Hm0. set (h := fun s => v s - w s).
  assert (Oh : forall s, ~ In s names -> h s = 0) by (intros s Hs; unfold h; rewrite (O s Hs); ring).
  assert (Cl : forall t, 0 <= t <= 1 -> close (Rmin r1 r2) (lineS w h t) v0 /\ close m (lineS w h t) w).
  { intros t Ht. split; intros s; unfold lineS, h.
    - replace (w s + t * (v s - w s) - v0 s) with (t * (v s - v0 s) + (1 - t) * (w s - v0 s)) by ring.
      eapply Rle_trans; [apply Rabs_triang|]. rewrite !Rabs_mult, (Rabs_pos_eq t), (Rabs_pos_eq (1 - t)) by lra. specialize (Cv s). specialize (Cw s). nra.
    - replace (w s + t * (v s - w s) - w s) with (t * (v s - w s)) by ring. rewrite Rabs_mult, (Rabs_pos_eq t) by lra.
      specialize (C s). pose proof (Rabs_pos (v s - w s)). nra. }
  assert (V1 : lineS w h 1 = v) by (apply functional_extensionality; intros s; unfold lineS, h; ring).
  assert (V0 : lineS w h 0 = w) by (apply functional_extensionality; intros s; unfold lineS, h; ring).
  destruct (MVT_cor2 (fun t => val (lineS w h t) p e) (fun t => gsum p names (lineS w h t) h e) 0 1) as (c & Ec & Hc); [lra| |].
  { intros t Ht. apply deriv_line; auto. apply Op. eapply close_mono; [apply Cl; lra|apply Rmin_l]. }
  rewrite V1, V0 in Ec. rewrite Ec, Rminus_0_r, Rmult_1_r. unfold gsum. change (fun s => v s - w s) with h.
  destruct (Cl c ltac:(lra)) as (C1 & C2).
  assert (Q : forall x, In x names -> Rabs (val (lineS w h c) p (diff x e) - val w p (diff x e)) <= K * m).
  { intros x Hx. apply (E x); auto; eapply close_mono; eauto using Rmin_r. }
  assert (Bd : forall l, incl l names -> Rabs (rsum (map (fun x => val (lineS w h c) p (diff x e) * h x) l) - rsum (map (fun x => val w p (diff x e) * h x) l)) <= INR (length l) * (K * m * m)).
  { induction l as [|x l IH]; intros I; cbn [map rsum length]; [rewrite Rminus_diag_eq, Rabs_R0 by reflexivity; cbn; lra|].
    rewrite S_INR. match goal with |- Rabs (?a * ?b + ?c - (?d * ?b + ?e)) <= _ => replace (a * b + c - (d * b + e)) with ((c - e) + (a - d) * b) by ring end.
    eapply Rle_trans; [apply Rabs_triang|]. rewrite Rmult_plus_distr_r, Rmult_1_l. apply Rplus_le_compat.
    - apply IH. intros y Hy. apply I. now right.
    - rewrite Rabs_mult. apply Rmult_le_compat; try apply Rabs_pos; [apply Q, I; now left|]. apply C. }
  eapply Rle_trans; [apply Bd, incl_refl|]. right. ring.
Qed.

(** *** The two ways of measuring *)
Lemma dist_within u v : length u = length v -> within (dist1 u v) u v.
Proof.
  intros E. split; auto. intros i _. rewrite <- nth_vsub by auto. apply entry_le.
Qed.
Lemma within_more m m' u v : within m u v -> m <= m' -> within m' u v.
Proof. intros (E & H) L. split; auto. intros i Hi. specialize (H i Hi). lra. Qed.
Lemma within_dist m u v : within m u v -> dist1 u v <= INR (length u) * m.
Proof.
  intros (E & H). unfold dist1. replace (length u) with (length (vsub u v)) by now apply vsub_length.
  apply abs_le. intros i Hi. rewrite vsub_length in Hi by auto. rewrite nth_vsub by auto. now apply H.
Qed.
Lemma vbd_abs k u n : vbd k u -> length u = n -> abs_sum u <= INR n * k.
Proof. intros H <-. apply abs_le. intros i _. apply H. Qed.
Lemma abs_vbd u : vbd (abs_sum u) u.
Proof. intros i. apply entry_le. Qed.

Section Near.
Context (vs ps : list string) (eqs : list sexpr) (th xs : list R) (solve : list (list R) -> list R -> res (list R)).
Hypothesis ND : NoDup (vs ++ ps).
Hypothesis SQ : length eqs = length vs.
Hypothesis LT : length th = length ps.
Hypothesis LX : length xs = length vs.
Hypothesis RS : regular_solution vs ps eqs xs th.
Hypothesis HS : right_solver_res solve (length vs).
Notation n := (length vs).
Notation np := (length ps).
Notation st x t := (state_of (vs ++ ps) (x ++ t)).
Notation f x t := (values_at vs ps eqs x t).
Notation A x t := (Am vs ps eqs x t).

Lemma f_length x t : length (f x t) = n.
Proof. unfold values_at. now rewrite map_length. Qed.

(** Everything needed of the equations near the solution *)
Lemma near_point : exists r beta K L, 0 < r /\ 1 <= beta /\ 1 <= K /\ 0 <= L /\
  forall x t, length x = n -> length t = np -> dist1 x xs <= r -> dist1 t th <= r ->
    Forall (smooth (st x t) no_arrays) eqs /\ nonsingular (A x t) n /\
    (forall u, length u = n -> abs_sum u <= beta * abs_sum (mv (A x t) u)) /\
    (forall y t', length y = n -> length t' = np -> dist1 y xs <= r -> dist1 t' th <= r -> dist1 (f y t') (f x t) <= L * (dist1 y x + dist1 t' t)) /\
    (forall y, length y = n -> dist1 y xs <= r -> dist1 (f y t) (vadd (f x t) (mv (A x t) (vsub y x))) <= K * dist1 y x ^ 2).
Proof.
  destruct RS as [Z S (J & HJ & NJ)]. rewrite (derivatives_unique S HJ) in NJ. clear J HJ Z.
  destruct (model_smooth_near vs ps xs th LX LT S) as (r1 & Hr1 & Op).
  destruct (model_lip vs ps xs th LX LT S) as (r2 & K2 & Hr2 & HK2 & ML).
  set (solve' := fun M b => match solve M b with Ok s => s | Err _ => [] end).
  destruct (@inverse_bound solve' (A xs th) n) as (C & HC & IB); auto using Am_matrix.
  { intros b Hb. destruct (@HS _ b (Am_matrix vs ps eqs SQ xs th) NJ Hb) as (s & E1 & E2 & E3). unfold solve'. now rewrite E1. }
  pose proof S as S'. rewrite Forall_forall in S'.
  destruct (@common_loclip sexpr (fun e v => val v no_arrays e) (st xs th) eqs) as (r3 & K3 & Hr3 & HK3 & VL).
  { intros e He. apply loclip_val. auto. }
  assert (SO : exists r K, 0 < r /\ 0 <= K /\ forall e v w m, In e eqs -> close r v (st xs th) -> close r w (st xs th) -> close m v w -> (forall s, ~ In s (vs ++ ps) -> v s = w s) ->
    Rabs (val v no_arrays e - val w no_arrays e - gsum no_arrays (vs ++ ps) w (fun s => v s - w s) e) <= K * m ^ 2).
  { clear - S' ND. induction eqs as [|e l IH]; [exists 1, 0; split; [lra|]; split; [lra|]; intros ? ? ? ? []|].
    destruct IH as (r & K & Hr & HK & H); [intros; apply S'; now right|].
    destruct (@second_order no_arrays (vs ++ ps) ND e (st xs th) (S' e (or_introl eq_refl))) as (r' & K' & Hr' & HK' & H').
    exists (Rmin r r'), (K + K'). split; [now apply Rmin_pos|]. split; [lra|]. intros e' v w m He Cv Cw C O.
    assert (0 <= m ^ 2) by apply pow2_ge_0. assert (0 <= K * m ^ 2) by (apply Rmult_le_pos; auto). assert (0 <= K' * m ^ 2) by (apply Rmult_le_pos; auto).
    rewrite Rmult_plus_distr_r. destruct He as [<-|He].
    - enough (Rabs (val v no_arrays e - val w no_arrays e - gsum no_arrays (vs ++ ps) w (fun s => v s - w s) e) <= K' * m ^ 2) by lra.
      apply H'; auto; eapply close_mono; eauto using Rmin_r.
    - enough (Rabs (val v no_arrays e' - val w no_arrays e' - gsum no_arrays (vs ++ ps) w (fun s => v s - w s) e') <= K * m ^ 2) by lra.
      apply H; auto; eapply close_mono; eauto using Rmin_l. }
  destruct SO as (r4 & K4 & Hr4 & HK4 & SO).
  pose proof (pos_INR n) as Pn.
  set (q := 2 * (C + 1) * (INR n + 1) * (K2 + 1)).
  assert (Q0 : 0 < q) by (unfold q; repeat apply Rmult_lt_0_compat; lra).
  set (r := Rmin (Rmin (Rmin r1 r2) (Rmin r3 r4)) (/ q)).
  assert (Hr : 0 < r) by (unfold r; repeat apply Rmin_pos; auto; now apply Rinv_0_lt_compat).
  assert (R1 : r <= r1) by (unfold r; eapply Rle_trans; [apply Rmin_l|]; eapply Rle_trans; apply Rmin_l).
  assert (R2 : r <= r2) by (unfold r; eapply Rle_trans; [apply Rmin_l|]; eapply Rle_trans; [apply Rmin_l|apply Rmin_r]).
  assert (R3 : r <= r3) by (unfold r; eapply Rle_trans; [apply Rmin_l|]; eapply Rle_trans; [apply Rmin_r|apply Rmin_l]).
  assert (R4 : r <= r4) by (unfold r; eapply Rle_trans; [apply Rmin_l|]; eapply Rle_trans; [apply Rmin_r|apply Rmin_r]).
  assert (R5 : r <= / q) by (unfold r; apply Rmin_r).
  exists r, (INR n * (2 * C) + 1), (INR n * K4 + 1), (INR n * K3).
  assert (0 <= INR n * (2 * C)) by (apply Rmult_le_pos; lra). assert (0 <= INR n * K4) by (now apply Rmult_le_pos).
  split; [auto|]. split; [lra|]. split; [lra|]. split; [now apply Rmult_le_pos|].
  assert (T0 : forall m u, 0 <= m -> within m u u) by (intros m u Hm; split; auto; intros i _; now rewrite Rminus_diag_eq, Rabs_R0).
  assert (CL : forall y t z t' m, length y = n -> length t = np -> 0 <= m -> within m y z -> within m t t' -> close m (st y t) (st z t')) by (intros; apply st_close; auto).
  intros x t Lx Lt Dx Dt. assert (Wx : within r x xs) by (eapply within_more; [apply dist_within; congruence|auto]).
  assert (Wt : within r t th) by (eapply within_more; [apply dist_within; congruence|auto]).
  assert (IBx : forall u k, length u = n -> vbd k (mv (A x t) u) -> vbd (2 * C * k) u).
  { apply bound_nearby with (M' := A xs th) (eta := K2 * r); auto using Am_matrix.
    - apply ML; auto; try (apply T0; lra); try lra; eapply within_more; eauto.
    - apply Rle_trans with (q * r / 2).
      + unfold q. assert (C * (INR n * K2) <= (C + 1) * (INR n + 1) * (K2 + 1)).
        { rewrite Rmult_assoc. assert (0 <= INR n * K2) by (now apply Rmult_le_pos). apply Rmult_le_compat; auto; [lra|]. apply Rmult_le_compat; auto; lra. }
        replace (C * (INR n * (K2 * r))) with (C * (INR n * K2) * r) by ring.
        replace (2 * (C + 1) * (INR n + 1) * (K2 + 1) * r / 2) with ((C + 1) * (INR n + 1) * (K2 + 1) * r) by field. apply Rmult_le_compat_r; lra.
      + assert (q * r <= q * / q) by (apply Rmult_le_compat_l; lra). rewrite Rinv_r in * by lra. lra. }
  split; [apply Op; eapply within_more; eauto|].
  split; [apply (@bound_nonsingular (A x t) n (2 * C) IBx)|]. split; [|split].
  - intros u Lu. eapply Rle_trans; [apply vbd_abs; [apply IBx; [auto|apply abs_vbd]|exact Lu]|]. pose proof (abs_pos (mv (A x t) u)). nra.
  - intros y t' Ly Lt' Dy Dt'. assert (Wy : within r y xs) by (eapply within_more; [apply dist_within; congruence|auto]).
    assert (Wt' : within r t' th) by (eapply within_more; [apply dist_within; congruence|auto]).
    assert (0 <= dist1 y x) by apply abs_pos. assert (0 <= dist1 t' t) by apply abs_pos.
    rewrite Rmult_assoc. rewrite <- (f_length y t') at 1. apply within_dist. split; [now rewrite !f_length|]. intros i Hi. rewrite f_length in Hi.
    destruct (nth_error eqs i) as [e|] eqn:E; [|apply nth_error_None in E; lia]. unfold values_at.
    rewrite (nth_error_nth _ i 0 (x := val (st y t') no_arrays e)) by (rewrite nth_error_map, E; reflexivity).
    rewrite (nth_error_nth _ i 0 (x := val (st x t) no_arrays e)) by (rewrite nth_error_map, E; reflexivity).
    apply (VL e); [eapply nth_error_In; eauto| | |]; apply CL; auto; try lra; try (eapply within_more; eauto; fail).
    + eapply within_more; [apply dist_within; congruence|lra].
    + eapply within_more; [apply dist_within; congruence|lra].
  - intros y Ly Dy. assert (Wy : within r y xs) by (eapply within_more; [apply dist_within; congruence|auto]).
    assert (0 <= dist1 y x) by apply abs_pos.
    assert (LM : length (mv (A x t) (vsub y x)) = n) by (rewrite mv_length; apply Am_matrix; auto).
    eapply Rle_trans; [apply within_dist with (m := K4 * dist1 y x ^ 2)|].
    + split; [rewrite vadd_length; rewrite !f_length; auto|]. intros i Hi. rewrite f_length in Hi.
      destruct (nth_error eqs i) as [e|] eqn:E; [|apply nth_error_None in E; lia]. rewrite nth_vadd, nth_mv by (now rewrite f_length). unfold values_at, Am.
      rewrite (nth_error_nth _ i 0 (x := val (st y t) no_arrays e)) by (rewrite nth_error_map, E; reflexivity).
      rewrite (nth_error_nth _ i 0 (x := val (st x t) no_arrays e)) by (rewrite nth_error_map, E; reflexivity).
      rewrite (nth_error_nth _ i [] (x := map (fun y => val (st x t) no_arrays (diff y e)) vs)) by (rewrite nth_error_map, E; reflexivity).
      pose proof (gsum_split vs ps ND x t y t e Lx Lt Ly Lt) as G.
      assert (Zt : dot (map (fun y => val (st x t) no_arrays (diff y e)) ps) (vsub t t) = 0).
      { rewrite dot_vsub by auto. ring. }
      rewrite Zt, Rplus_0_r in G. rewrite <- G.
      match goal with |- Rabs (?a - (?b + ?c)) <= _ => replace (a - (b + c)) with (a - b - c) by ring end.
      apply (SO e); [eapply nth_error_In; eauto| | | |]; try (apply CL; auto; try lra; try (eapply within_more; eauto; fail); apply dist_within; congruence).
      intros s Hs. now rewrite !state_out.
    + rewrite f_length. assert (0 <= dist1 y x ^ 2) by apply pow2_ge_0. nra.
Qed.

Lemma near_solution : exists r beta K L, 0 < r /\ 1 <= beta /\ 1 <= K /\ 0 <= L /\
  forall x, length x = n -> dist1 x xs <= r ->
    Forall (smooth (st x th) no_arrays) eqs /\ nonsingular (A x th) n /\
    (forall u, length u = n -> abs_sum u <= beta * abs_sum (mv (A x th) u)) /\
    (forall y, length y = n -> dist1 y xs <= r -> dist1 (f y th) (f x th) <= L * dist1 y x) /\
    (forall y, length y = n -> dist1 y xs <= r -> dist1 (f y th) (vadd (f x th) (mv (A x th) (vsub y x))) <= K * dist1 y x ^ 2).
Proof.
  destruct near_point as (r & beta & K & L & H1 & H2 & H3 & H4 & H). exists r, beta, K, L. do 4 (split; [assumption|]). intros x Lx Dx.
  assert (T : dist1 th th <= r) by (rewrite dist_self; lra). destruct (H x th Lx LT Dx T) as (A1 & A2 & A3 & A4 & A5). do 3 (split; [assumption|]). split; [|assumption].
  intros y Ly Dy. specialize (A4 y th Ly LT Dy T). now rewrite dist_self, Rplus_0_r in A4.
Qed.
End Near.
