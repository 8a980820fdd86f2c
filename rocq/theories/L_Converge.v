(** Lemmas for C115. *)
From Coq Require Import Reals Lra.
From Verif Require Import Py PyStr NdArray M_Primitives M_Utilities M_Wrappers M_Euler S_Layout S_Euler S_Converge L_Euler L_Euler3.
Local Open Scope list_scope.
Local Open Scope R_scope.

(** *** Entries *)
Lemma nth_vmap2_0 f a b i : length a = length b -> (i < length a)%nat -> nth i (vmap2 f a b) 0 = f (nth i a 0) (nth i b 0).
Proof.
  intros Hl Hi. apply nth_error_nth. rewrite nth_vmap2.
  rewrite (nth_error_nth' a 0 Hi), (nth_error_nth' b 0) by lia. reflexivity.
Qed.
Lemma nth_vscale k a i : nth i (vscale k a) 0 = k * nth i a 0.
Proof. unfold vscale. rewrite <- (Rmult_0_r k) at 1. apply map_nth. Qed.
Lemma nth_vneg a i : nth i (vneg a) 0 = - nth i a 0.
Proof. unfold vneg. rewrite <- Ropp_0 at 1. apply map_nth. Qed.
Lemma vec_ext (a b : list R) : length a = length b -> (forall i, (i < length a)%nat -> nth i a 0 = nth i b 0) -> a = b.
Proof. intros. apply nth_ext with (d := 0) (d' := 0); auto. Qed.

(** *** Distances *)
Lemma within_refl u e : 0 <= e -> within e u u.
Proof. intros. split; [reflexivity|]. intros. rewrite Rminus_diag_eq, Rabs_R0; auto. Qed.
Lemma within_mono e e' u v : within e u v -> e <= e' -> within e' u v.
Proof. intros (H1 & H2) H. split; [auto|]. intros i Hi. apply Rle_trans with e; auto. Qed.
Lemma within_trans e e' u v w : within e u v -> within e' v w -> within (e + e') u w.
Proof.
  intros (H1 & H2) (H3 & H4). split; [congruence|]. intros i Hi.
  replace (nth i u 0 - nth i w 0) with ((nth i u 0 - nth i v 0) + (nth i v 0 - nth i w 0)) by ring.
  eapply Rle_trans; [apply Rabs_triang|]. apply Rplus_le_compat; auto. apply H4. congruence.
Qed.
Lemma within_sym e u v : within e u v -> within e v u.
Proof. intros (H1 & H2). split; [auto|]. intros i Hi. rewrite Rabs_minus_sym. apply H2. congruence. Qed.
Lemma within_add e e' u v u' v' : length u = length u' -> within e u v -> within e' u' v' -> within (e + e') (vadd u u') (vadd v v').
Proof.
  intros Hl (H1 & H2) (H3 & H4). unfold vadd. split; [rewrite !vmap2_length; lia|].
  intros i Hi. rewrite vmap2_length in Hi. rewrite !nth_vmap2_0 by lia.
  replace (nth i u 0 + nth i u' 0 - (nth i v 0 + nth i v' 0)) with ((nth i u 0 - nth i v 0) + (nth i u' 0 - nth i v' 0)) by ring.
  eapply Rle_trans; [apply Rabs_triang|]. apply Rplus_le_compat; [apply H2|apply H4]; lia.
Qed.
Lemma within_scale k e u v : within e u v -> 0 <= k -> within (k * e) (vscale k u) (vscale k v).
Proof.
  intros (H1 & H2) Hk. split; [now rewrite !vscale_length|]. intros i Hi. rewrite vscale_length in Hi. rewrite !nth_vscale.
  rewrite <- Rmult_minus_distr_l, Rabs_mult, (Rabs_right k) by lra. apply Rmult_le_compat_l; auto.
Qed.
Lemma vec_bound (v : list R) : exists k, 0 <= k /\ forall i, Rabs (nth i v 0) <= k.
Proof.
  induction v as [|a v (k & K0 & K)].
  - exists 0. split; [lra|]. intros [|i]; cbn; rewrite Rabs_R0; lra.
  - exists (Rabs a + k). pose proof (Rabs_pos a). split; [lra|]. intros [|i]; cbn; [lra|]. specialize (K i). lra.
Qed.

(** *** The line *)
Lemma line_length a b t : length a = length b -> length (line a b t) = length a.
Proof. intros. unfold line. rewrite map_length, combine_length. lia. Qed.
Lemma nth_line a b t i : length a = length b -> (i < length a)%nat -> nth i (line a b t) 0 = nth i a 0 + t * (nth i b 0 - nth i a 0).
Proof. intros Hl Hi. exact (@nth_vmap2_0 (fun x y => x + t * (y - x)) a b i Hl Hi). Qed.
Lemma line_0 a b : length a = length b -> line a b 0 = a.
Proof.
  intros H. apply vec_ext; rewrite line_length; auto. intros i Hi. rewrite nth_line by auto. ring.
Qed.
Lemma line_1 a b : length a = length b -> line a b 1 = b.
Proof.
  intros H. apply vec_ext; rewrite line_length; auto. intros i Hi. rewrite nth_line by auto. ring.
Qed.
Lemma line_add a b t h : length a = length b -> vadd (line a b t) (vscale h (vsub b a)) = line a b (t + h).
Proof.
  intros H. assert (L1 : length (line a b t) = length a) by now apply line_length.
  assert (L2 : length (vscale h (vsub b a)) = length a) by (rewrite vscale_length, vsub_length; auto).
  apply vec_ext.
  - rewrite vadd_length by congruence. rewrite !line_length; auto.
  - intros i Hi. rewrite vadd_length in Hi by congruence. rewrite L1 in Hi. unfold vadd. rewrite nth_vmap2_0 by congruence.
    rewrite nth_vscale. unfold vsub. rewrite nth_vmap2_0 by lia. rewrite !nth_line by auto. ring.
Qed.
Lemma vdiv_scale d n : vdiv d n = vscale (/ INR n) d.
Proof. unfold vdiv, vscale. apply map_ext. intros. unfold Rdiv. ring. Qed.
Lemma vscale_vscale h k d : vscale h (vscale k d) = vscale (h * k) d.
Proof. unfold vscale. rewrite map_map. apply map_ext. intros. ring. Qed.

(** *** Linear solvers *)
Lemma dot_vscale a : forall k u, dot a (vscale k u) = k * dot a u.
Proof. unfold dot, vscale, vmap2. induction a as [|x a IH]; intros k [|y u]; simpl in *; try lra. rewrite IH. lra. Qed.
Lemma mv_vscale M k u : mv M (vscale k u) = vscale k (mv M u).
Proof. unfold mv, vscale at 2. rewrite map_map. apply map_ext. intros. apply dot_vscale. Qed.
Lemma vneg_vscale k u : vneg (vscale k u) = vscale k (vneg u).
Proof. unfold vneg, vscale. rewrite !map_map. apply map_ext. intros. ring. Qed.

Lemma inc_scale A B solve x th d k nv np : is_matrix nv nv (A x th) -> is_matrix nv np (B x th) -> solves solve (A x th) nv -> nonsingular (A x th) nv ->
  euler_inc A B solve x th (vscale k d) = vscale k (euler_inc A B solve x th d).
Proof.
  intros (HA & HA') (HB & HB') HS HN. unfold euler_inc. rewrite <- vneg_vscale, mv_vscale. f_equal.
  destruct (HS (mv (B x th) d)) as (S1 & S2); [now rewrite mv_length|].
  destruct (HS (vscale k (mv (B x th) d))) as (S3 & S4); [now rewrite vscale_length, mv_length|].
  apply HN; auto; [now rewrite vscale_length|]. rewrite mv_vscale, S2. exact S4.
Qed.

(** *** Derivatives of products with a row *)
Lemma dot_derivative row : forall (V : R -> list R) (V' : list R) t,
  (forall s, length (V s) = length row) -> length V' = length row ->
  (forall i, (i < length row)%nat -> derivable_pt_lim (fun s => nth i (V s) 0) t (nth i V' 0)) ->
  derivable_pt_lim (fun s => dot row (V s)) t (dot row V').
Proof.
  induction row as [|a row IH]; intros V V' t HV HV' HD.
  - destruct V'; [|discriminate]. apply derivable_pt_lim_ext with (fun _ => 0); [|apply derivable_pt_lim_const].
    intros s. reflexivity.
  - destruct V' as [|v V']; [discriminate|].
    apply derivable_pt_lim_ext with (fun s => a * nth 0 (V s) 0 + dot row (tl (V s))).
    + intros s. specialize (HV s). destruct (V s); [discriminate|]. reflexivity.
    + change (dot (a :: row) (v :: V')) with (a * v + dot row V').
      apply derivable_pt_lim_plus.
      * apply derivable_pt_lim_scal. exact (HD 0%nat (Nat.lt_0_succ _)).
      * apply IH.
        -- intros s. specialize (HV s). destruct (V s); cbn in *; congruence.
        -- cbn in HV'. congruence.
        -- intros i Hi. apply derivable_pt_lim_ext with (fun s => nth (S i) (V s) 0); [|apply (HD (S i)); cbn; lia].
           intros s. destruct (V s); [now destruct i|reflexivity].
Qed.

(** *** Along the path *)
Section Path.
Context {F : list R -> list R -> list R} {A B : list R -> list R -> list (list R)} {solve : list (list R) -> list R -> list R}
        {nv np : nat} {x0 th0 th1 : list R} {X X' : R -> list R} {r L M : R}.
Hypothesis EP : equilibrium_path F A B solve nv np x0 th0 th1 X X' r L M.
Hypothesis R0 : 0 < r.
Hypothesis L0 : 0 <= L.
Hypothesis M0 : 0 <= M.
Hypothesis T0 : length th0 = np.
Hypothesis T1 : length th1 = np.

Lemma path_mvt s t i : 0 <= s <= 1 -> 0 <= t <= 1 -> s < t -> (i < nv)%nat ->
  exists c, nth i (X t) 0 - nth i (X s) 0 = nth i (X' c) 0 * (t - s) /\ s < c < t.
Proof.
  intros Hs Ht Hst Hi. apply (MVT_cor2 (fun u => nth i (X u) 0) (fun u => nth i (X' u) 0) s t Hst).
  intros c Hc. apply (ep_derivative EP); auto. lra.
Qed.

Lemma path_speed : exists k, 0 <= k /\ forall s t, 0 <= s <= 1 -> 0 <= t <= 1 -> within (k * Rabs (s - t)) (X s) (X t).
Proof.
  destruct (vec_bound (X' 0)) as (k & K0 & K). exists (k + M). split; [lra|].
  assert (S : forall u i, 0 <= u <= 1 -> (i < nv)%nat -> Rabs (nth i (X' u) 0) <= k + M).
  { intros u i Hu Hi. destruct (ep_smooth EP (s := u) (t := 0)) as (H1 & H2); [lra|lra|].
    destruct (ep_length EP Hu) as (_ & Lu). specialize (H2 i ltac:(lia)). specialize (K i).
    replace (nth i (X' u) 0) with ((nth i (X' u) 0 - nth i (X' 0) 0) + nth i (X' 0) 0) by ring.
    eapply Rle_trans; [apply Rabs_triang|]. rewrite Rminus_0_r in H2. rewrite (Rabs_right u) in H2 by lra. nra. }
  assert (W : forall s t i, 0 <= s <= 1 -> 0 <= t <= 1 -> (i < nv)%nat -> s < t -> Rabs (nth i (X t) 0 - nth i (X s) 0) <= (k + M) * (t - s)).
  { intros s t i Hs Ht Hi Hst. destruct (path_mvt Hs Ht Hst Hi) as (c & E & Hc). rewrite E, Rabs_mult, (Rabs_right (t - s)) by lra.
    apply Rmult_le_compat_r; [lra|]. apply S; auto. lra. }
  intros s t Hs Ht. destruct (ep_length EP Hs) as (Ls & _), (ep_length EP Ht) as (Lt & _). split; [congruence|].
  intros i Hi. rewrite Ls in Hi. destruct (Rtotal_order s t) as [H|[H|H]].
  - rewrite Rabs_minus_sym, (Rabs_minus_sym s), (Rabs_right (t - s)) by lra. now apply W.
  - subst. rewrite !Rminus_diag_eq, !Rabs_R0 by auto. lra.
  - rewrite (Rabs_right (s - t)) by lra. now apply W.
Qed.

Lemma path_tangent t h : 0 <= t <= 1 -> 0 <= h -> t + h <= 1 -> within (M * (h * h)) (X (t + h)) (vadd (X t) (vscale h (X' t))).
Proof.
  intros Ht Hh Hth. assert (Ht' : 0 <= t + h <= 1) by lra.
  destruct (ep_length EP Ht) as (Lt & Lt'), (ep_length EP Ht') as (Lth & _).
  assert (La : length (vadd (X t) (vscale h (X' t))) = nv) by (rewrite vadd_length; rewrite ?vscale_length; congruence).
  split; [congruence|]. intros i Hi. rewrite Lth in Hi. unfold vadd. rewrite nth_vmap2_0 by (rewrite ?vscale_length; congruence).
  rewrite nth_vscale. destruct (Req_dec h 0) as [->|Hn].
  - rewrite Rplus_0_r. replace (_ - _) with 0 by ring. rewrite Rabs_R0. nra.
  - destruct (path_mvt Ht Ht' ltac:(lra) Hi) as (c & E & Hc).
    replace (nth i (X (t + h)) 0 - (nth i (X t) 0 + h * nth i (X' t) 0)) with (h * (nth i (X' c) 0 - nth i (X' t) 0)).
    + rewrite Rabs_mult, (Rabs_right h) by lra.
      destruct (ep_smooth EP (s := c) (t := t)) as (S1 & S2); [lra|lra|].
      destruct (ep_length EP (t := c)) as (_ & Lc); [lra|]. specialize (S2 i ltac:(lia)).
      rewrite (Rabs_right (c - t)) in S2 by lra. assert (M * (c - t) <= M * h) by nra. nra.
    + replace (t + h - t) with h in E by ring. lra.
Qed.

(** The derivatives of the path are the slopes of the method. *)
Lemma path_slope t : 0 <= t <= 1 -> euler_inc A B solve (X t) (line th0 th1 t) (vsub th1 th0) = X' t.
Proof.
  intros Ht. set (th := line th0 th1 t). set (D := vsub th1 th0).
  destruct (ep_length EP Ht) as (Lt & Lt').
  destruct (ep_systems EP Ht (within_refl (X t) (Rlt_le _ _ R0))) as ((A1 & A2) & (B1 & B2) & HS & HN). fold th in A1, A2, B1, B2, HS, HN.
  assert (LD : length D = np) by (unfold D; rewrite vsub_length; congruence).
  assert (Lth : forall s, length (line th0 th1 s) = np) by (intros; rewrite line_length; congruence).
  set (A0 := A (X t) th) in *. set (B0 := B (X t) th) in *.
  assert (W : forall i, (i < nv)%nat -> dot (nth i A0 []) (X' t) + dot (nth i B0 []) D = 0).
  { intros i Hi. set (a := nth i A0 []). set (b := nth i B0 []). set (w := dot a (X' t) + dot b D).
    assert (La : length a = nv) by (apply A2, nth_In; lia). assert (Lb : length b = np) by (apply B2, nth_In; lia).
    set (V := fun s => map (fun j => nth j (X s) 0) (seq 0 nv)).
    assert (LV : forall s, length (V s) = nv) by (intros; unfold V; rewrite map_length, seq_length; auto).
    assert (NV : forall s j, (j < nv)%nat -> nth j (V s) 0 = nth j (X s) 0).
    { intros s j Hj. unfold V. rewrite nth_indep with (d' := (fun j => nth j (X s) 0) 0%nat) by (now rewrite map_length, seq_length).
      rewrite (map_nth (fun j => nth j (X s) 0)), seq_nth by auto. reflexivity. }
    assert (EV : forall s, 0 <= s <= 1 -> V s = X s).
    { intros s Hs. apply vec_ext; [rewrite LV; symmetry; apply (ep_length EP Hs)|]. intros j Hj. rewrite LV in Hj. now apply NV. }
    assert (DA : derivable_pt_lim (fun s => dot a (V s)) t (dot a (X' t))).
    { apply dot_derivative; [intros; rewrite LV; auto|congruence|]. intros j Hj. rewrite La in Hj.
      apply derivable_pt_lim_ext with (fun s => nth j (X s) 0); [intros; now rewrite NV|]. now apply (ep_derivative EP). }
    assert (DB : derivable_pt_lim (fun s => dot b (line th0 th1 s)) t (dot b D)).
    { apply dot_derivative; [intros; rewrite Lth; auto|congruence|]. intros j Hj. rewrite Lb in Hj.
      unfold D, vsub. rewrite nth_vmap2_0 by lia.
      apply derivable_pt_lim_ext with (fun s => nth j th0 0 + s * (nth j th1 0 - nth j th0 0)); [intros; now rewrite nth_line by lia|].
      set (q := nth j th1 0 - nth j th0 0).
      assert (H : derivable_pt_lim (fun s => nth j th0 0 + s * q) t (0 + (1 * q + t * 0))).
      { apply (derivable_pt_lim_plus (fun _ => nth j th0 0) (fun s => s * q)); [apply derivable_pt_lim_const|].
        apply (derivable_pt_lim_mult id (fun _ => q)); [apply derivable_pt_lim_id|apply derivable_pt_lim_const]. }
      replace (0 + (1 * q + t * 0)) with q in H by ring. exact H. }
    pose proof (derivable_pt_lim_plus _ _ _ _ _ DA DB) as DG. fold w in DG.
    destruct path_speed as (k & K0 & K). destruct (vec_bound D) as (kd & KD0 & KD). set (C := k + kd + 1).
    assert (Z : forall eps, 0 < eps -> Rabs w <= eps * (C + 1)).
    { intros eps He. destruct (ep_differentiable EP Ht He) as (del & Hdel & HF). fold th A0 B0 in HF.
      destruct (DG eps He) as (del2 & Hd2). pose proof (cond_pos del2) as P2.
      assert (HH : exists h, h <> 0 /\ Rabs h < del2 /\ C * Rabs h <= del /\ 0 <= t + h <= 1).
      { set (q := Rmin (1 / 2) (Rmin (del2 / 2) (del / C))).
        assert (C1 : 1 <= C) by (unfold C; lra).
        assert (Q0 : 0 < q) by (unfold q; repeat apply Rmin_pos; try lra; apply Rdiv_lt_0_compat; lra).
        assert (Q1 : q <= 1 / 2) by apply Rmin_l.
        assert (Q2 : q <= del2 / 2) by (eapply Rle_trans; [apply Rmin_r|apply Rmin_l]).
        assert (Q3 : q <= del / C) by (eapply Rle_trans; [apply Rmin_r|apply Rmin_r]).
        assert (Q4 : C * q <= del).
        { apply Rmult_le_compat_l with (r := C) in Q3; [|lra]. replace (C * (del / C)) with del in Q3 by (field; lra). exact Q3. }
        destruct (Rle_dec t (1 / 2)) as [T|T].
        - exists q. rewrite (Rabs_right q) by lra. repeat split; lra.
        - exists (- q). rewrite Rabs_Ropp, (Rabs_right q) by lra. repeat split; lra. }
      destruct HH as (h & Hn & H2 & HC & Hth). specialize (Hd2 h Hn H2).
      assert (Hm : 0 <= C * Rabs h <= del) by (split; [pose proof (Rabs_pos h); unfold C; nra|exact HC]).
      assert (WX : within (C * Rabs h) (X (t + h)) (X t)).
      { eapply within_mono; [apply (K (t + h) t); lra|]. replace (t + h - t) with h by ring. apply Rmult_le_compat_r; [apply Rabs_pos|unfold C; lra]. }
      assert (WT : within (C * Rabs h) (line th0 th1 (t + h)) th).
      { unfold th. split; [now rewrite !Lth|]. intros j Hj. rewrite Lth in Hj. rewrite !nth_line by lia.
        replace (nth j th0 0 + (t + h) * (nth j th1 0 - nth j th0 0) - (nth j th0 0 + t * (nth j th1 0 - nth j th0 0))) with
          ((nth j th1 0 - nth j th0 0) * h) by ring. rewrite Rabs_mult. apply Rmult_le_compat_r; [apply Rabs_pos|].
        specialize (KD j). unfold D, vsub in KD. rewrite nth_vmap2_0 in KD by lia. unfold C. lra. }
      destruct (HF _ _ _ Hm WX WT) as (F1 & F2). rewrite (ep_solution EP Hth) in F1, F2. unfold th in F1, F2. rewrite (ep_solution EP Ht) in F1, F2. fold th in F1, F2.
      rewrite zeros_length in F2. specialize (F2 i Hi).
      assert (LX : length (vsub (X (t + h)) (X t)) = nv) by (destruct (ep_length EP Hth); rewrite vsub_length; congruence).
      assert (LT : length (vsub (line th0 th1 (t + h)) th) = np) by (unfold th; rewrite vsub_length; rewrite !Lth; auto).
      assert (LI : length (vadd (mv A0 (vsub (X (t + h)) (X t))) (mv B0 (vsub (line th0 th1 (t + h)) th))) = nv)
        by (rewrite vadd_length; rewrite !mv_length; congruence).
      unfold vadd in F2 at 1. rewrite nth_vmap2_0 in F2 by (rewrite ?zeros_length; auto; now rewrite LI).
      unfold vadd in F2. rewrite nth_vmap2_0 in F2 by (rewrite !mv_length; lia).
      assert (NZ : nth i (zeros nv) 0 = 0) by (unfold zeros; apply nth_repeat).
      assert (NM : forall Q v, nth i (mv Q v) 0 = dot (nth i Q []) v).
      { intros Q v. unfold mv. change 0 with (dot [] v) at 1. apply (map_nth (fun row => dot row v)). }
      rewrite NZ, !NM in F2. fold a b in F2.
      assert (SB : forall row u v, length u = length row -> length v = length row -> dot row (vsub u v) = dot row u - dot row v).
      { clear. unfold dot, vsub, vmap2. induction row as [|x row IH]; intros [|y u] [|z v] Hu Hv; try discriminate; simpl in *; [lra|]. rewrite IH by lia. lra. }
      rewrite !SB in F2 by (rewrite ?La, ?Lb; try apply (ep_length EP Hth); try apply (ep_length EP Ht); unfold th; rewrite ?Lth; auto).
      set (g := fun s => dot a (V s) + dot b (line th0 th1 s)).
      assert (G : Rabs (g (t + h) - g t) <= eps * (C * Rabs h)).
      { unfold g. rewrite !EV by auto. rewrite <- Rabs_Ropp.
        replace (- (dot a (X (t + h)) + dot b (line th0 th1 (t + h)) - (dot a (X t) + dot b (line th0 th1 t)))) with
          (0 - (0 + (dot a (X (t + h)) - dot a (X t) + (dot b (line th0 th1 (t + h)) - dot b th)))) by (unfold th; ring). exact F2. }
      change ((dot a (V (t + h)) + dot b (line th0 th1 (t + h))) - (dot a (V t) + dot b (line th0 th1 t))) with (g (t + h) - g t) in Hd2.
      assert (P : Rabs ((g (t + h) - g t) / h) <= eps * C).
      { unfold Rdiv. rewrite Rabs_mult, Rabs_inv. apply Rmult_le_reg_r with (Rabs h); [now apply Rabs_pos_lt|].
        rewrite Rmult_assoc, Rinv_l by (now apply Rabs_no_R0). rewrite Rmult_1_r. lra. }
      assert (Q : Rabs ((g (t + h) - g t) / h - w) < eps) by exact Hd2.
      replace w with ((g (t + h) - g t) / h - ((g (t + h) - g t) / h - w)) by ring.
      eapply Rle_trans; [unfold Rminus at 1; apply Rabs_triang|]. rewrite Rabs_Ropp. lra. }
    destruct (Req_dec w 0) as [E|E]; [exact E|]. exfalso. pose proof (Rabs_pos_lt w E) as PW.
    assert (C0 : 0 < C + 1) by (unfold C; lra).
    specialize (Z (Rabs w / (2 * (C + 1)))). assert (0 < Rabs w / (2 * (C + 1))) by (apply Rdiv_lt_0_compat; lra).
    specialize (Z H). replace (Rabs w / (2 * (C + 1)) * (C + 1)) with (Rabs w / 2) in Z by (field; lra). lra. }
  apply HN.
  - unfold euler_inc. fold th D A0 B0. rewrite vneg_length. apply HS. now rewrite mv_length.
  - exact Lt'.
  - unfold euler_inc. fold th D A0 B0. rewrite mv_vneg. destruct (HS (mv B0 D)) as (_ & ->); [now rewrite mv_length|].
    apply vec_ext; [rewrite vneg_length, !mv_length; congruence|]. intros i Hi. rewrite vneg_length, mv_length, B1 in Hi. rewrite nth_vneg.
    assert (NM : forall Q v, nth i (mv Q v) 0 = dot (nth i Q []) v).
    { intros Q v. unfold mv. change 0 with (dot [] v) at 1. apply (map_nth (fun row => dot row v)). }
    rewrite !NM. specialize (W i Hi). lra.
Qed.

Definition slope (t : R) (x : list R) : list R := euler_inc A B solve x (line th0 th1 t) (vsub th1 th0).

Lemma slope_close t x e : 0 <= t <= 1 -> 0 <= e <= r -> within e x (X t) -> within (L * e) (slope t x) (X' t).
Proof. intros Ht He W. unfold slope. rewrite <- (path_slope Ht). now apply (ep_lipschitz EP). Qed.

Lemma slope_scaled t x h : 0 <= t <= 1 -> within r x (X t) ->
  euler_inc A B solve x (line th0 th1 t) (vscale h (vsub th1 th0)) = vscale h (slope t x).
Proof. intros Ht W. destruct (ep_systems EP Ht W) as (H1 & H2 & H3 & H4). exact (@inc_scale A B solve x _ _ h _ _ H1 H2 H3 H4). Qed.

Lemma slope_scaled' t x h e : 0 <= t <= 1 -> within e x (X t) -> e <= r ->
  euler_inc A B solve x (line th0 th1 t) (vscale h (vsub th1 th0)) = vscale h (slope t x).
Proof. intros Ht W He. apply slope_scaled; [exact Ht|]. eapply within_mono; eauto. Qed.

Lemma advance t x v e s k : 0 <= t <= 1 -> 0 <= k -> t + k <= 1 -> within e x (X t) -> within s v (X' t) ->
  within (e + k * s + M * (k * k)) (vadd x (vscale k v)) (X (t + k)).
Proof.
  intros Ht Hk Htk W V. destruct (ep_length EP Ht) as (Lt & Lt'). eapply within_trans.
  - apply within_add; [destruct W, V; rewrite vscale_length; congruence|exact W|apply within_scale; [exact V|exact Hk]].
  - apply within_sym. now apply path_tangent.
Qed.

Lemma smooth_close t k v s : 0 <= t <= 1 -> 0 <= k -> t + k <= 1 -> within s v (X' (t + k)) -> within (s + M * k) v (X' t).
Proof.
  intros Ht Hk Htk W. eapply within_trans; [exact W|]. eapply within_mono; [apply (ep_smooth EP); lra|].
  replace (t + k - t) with k by ring. rewrite Rabs_right by lra. lra.
Qed.

Lemma vscale_vadd k u v : vadd (vscale k u) (vscale k v) = vscale k (vadd u v).
Proof.
  unfold vadd, vscale, vmap2. revert v. induction u as [|a u IH]; intros [|b v]; try reflexivity. cbn. f_equal; [ring|apply IH].
Qed.

Lemma six (w : list R) : vscale (/ 6) (vadd (vadd (vadd w (vscale 2 w)) (vscale 2 w)) w) = w.
Proof.
  assert (L2 : length (vscale 2 w) = length w) by apply vscale_length.
  assert (L3 : length (vadd w (vscale 2 w)) = length w) by (now rewrite vadd_length).
  assert (L4 : length (vadd (vadd w (vscale 2 w)) (vscale 2 w)) = length w) by (rewrite vadd_length; congruence).
  assert (L5 : length (vadd (vadd (vadd w (vscale 2 w)) (vscale 2 w)) w) = length w) by (rewrite vadd_length; congruence).
  apply vec_ext; [now rewrite vscale_length|]. intros i Hi. rewrite vscale_length, L5 in Hi. rewrite nth_vscale.
  unfold vadd at 1. rewrite nth_vmap2_0 by (rewrite ?L4; auto; congruence).
  unfold vadd at 1. rewrite nth_vmap2_0 by (rewrite ?L3; auto; congruence).
  unfold vadd at 1. rewrite nth_vmap2_0 by (auto; congruence). rewrite nth_vscale. field.
Qed.

(** One step of either scheme *)
Lemma one_step rk4 t x e h : 0 <= t -> 0 <= h -> t + h <= 1 -> 0 <= e -> h * L <= 1 -> 3 * e + 3 * (M * (h * h)) <= r -> within e x (X t) ->
  within ((1 + 2 * (h * L)) * e + 3 * (M * (h * h)))
    (vadd x (step_inc rk4 (euler_inc A B solve) x (line th0 th1 t) (vscale h (vsub th1 th0)))) (X (t + h)).
Proof.
  intros Ht Hh Hth He Hl Hr W. assert (Htt : 0 <= t <= 1) by lra. set (a := h * L) in *. set (m := M * (h * h)) in *.
  assert (A0 : 0 <= a) by (unfold a; nra). assert (Q0 : 0 <= m) by (unfold m; apply Rmult_le_pos; nra).
  assert (V1 : within (L * e) (slope t x) (X' t)) by (apply slope_close; auto; lra).
  assert (Lx : length x = nv) by (destruct W; rewrite H; apply (ep_length EP Htt)).
  assert (LL : forall s v, within s v (X' t) -> length v = nv) by (intros s v (H & _); rewrite H; apply (ep_length EP Htt)).
  destruct rk4; cbn [step_inc].
  - unfold rk4_inc. rewrite (@slope_scaled' _ _ h _ Htt W) by lra. set (v1 := slope t x) in *.
    rewrite !vscale_vscale. rewrite (@line_add th0 th1 t (1 / 2 * h)), (@line_add th0 th1 t h) by congruence.
    set (k := 1 / 2 * h). assert (Hk : 0 <= k) by (unfold k; lra). assert (Htk : t + k <= 1) by (unfold k; lra).
    assert (Htk' : 0 <= t + k <= 1) by lra. assert (Hth' : 0 <= t + h <= 1) by lra.
    pose proof (@advance t x v1 e (L * e) k Htt Hk Htk W V1) as W2.
    set (e1 := e + k * (L * e) + M * (k * k)) in *.
    assert (E1 : e1 = e + a * e / 2 + m / 4) by (unfold e1, k, a, m; field).
    assert (B1 : 0 <= e1 <= e + e / 2 + m / 4) by (rewrite E1; split; nra).
    rewrite (@slope_scaled' _ _ h _ Htk' W2) by lra.
    set (x2 := vadd x (vscale k v1)) in *. set (v2 := slope (t + k) x2) in *.
    assert (V2 : within (L * e1 + M * k) v2 (X' t)) by (apply smooth_close; auto; apply slope_close; auto; lra).
    rewrite (vscale_vscale (1 / 2) h v2). fold k.
    pose proof (@advance t x v2 e _ k Htt Hk Htk W V2) as W3.
    set (e2 := e + k * (L * e1 + M * k) + M * (k * k)) in *.
    assert (E2 : e2 = e + a * e1 / 2 + m / 2) by (unfold e2, k, a, m; field).
    assert (B2 : 0 <= e2 <= e + (e + e / 2 + m / 4) / 2 + m / 2) by (rewrite E2; split; nra).
    rewrite (@slope_scaled' _ _ h _ Htk' W3) by lra.
    set (x3 := vadd x (vscale k v2)) in *. set (v3 := slope (t + k) x3) in *.
    assert (V3 : within (L * e2 + M * k) v3 (X' t)) by (apply smooth_close; auto; apply slope_close; auto; lra).
    pose proof (@advance t x v3 e _ h Htt Hh Hth W V3) as W4.
    set (e3 := e + h * (L * e2 + M * k) + M * (h * h)) in *.
    assert (E3 : e3 = e + a * e2 + 3 * m / 2) by (unfold e3, k, a, m; field).
    assert (B3 : 0 <= e3 <= e + (e + (e + e / 2 + m / 4) / 2 + m / 2) + 3 * m / 2) by (rewrite E3; split; nra).
    rewrite (@slope_scaled' _ _ h _ Hth' W4) by lra.
    set (x4 := vadd x (vscale h v3)) in *. set (v4 := slope (t + h) x4) in *.
    assert (V4 : within (L * e3 + M * h) v4 (X' t)) by (apply smooth_close; auto; apply slope_close; auto; lra).
    set (v := vscale (/ 6) (vadd (vadd (vadd v1 (vscale 2 v2)) (vscale 2 v3)) v4)).
    assert (EV : map (fun s => s / 6) (vadd (vadd (vadd (vscale h v1) (vscale 2 (vscale h v2))) (vscale 2 (vscale h v3))) (vscale h v4)) = vscale h v).
    { rewrite !vscale_vscale, !(Rmult_comm 2 h), <- !(vscale_vscale h 2), !vscale_vadd. unfold v. rewrite vscale_vscale, Rmult_comm, <- vscale_vscale.
      unfold vscale at 1 6. apply map_ext. intros q. field. }
    rewrite EV.
    assert (VV : within (/ 6 * (L * e + 2 * (L * e1 + M * k) + 2 * (L * e2 + M * k) + (L * e3 + M * h))) v (X' t)).
    { rewrite <- (six (X' t)) at 1. unfold v. apply within_scale; [|lra].
      pose proof (LL _ _ V1). pose proof (LL _ _ V2). pose proof (LL _ _ V3). pose proof (LL _ _ V4).
      apply within_add; [|apply within_add; [|apply within_add; [|exact V1|apply within_scale; [exact V2|lra]]|apply within_scale; [exact V3|lra]]|exact V4];
        repeat rewrite vadd_length; rewrite ?vscale_length; try congruence; repeat rewrite vadd_length; rewrite ?vscale_length; congruence. }
    pose proof (@advance t x v e _ h Htt Hh Hth W VV) as W5. eapply within_mono; [exact W5|].
    replace (e + h * (/ 6 * (L * e + 2 * (L * e1 + M * k) + 2 * (L * e2 + M * k) + (L * e3 + M * h))) + M * (h * h)) with
      (e + (a * e + 2 * (a * e1) + 2 * (a * e2) + a * e3 + 3 * m) / 6 + m) by (unfold a, m, k; field).
    assert (a * e1 <= a * (e + e / 2 + m / 4)) by (apply Rmult_le_compat_l; lra).
    assert (a * e2 <= a * (e + (e + e / 2 + m / 4) / 2 + m / 2)) by (apply Rmult_le_compat_l; lra).
    assert (a * e3 <= a * (e + (e + (e + e / 2 + m / 4) / 2 + m / 2) + 3 * m / 2)) by (apply Rmult_le_compat_l; lra).
    assert (a * m <= m) by nra. assert (0 <= a * e) by nra. nra.
  - rewrite (@slope_scaled' _ _ h _ Htt W) by lra.
    eapply within_mono; [apply (@advance t x (slope t x) e (L * e) h); auto|]. fold m. replace (h * (L * e)) with (a * e) by (unfold a; ring). nra.
Qed.

Lemma power_exp q k : 0 <= q -> (1 + q) ^ k <= exp (INR k * q).
Proof.
  intros Hq. induction k as [|k IH].
  - cbn. rewrite Rmult_0_l, exp_0. lra.
  - rewrite S_INR. replace ((INR k + 1) * q) with (q + INR k * q) by ring. rewrite exp_plus. cbn [pow].
    apply Rmult_le_compat; [lra|apply pow_le; lra| |exact IH].
    destruct (Req_dec q 0) as [->|N]; [rewrite exp_0; lra|]. left. now apply exp_ineq1.
Qed.

(** All steps *)
Lemma all_steps rk4 n : (1 <= n)%nat -> L <= INR n -> 12 * M * exp (2 * L) <= r * INR n ->
  forall k, (k <= n)%nat ->
  let p := path (step_inc rk4 (euler_inc A B solve)) (vdiv (vsub th1 th0) n) x0 th0 k in
  within (3 * M * exp (2 * L) / INR n) (fst p) (X (INR k / INR n)) /\ snd p = line th0 th1 (INR k / INR n).
Proof.
  intros Hn HL HR. assert (N1 : 1 <= INR n) by (change 1 with (INR 1); now apply le_INR). set (h := / INR n).
  assert (H0 : 0 < h) by (apply Rinv_0_lt_compat; lra). assert (HN : h * INR n = 1) by (unfold h; field; lra).
  assert (H1 : h <= 1) by nra. assert (HL1 : h * L <= 1) by (rewrite <- HN; nra).
  set (X1 := exp (2 * L)) in *. assert (X1p : 1 <= X1). { unfold X1. rewrite <- exp_0. destruct (Req_dec L 0) as [->|]; [rewrite Rmult_0_r; lra|]. left. apply exp_increasing. lra. }
  assert (MX : 0 <= M * X1) by nra.
  assert (HR' : 12 * (M * X1) * h <= r). { apply Rmult_le_compat_r with (r := h) in HR; [|lra]. replace (r * INR n * h) with (r * (h * INR n)) in HR by ring. rewrite HN in HR. lra. }
  set (m := M * (h * h)). assert (m0 : 0 <= m) by (unfold m; apply Rmult_le_pos; nra).
  assert (mX : m <= M * X1 * h). { unfold m. replace (M * X1 * h) with ((M * h) * X1) by ring. replace (M * (h * h)) with ((M * h) * h) by ring. apply Rmult_le_compat_l; [nra|lra]. }
  set (a := 2 * (h * L)). assert (a0 : 0 <= a) by (unfold a; nra).
  set (E := fun k => 3 * m * INR k * (1 + a) ^ k).
  assert (EB : forall k, (k <= n)%nat -> E k <= 3 * (M * X1) * h).
  { intros k Hk. unfold E. assert (P : (1 + a) ^ k <= X1).
    { eapply Rle_trans; [apply power_exp; auto|]. unfold X1. apply le_INR in Hk. pose proof (pos_INR k).
      assert (Q : INR k * a <= 2 * L). { unfold a. replace (INR k * (2 * (h * L))) with ((h * INR k) * (2 * L)) by ring. assert (h * INR k <= 1) by (rewrite <- HN; nra). nra. }
      destruct Q as [Q|Q]; [left; now apply exp_increasing|rewrite Q; lra]. }
    assert (P0 : 0 <= (1 + a) ^ k) by (apply pow_le; lra).
    assert (K : m * INR k <= M * h). { unfold m. apply le_INR in Hk. replace (M * (h * h) * INR k) with (M * h * (h * INR k)) by ring. rewrite <- (Rmult_1_r (M * h)) at 2. apply Rmult_le_compat_l; [nra|]. rewrite <- HN. nra. }
    pose proof (pos_INR k). assert (0 <= m * INR k) by nra.
    assert (m * INR k * (1 + a) ^ k <= M * h * X1) by (apply Rmult_le_compat; auto). nra. }
  assert (EP0 : forall k, 0 <= E k). { intros k. unfold E. apply Rmult_le_pos; [|apply pow_le; lra]. pose proof (pos_INR k). nra. }
  assert (TT : length th0 = length th1) by congruence.
  assert (ST : forall k, (k <= n)%nat -> let p := path (step_inc rk4 (euler_inc A B solve)) (vdiv (vsub th1 th0) n) x0 th0 k in
     within (E k) (fst p) (X (INR k * h)) /\ snd p = line th0 th1 (INR k * h)).
  { induction k as [|k IH]; intros Hk p.
    - unfold p. cbn [path fst snd INR]. rewrite Rmult_0_l. rewrite (ep_start EP). split; [apply within_refl; apply EP0|]. now rewrite line_0.
    - destruct (IH ltac:(lia)) as (I1 & I2). unfold p. cbn [path]. set (q := path _ _ x0 th0 k) in *. cbn [fst snd]. rewrite I2, vdiv_scale. fold h.
      assert (Es : INR (S k) * h = INR k * h + h) by (rewrite S_INR; ring). rewrite Es.
      assert (KN : INR k * h + h <= 1). { rewrite <- Es. rewrite <- HN. apply le_INR in Hk. nra. }
      split; [|now apply line_add]. pose proof (pos_INR k).
      assert (Hr : 3 * E k + 3 * m <= r) by (pose proof (EB k ltac:(lia)); nra).
      eapply within_mono; [apply (@one_step rk4 (INR k * h) (fst q) (E k) h); auto; nra|].
      fold m a. unfold E. rewrite S_INR. cbn [pow]. assert (P1 : 1 <= (1 + a) * (1 + a) ^ k).
      { assert (1 <= (1 + a) ^ k) by (apply pow_R1_Rle; lra). nra. }
      assert (m <= m * ((1 + a) * (1 + a) ^ k)) by nra. nra. }
  intros k Hk p. destruct (ST k Hk) as (S1 & S2). fold h. unfold Rdiv. fold h. split; [|exact S2].
  eapply within_mono; [exact S1|]. pose proof (EB k Hk). lra.
Qed.
End Path.
