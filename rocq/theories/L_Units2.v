(** Lemmas for C128: the Euler approximation and units. *)
From Coq Require Import Reals Lra.
From Verif Require Import Py PyStr NdArray M_Primitives M_Utilities M_Wrappers S_Layout L_Utilities L_Layout L_Wrappers M_SymExpr
  M_Euler M_Newton S_Euler S_Converge S_Newton S_Kantorovich L_Euler L_Euler3 L_Newton L_Converge L_Converge2
  L_Kantorovich S_Trace L_Trace L_Trace2 S_NewtonNear S_Units L_Units.
Local Open Scope string_scope.
Local Open Scope list_scope.
Local Open Scope R_scope.

Lemma rescaled_times d v v' : length d = length v -> rescaled d v v' -> v' = times d v.
Proof. intros L (E & H). apply vec_ext; [rewrite times_length; lia|]. intros k _. rewrite nth_times by auto. apply H. Qed.
Lemma times_rescaled d v : length d = length v -> rescaled d v (times d v).
Proof. intros L. split; [now apply times_length|]. intros k. now apply nth_times. Qed.
Lemma times_app d e u v : length d = length u -> times (d ++ e) (u ++ v) = times d u ++ times e v.
Proof.
  revert u. induction d as [|a d IH]; intros [|b u] L; try discriminate; [reflexivity|]. unfold times, vmap2 in *. cbn in *. f_equal. apply IH. now injection L.
Qed.
Lemma times_vadd d u v : length d = length u -> length u = length v -> times d (vadd u v) = vadd (times d u) (times d v).
Proof.
  intros L1 L2. apply vec_ext; [rewrite times_length, !vadd_length, times_length; try rewrite !times_length; try rewrite vadd_length; lia|]. intros k _.
  rewrite nth_times by (rewrite vadd_length; lia). rewrite !nth_vadd, !nth_times by (try rewrite !times_length; lia). ring.
Qed.
Lemma times_vsub d u v : length d = length u -> length u = length v -> times d (vsub u v) = vsub (times d u) (times d v).
Proof.
  intros L1 L2. apply vec_ext; [rewrite times_length, !vsub_length, times_length; try rewrite !times_length; try rewrite vsub_length; lia|]. intros k _.
  rewrite nth_times by (rewrite vsub_length; lia). rewrite !nth_vsub, !nth_times by (try rewrite !times_length; lia). ring.
Qed.
Lemma times_vdiv d v n : times d (vdiv v n) = vdiv (times d v) n.
Proof.
  revert v. induction d as [|a d IH]; intros [|b v]; try reflexivity. unfold times, vmap2, vdiv in *. cbn in *. f_equal; [unfold Rdiv; ring|apply IH].
Qed.
Lemma times_vneg d v : times d (vneg v) = vneg (times d v).
Proof.
  revert v. induction d as [|a d IH]; intros [|b v]; try reflexivity. unfold times, vmap2, vneg in *. cbn in *. f_equal; [ring|apply IH].
Qed.
Lemma mv_rescaled M M' r n d s c : rescaled_matrix d c r n M M' -> length d = n -> length s = n -> mv M' (times d s) = vscale c (mv M s).
Proof.
  intros ((E & R0) & (E' & R') & H) Ld Ls. apply vec_ext; [rewrite vscale_length, !mv_length; congruence|]. intros i Hi. rewrite mv_length in Hi.
  rewrite nth_vscale, !nth_mv. assert (L1 : length (nth i M []) = n) by (apply R0, nth_In; lia). assert (L2 : length (nth i M' []) = n) by (apply R', nth_In; lia).
  apply dot_units; auto; congruence.
Qed.

Lemma times_onto d : forall n, Forall (fun u => u <> 0) d -> length d = n -> forall v, length v = n -> exists w, length w = n /\ v = times d w.
Proof.
  induction d as [|a d IH]; intros n F E1 [|b v] E2; subst n; try discriminate; [exists []; split; reflexivity|].
  destruct (IH (length d) ltac:(now inversion F) eq_refl v) as (w & Lw & Ew); [now injection E2|]. exists (b / a :: w). split; [cbn; congruence|].
  unfold times, vmap2 in *. cbn. rewrite <- Ew. f_equal. field. now inversion F.
Qed.

Section Euler.
Context (A A' B B' : list R -> list R -> list (list R)) (solve solve' : list (list R) -> list R -> list R) (nv np : nat) (d e : list R) (c : R).
Hypothesis Ld : length d = nv.
Hypothesis Le : length e = np.
Hypothesis ND : Forall (fun u => u <> 0) d.
Hypothesis C0 : c <> 0.
Hypothesis HA : forall x th x' th', length x = nv -> length th = np -> rescaled d x x' -> rescaled e th th' -> rescaled_matrix d c nv nv (A x th) (A' x' th').
Hypothesis HB : forall x th x' th', length x = nv -> length th = np -> rescaled d x x' -> rescaled e th th' -> rescaled_matrix e c nv np (B x th) (B' x' th').
Hypothesis HS : right_solver solve nv.
Hypothesis HS' : right_solver solve' nv.

Lemma d_nz k : (k < nv)%nat -> nth k d 0 <> 0.
Proof. intros H. rewrite Forall_forall in ND. apply ND, nth_In. lia. Qed.
Lemma regular_rescaled M M' : rescaled_matrix d c nv nv M M' -> nonsingular M nv -> nonsingular M' nv.
Proof.
  intros RM NM. assert (O := @times_onto d nv ND Ld).
  intros u v Lu Lv E. destruct (O u Lu) as (u0 & L1 & ->), (O v Lv) as (v0 & L2 & ->). rewrite !(@mv_rescaled M M' nv nv d _ c RM) in E by auto. f_equal. apply NM; auto.
  apply vec_ext; [now rewrite !mv_length|]. intros i _. apply (f_equal (fun l => nth i l 0)) in E. rewrite !nth_vscale in E. now apply Rmult_eq_reg_l in E.
Qed.

Lemma inc_units x th s : length x = nv -> length th = np -> length s = np -> nonsingular (A x th) nv ->
  length (euler_inc A B solve x th s) = nv /\ euler_inc A' B' solve' (times d x) (times e th) (times e s) = times d (euler_inc A B solve x th s).
Proof.
  intros Lx Lt Ls NM. unfold euler_inc. assert (RA := HA Lx Lt (@times_rescaled d x ltac:(congruence)) (@times_rescaled e th ltac:(congruence))).
  assert (RB := HB Lx Lt (@times_rescaled d x ltac:(congruence)) (@times_rescaled e th ltac:(congruence))). rewrite (@mv_rescaled _ _ nv np e s c RB) by auto.
  assert (NM' := regular_rescaled RA NM). set (M := A x th) in *. set (M' := A' (times d x) (times e th)) in *. set (b := mv (B x th) s).
  assert (Lb : length b = nv) by (unfold b; rewrite mv_length; destruct RB as ((Q & _) & _); exact Q).
  destruct (@HS M (proj1 RA) NM b Lb) as (L1 & E1). destruct (@HS' M' (proj1 (proj2 RA)) NM' (vscale c b)) as (L2 & E2); [now rewrite vscale_length|].
  assert (LN : forall v, length (vneg v) = length v) by (intros; apply map_length). split; [now rewrite LN|]. rewrite times_vneg. f_equal. apply NM'; [exact L2|rewrite times_length; congruence|].
  rewrite E2, (@mv_rescaled M M' nv nv d _ c RA) by auto. now rewrite E1.
Qed.

Lemma loop_rescaled s : length s = np -> forall k x th, length x = nv -> length th = np ->
  (forall row, In row ((x ++ th) :: numba_loop (numba_f_step (euler_inc A B solve) nv) s k (x ++ th)) -> nonsingular (A (firstn nv row) (skipn nv row)) nv) ->
  Forall2 (rescaled (d ++ e)) (numba_loop (numba_f_step (euler_inc A B solve) nv) s k (x ++ th))
    (numba_loop (numba_f_step (euler_inc A' B' solve') nv) (times e s) k (times d x ++ times e th)).
Proof.
  intros Ls. induction k as [|k IH]; intros x th Lx Lt RG; cbn [numba_loop]; [constructor|].
  assert (Cut : forall u v : list R, length u = nv -> firstn nv (u ++ v) = u /\ skipn nv (u ++ v) = v).
  { intros u v <-. rewrite firstn_app, skipn_app, firstn_all, skipn_all, Nat.sub_diag. cbn. now rewrite app_nil_r. }
  assert (NM : nonsingular (A x th) nv). { specialize (RG (x ++ th) (or_introl eq_refl)). destruct (Cut x th Lx) as (E1 & E2). now rewrite E1, E2 in RG. }
  destruct (@inc_units x th s Lx Lt Ls NM) as (Li & Ei). unfold numba_f_step in *. cbn [numba_loop] in RG. destruct (Cut x th Lx) as (E1 & E2). rewrite E1, E2 in *.
  destruct (Cut (times d x) (times e th)) as (E3 & E4); [rewrite times_length; congruence|]. rewrite E3, E4, Ei. set (dx := euler_inc A B solve x th s) in *.
  assert (AA : forall u u' v v' : list R, length u = length v -> vadd (u ++ u') (v ++ v') = vadd u v ++ vadd u' v').
  { clear. induction u as [|a u IHu]; intros u' [|b v] v' L; try discriminate; [reflexivity|]. unfold vadd, vmap2 in *. cbn in *. f_equal. apply IHu. now injection L. }
  rewrite !AA in * by (try rewrite !times_length; congruence). rewrite <- !times_vadd by congruence.
  assert (Lx1 : length (vadd x dx) = nv) by (rewrite vadd_length; congruence). assert (Lt1 : length (vadd th s) = np) by (rewrite vadd_length; congruence).
  constructor; [rewrite <- times_app by congruence; apply times_rescaled; rewrite !app_length; congruence|]. apply IH; auto. intros row Hr. apply RG. right. exact Hr.
Qed.
End Euler.

Lemma c128_euler__p :
  forall (A A' B B' : list R -> list R -> list (list R)) (solve solve' : list (list R) -> list R -> list R) (nv np : nat) (d e : list R) (c : R)
         (x0 th0 th1 x0' th0' th1' : list R) (n : nat),
  length d = nv -> length e = np -> Forall (fun u => u <> 0) d -> c <> 0 ->
  (forall x th x' th', length x = nv -> length th = np -> rescaled d x x' -> rescaled e th th' ->
     rescaled_matrix d c nv nv (A x th) (A' x' th') /\ rescaled_matrix e c nv np (B x th) (B' x' th')) ->
  right_solver solve nv -> right_solver solve' nv ->
  length x0 = nv -> length th0 = np -> length th1 = np -> rescaled d x0 x0' -> rescaled e th0 th0' -> rescaled e th1 th1' ->
  (forall row, In row (euler_approx (numba_f_step (euler_inc A B solve) nv) x0 th0 th1 n) -> nonsingular (A (firstn nv row) (skipn nv row)) nv) ->
  Forall2 (rescaled (d ++ e)) (euler_approx (numba_f_step (euler_inc A B solve) nv) x0 th0 th1 n)
    (euler_approx (numba_f_step (euler_inc A' B' solve') nv) x0' th0' th1' n).
Proof.
  intros A A' B B' solve solve' nv np d e c x0 th0 th1 x0' th0' th1' n Ld Le ND C0 H HS HS' L1 L2 L3 R1 R2 R3 RG.
  apply rescaled_times in R1; [|congruence]. apply rescaled_times in R2; [|congruence]. apply rescaled_times in R3; [|congruence]. subst x0' th0' th1'.
  unfold euler_approx in *. rewrite <- times_vsub, <- times_vdiv by congruence.
  constructor; [rewrite <- times_app by congruence; apply times_rescaled; rewrite !app_length; congruence|].
  apply loop_rescaled with (np := np) (c := c); auto; try (intros; apply H; auto). unfold vdiv. rewrite map_length, vsub_length; congruence.
Qed.
