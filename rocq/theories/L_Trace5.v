(** C118. *)
From Coq Require Import Reals Lra.
From Verif Require Import Py PyStr M_SymExpr M_Calculus S_Calculus L_Calculus S_Reduce M_Lambdify S_Lambdify M_NumbaStep L_NumbaStep
  M_Euler S_Euler S_Converge L_Euler L_Euler3 L_Converge L_Converge2 M_NumbaEuler S_Trace L_Trace L_Trace2 L_Trace3 L_Trace4.
Local Open Scope string_scope.
Local Open Scope list_scope.
Local Open Scope R_scope.

Section Path.
Context (vs ps : list string) (eqs : list sexpr) (solve : list (list R) -> list R -> list R) (th0 th1 : list R) (X : R -> list R).
Hypothesis ND : NoDup (vs ++ ps).
Hypothesis SQ : length eqs = length vs.
Hypothesis T0 : length th0 = length ps.
Hypothesis T1 : length th1 = length ps.
Hypothesis RS : right_solver solve (length vs).
Hypothesis SP : solution_path vs ps eqs th0 th1 X.
Notation A := (Am vs ps eqs).
Notation B := (Bm vs ps eqs).
Notation F := (Fm vs ps eqs).
Definition Xd (t : R) : list R := euler_inc A B solve (X t) (line th0 th1 t) (vsub th1 th0).

Lemma line_len t : length (line th0 th1 t) = length ps. Proof. rewrite line_length; congruence. Qed.
Lemma path_regular t : 0 <= t <= 1 -> nonsingular (A (X t) (line th0 th1 t)) (length vs).
Proof.
  intros Ht. destruct (so_regular SP Ht) as (J & D & N). rewrite (@derivatives_unique vs ps eqs (X t) (line th0 th1 t) J (so_smooth SP Ht) D) in N. exact N.
Qed.
Lemma path_differentiable t : 0 <= t <= 1 -> differentiable F (A (X t) (line th0 th1 t)) (B (X t) (line th0 th1 t)) (X t) (line th0 th1 t).
Proof. intros Ht. apply model_differentiable; auto using line_len; [apply (so_length SP Ht)|apply (so_smooth SP Ht)]. Qed.
Lemma path_zeros t : 0 <= t <= 1 -> F (X t) (line th0 th1 t) = zeros (length vs).
Proof.
  intros Ht. pose proof (so_solution SP Ht) as H. unfold Fm. assert (L : length (values_at vs ps eqs (X t) (line th0 th1 t)) = length vs) by (unfold values_at; now rewrite map_length).
  rewrite <- L. clear L. induction H as [|r l -> _ IH]; [reflexivity|]. cbn. unfold zeros in *. cbn. now rewrite IH at 1.
Qed.
Lemma Xd_spec t : 0 <= t <= 1 -> length (Xd t) = length vs /\ mv (A (X t) (line th0 th1 t)) (Xd t) = vneg (mv (B (X t) (line th0 th1 t)) (vsub th1 th0)).
Proof.
  intros Ht. destruct (RS (Am_matrix vs ps eqs SQ (X t) (line th0 th1 t)) (path_regular Ht) (mv (B (X t) (line th0 th1 t)) (vsub th1 th0))) as (L & E).
  { rewrite mv_length. now apply Bm_matrix. }
  unfold Xd, euler_inc. rewrite vneg_length, mv_vneg, E. auto.
Qed.
Lemma finite_choice (P : nat -> R -> Prop) n : (forall i, (i < n)%nat -> exists d, P i d) -> exists l, length l = n /\ forall i, (i < n)%nat -> P i (nth i l 0).
Proof.
  induction n as [|n IH]; intros H; [exists []; split; [reflexivity|intros; lia]|].
  destruct IH as (l & L & Hl); [intros; apply H; lia|]. destruct (H n ltac:(lia)) as (d & Hd). exists (l ++ [d]). split; [rewrite app_length; cbn; lia|].
  intros i Hi. destruct (Nat.eq_dec i n) as [->|N].
  - rewrite app_nth2, L, Nat.sub_diag by lia. exact Hd.
  - rewrite app_nth1 by lia. apply Hl. lia.
Qed.
Lemma Xd_derivative t i : 0 <= t <= 1 -> (i < length vs)%nat -> derivable_pt_lim (fun s => nth i (X s) 0) t (nth i (Xd t) 0).
Proof.
  intros Ht Hi. destruct (@finite_choice (fun i d => derivable_pt_lim (fun s => nth i (X s) 0) t d) (length vs)) as (d & Ld & Hd).
  { intros j Hj. now apply (so_derivable SP). }
  destruct (Xd_spec Ht) as (L & E). replace (Xd t) with d; [now apply Hd|]. apply (path_regular Ht); auto.
  rewrite E. apply (@path_direction F (A (X t) (line th0 th1 t)) (B (X t) (line th0 th1 t)) (length vs) (length ps) th0 th1 X d t); auto using path_differentiable, path_zeros, Am_matrix, Bm_matrix.
  intros s Hs. apply (so_length SP Hs).
Qed.

Lemma written_path : exists r K, 0 < r /\ 0 <= K /\ equilibrium_path F A B solve (length vs) (length ps) (X 0) th0 th1 X Xd r K K.
Proof.
  destruct (@around_path A B solve (length vs) (length ps) th0 th1 X Xd) as (r & K & Hr & HK & P1 & P2 & P3); auto using Am_matrix, Bm_matrix, Xd_derivative, path_regular.
  - intros t Ht. split; [apply (so_length SP Ht)|apply (Xd_spec Ht)].
  - intros t Ht. apply model_lip; auto using line_len; [apply (so_length SP Ht)|apply (so_smooth SP Ht)].
  - intros t Ht. apply (Xd_spec Ht).
  - exists r, K. split; auto. split; auto. constructor; auto using Xd_derivative, path_differentiable, path_zeros.
    + intros t Ht. split; [apply (so_length SP Ht)|apply (Xd_spec Ht)].
    + intros t x Ht W. assert (N := P1 t x Ht W). repeat split; auto; try apply Am_matrix; try apply Bm_matrix; auto; now apply RS; auto using Am_matrix.
Qed.

(** Smooth around the path *)
Lemma path_smooth : exists r, 0 < r /\ forall t x, 0 <= t <= 1 -> within r x (X t) -> Forall (smooth (state_of (vs ++ ps) (x ++ line th0 th1 t)) no_arrays) eqs.
Proof.
  destruct (@unit_interval (fun t r _ => forall x, within r x (X t) -> Forall (smooth (state_of (vs ++ ps) (x ++ line th0 th1 t)) no_arrays) eqs)) as (r & _ & Hr & _ & H).
  - intros t r K r' K' H (_ & Hr) _ x W. apply H. eapply within_mono; eauto.
  - intros t Ht. destruct (@model_smooth_near vs ps eqs (X t) (line th0 th1 t) (so_length SP Ht) (line_len t) (so_smooth SP Ht)) as (r & Hr & H).
    destruct (@path_near (length vs) (length ps) th0 th1 X Xd T0 T1) with (t := t) (r := r / 2) as (d & Hd & PN); auto using Xd_derivative; [|lra|].
    { intros s Hs. split; [apply (so_length SP Hs)|apply (Xd_spec Hs)]. }
    exists d, (r / 2), 0. split; auto. split; [lra|]. split; [lra|]. intros s Hs Ds x W. destruct (PN s Hs Ds) as (W1 & W2). apply H.
    + eapply within_mono; [eapply within_trans; [exact W|exact W1]|lra].
    + eapply within_mono; [exact W2|lra].
  - exists r. split; auto.
Qed.

(** The residuals near the end *)
Lemma end_values : exists r K, 0 < r /\ 0 <= K /\ forall x e, 0 <= e <= r -> within e x (X 1) -> within (K * e) (values_at vs ps eqs x th1) (zeros (length vs)).
Proof.
  assert (I1 : 0 <= 1 <= 1) by lra. assert (TT : length th0 = length th1) by congruence.
  pose proof (so_smooth SP I1) as S. rewrite (line_1 _ _ TT), Forall_forall in S. pose proof (path_zeros I1) as Z. rewrite (line_1 _ _ TT) in Z.
  destruct (@common_loclip sexpr (fun e v => val v no_arrays e) (state_of (vs ++ ps) (X 1 ++ th1)) eqs) as (r & K & Hr & HK & H).
  { intros e He. apply loclip_val. auto. }
  exists r, K. split; auto. split; auto. intros x e He W. rewrite <- Z. split; [unfold Fm, values_at; now rewrite !map_length|]. intros i Hi.
  unfold Fm, values_at in *. rewrite map_length in Hi. destruct (nth_error eqs i) as [q|] eqn:E; [|apply nth_error_None in E; lia].
  rewrite (nth_error_nth _ i 0 (x := val (state_of (vs ++ ps) (x ++ th1)) no_arrays q)) by (rewrite nth_error_map, E; reflexivity).
  rewrite (nth_error_nth _ i 0 (x := val (state_of (vs ++ ps) (X 1 ++ th1)) no_arrays q)) by (rewrite nth_error_map, E; reflexivity).
  assert (Lx : length x = length vs) by (destruct W as (W & _); rewrite W; apply (so_length SP I1)).
  assert (W1 : within e th1 th1) by (apply within_refl; lra).
  apply (H q); [eapply nth_error_In; eauto| | |].
  - apply st_close; auto; [lra|eapply within_mono; [exact W|lra]|apply within_refl; lra].
  - apply close_refl. lra.
  - apply st_close; auto. lra.
Qed.
End Path.

(** The loop with a step that does not raise along the way *)
Lemma euler_rows_path f inc d x0 t0 nv np n :
  length d = np ->
  (forall k, (k <= n)%nat -> length (fst (path inc d x0 t0 k)) = nv /\ length (snd (path inc d x0 t0 k)) = np) ->
  (forall k, (k < n)%nat -> let p := path inc d x0 t0 k in f d (fst p ++ snd p) = Ok (inc (fst p) (snd p) d) /\ length (inc (fst p) (snd p) d) = nv) ->
  forall k j, (j + k <= n)%nat ->
  euler_rows f d k (fst (path inc d x0 t0 j) ++ snd (path inc d x0 t0 j)) = Ok (map (fun i => fst (path inc d x0 t0 i) ++ snd (path inc d x0 t0 i)) (seq (S j) k)).
Proof.
  intros Ld HL HF. induction k as [|k IH]; intros j Hj; [reflexivity|]. cbn [euler_rows seq map].
  destruct (HF j ltac:(lia)) as (E & Li). destruct (HL j ltac:(lia)) as (L1 & L2). rewrite E. cbn [bind].
  unfold checked_add. rewrite !app_length, Li, Ld, L1, L2, Nat.eqb_refl. cbn [bind].
  assert (EQ : vadd (fst (path inc d x0 t0 j) ++ snd (path inc d x0 t0 j)) (inc (fst (path inc d x0 t0 j)) (snd (path inc d x0 t0 j)) d ++ d) =
    fst (path inc d x0 t0 (S j)) ++ snd (path inc d x0 t0 (S j))).
  { unfold vadd at 1. rewrite vmap2_app by congruence. reflexivity. }
  rewrite EQ, (IH (S j)) by lia. reflexivity.
Qed.

Lemma c118_rate__p :
  forall sub_into dict_order cse linalg_solve, walks_set dict_order -> eliminates cse ->
  forall variables parameters equations theta0 theta1 X,
    let names := variables ++ parameters in
    NoDup names -> (forall n m, In n names -> In m names -> n <> (m ++ "_0")%string) ->
    (forall n, In n names -> is_name n = true) -> (forall n, In n parameters -> ~ In n reserved) ->
    variables <> [] -> length equations = length variables ->
    (forall e, In e equations -> indexed_exprs e = [] /\ forall s, In s (atoms e) -> In s names) ->
    length theta0 = length parameters -> length theta1 = length parameters ->
    right_solver linalg_solve (length variables) -> solution_path variables parameters equations theta0 theta1 X ->
    exists C N, 0 <= C /\ forall n, (N <= n)%nat -> (0 < n)%nat /\
      exists rows, numba_euler sub_into dict_order cse linalg_solve false variables parameters equations (X 0) theta0 theta1 n = Ok rows /\
        length rows = S n /\
        (forall k, (k <= n)%nat -> exists x, nth_error rows k = Some (x ++ line theta0 theta1 (INR k / INR n)) /\ within (C / INR n) x (X (INR k / INR n))) /\
        exists x, nth_error rows n = Some (x ++ theta1) /\ within (C / INR n) x (X 1) /\
          within (C / INR n) (values_at variables parameters equations x theta1) (zeros (length variables)).
Proof.
  intros si dord cse solve DO EL vs ps eqs th0 th1 X names ND NC IN RV VN SQ EQ T0 T1 RS SP.
  destruct (written_path ND SQ T0 T1 RS SP) as (r & K & Hr & HK & EP).
  destruct (path_smooth ND SQ T0 T1 RS SP) as (r1 & Hr1 & SM). destruct (end_values SQ T0 T1 SP) as (r2 & K2 & Hr2 & HK2 & EV).
  assert (TT : length th0 = length th1) by congruence.
  set (E := 3 * K * exp (2 * K)). assert (HE : 0 <= E) by (unfold E; pose proof (exp_pos (2 * K)); nra).
  destruct (large_number (1 + K + 12 * K * exp (2 * K) / r + E / r1 + E / r2)) as (N & HN).
  assert (P1 : 0 <= 12 * K * exp (2 * K) / r) by (unfold Rdiv; apply Rmult_le_pos; [pose proof (exp_pos (2 * K)); nra|left; now apply Rinv_0_lt_compat]).
  assert (P2 : 0 <= E / r1) by (unfold Rdiv; apply Rmult_le_pos; [auto|left; now apply Rinv_0_lt_compat]).
  assert (P3 : 0 <= E / r2) by (unfold Rdiv; apply Rmult_le_pos; [auto|left; now apply Rinv_0_lt_compat]).
  assert (HK2E : 0 <= K2 * E) by (apply Rmult_le_pos; auto).
  exists (E + K2 * E), N. split; [lra|]. intros n Hn. specialize (HN n Hn).
  assert (N1 : (0 < n)%nat) by (destruct n; [cbn in HN; lra|lia]). split; auto.
  assert (Np : 0 < INR n) by (now apply lt_0_INR).
  assert (Hi : 0 < / INR n) by now apply Rinv_0_lt_compat.
  assert (B1 : 12 * K * exp (2 * K) <= r * INR n).
  { apply Rmult_le_reg_r with (/ r); [now apply Rinv_0_lt_compat|]. replace (r * INR n * / r) with (INR n) by (field; lra). unfold Rdiv in *. lra. }
  assert (Bd : forall q, 0 < q -> 0 <= E / q -> E / q <= INR n -> E / INR n <= q).
  { intros q Hq _ H. apply Rmult_le_reg_r with (INR n); [auto|]. unfold Rdiv at 1. rewrite Rmult_assoc, Rinv_l by lra.
    apply Rmult_le_compat_l with (r := q) in H; [|lra]. replace (q * (E / q)) with E in H by (field; lra). lra. }
  assert (B2 : E / INR n <= r1) by (apply Bd; auto; lra). assert (B3 : E / INR n <= r2) by (apply Bd; auto; lra). clear Bd.
  set (d := vdiv (vsub th1 th0) n). set (inc := euler_inc (Am vs ps eqs) (Bm vs ps eqs) solve).
  pose proof (all_steps EP Hr HK HK T0 T1 false N1 ltac:(lra) B1) as ST. cbn [step_inc] in ST. fold d inc E in ST.
  assert (Kn : forall k, (k <= n)%nat -> 0 <= INR k / INR n <= 1).
  { intros k Hk. apply le_INR in Hk. pose proof (pos_INR k). unfold Rdiv. split; [apply Rmult_le_pos; lra|]. apply Rmult_le_reg_r with (INR n); [auto|]. rewrite Rmult_assoc, Rinv_l by lra. lra. }
  assert (Ld : length d = length ps) by (unfold d; rewrite vdiv_length, vsub_length; congruence).
  assert (LP : forall k, (k <= n)%nat -> length (fst (path inc d (X 0) th0 k)) = length vs /\ length (snd (path inc d (X 0) th0 k)) = length ps).
  { intros k Hk. destruct (ST k Hk) as ((L & _) & S). rewrite L, S. split; [apply (so_length SP (Kn k Hk))|]. rewrite line_length; congruence. }
  assert (HF : forall k, (k < n)%nat -> let p := path inc d (X 0) th0 k in f_dX si dord cse solve vs ps eqs d (fst p ++ snd p) = Ok (inc (fst p) (snd p) d) /\ length (inc (fst p) (snd p) d) = length vs).
  { intros k Hk p. destruct (ST k ltac:(lia)) as (W & S). destruct (LP k ltac:(lia)) as (L1 & L2). fold p in W, S, L1, L2.
    assert (I := Kn k ltac:(lia)). split.
    - assert (SF : Forall (smooth (state_of (vs ++ ps) (fst p ++ snd p)) no_arrays) eqs).
      { rewrite S. apply SM; auto. eapply within_mono; [exact W|exact B2]. }
      rewrite Forall_forall in SF.
      rewrite (@c41_step__p si dord cse solve DO EL vs ps eqs (fst p) (snd p) d) with (p := no_arrays) (D := fun x e => val (state_of (vs ++ ps) (fst p ++ snd p)) no_arrays (diff x e)); auto.
      + unfold inc, euler_inc, Am, Bm, vneg. do 3 f_equal. unfold mv. rewrite map_map. apply map_ext. intros e. apply (@dot_combine string (fun x => val (state_of (vs ++ ps) (fst p ++ snd p)) no_arrays (diff x e))).
      + intros Q. rewrite Q in SQ. destruct vs; [auto|discriminate].
      + intros e x He Hx. apply deriv_val. auto.
    - unfold inc, euler_inc. rewrite vneg_length.
      destruct (ep_systems EP I (x := fst p)) as (_ & _ & SO & _).
      + eapply within_mono; [exact W|]. unfold E. apply Rmult_le_reg_r with (INR n); [auto|]. unfold Rdiv. rewrite Rmult_assoc, Rinv_l by lra. pose proof (exp_pos (2 * K)). nra.
      + rewrite S. apply SO. rewrite mv_length. now apply Bm_matrix. }
  exists (map (fun i => fst (path inc d (X 0) th0 i) ++ snd (path inc d (X 0) th0 i)) (seq 0 (S n))).
  assert (NE : forall k, (k <= n)%nat -> nth_error (map (fun i => fst (path inc d (X 0) th0 i) ++ snd (path inc d (X 0) th0 i)) (seq 0 (S n))) k = Some (fst (path inc d (X 0) th0 k) ++ snd (path inc d (X 0) th0 k))).
  { intros k Hk. rewrite nth_error_map. assert (Q : nth_error (seq 0 (S n)) k = Some k).
    { rewrite (nth_error_nth' _ 0%nat) by (rewrite seq_length; lia). now rewrite seq_nth by lia. }
    now rewrite Q. }
  assert (CE : E / INR n <= (E + K2 * E) / INR n) by (unfold Rdiv; apply Rmult_le_compat_r; lra).
  split; [|split; [|split]].
  - unfold numba_euler. rewrite T0, T1, Nat.eqb_refl. fold d.
    pose proof (@euler_rows_path (f_dX si dord cse solve vs ps eqs) inc d (X 0) th0 (length vs) (length ps) n Ld LP HF n 0%nat ltac:(lia)) as RW.
    cbn [path fst snd] in RW. rewrite RW. cbn [bind]. reflexivity.
  - now rewrite map_length, seq_length.
  - intros k Hk. destruct (ST k Hk) as (W & S). exists (fst (path inc d (X 0) th0 k)). split; [rewrite NE by auto; now rewrite <- S|]. eapply within_mono; eauto.
  - destruct (ST n ltac:(lia)) as (W & S). replace (INR n / INR n) with 1 in W, S by (field; lra). rewrite line_1 in S by auto.
    exists (fst (path inc d (X 0) th0 n)). split; [rewrite NE by auto; now rewrite <- S at 1|]. split; [eapply within_mono; eauto|].
    eapply within_mono; [apply (EV _ (E / INR n)); [split; [unfold Rdiv; apply Rmult_le_pos; lra|auto]|exact W]|]. unfold Rdiv. rewrite <- Rmult_assoc. apply Rmult_le_compat_r; lra.
Qed.

Lemma c118_limit__p :
  forall sub_into dict_order cse linalg_solve, walks_set dict_order -> eliminates cse ->
  forall variables parameters equations theta0 theta1 X,
    let names := variables ++ parameters in
    NoDup names -> (forall n m, In n names -> In m names -> n <> (m ++ "_0")%string) ->
    (forall n, In n names -> is_name n = true) -> (forall n, In n parameters -> ~ In n reserved) ->
    variables <> [] -> length equations = length variables ->
    (forall e, In e equations -> indexed_exprs e = [] /\ forall s, In s (atoms e) -> In s names) ->
    length theta0 = length parameters -> length theta1 = length parameters ->
    right_solver linalg_solve (length variables) -> solution_path variables parameters equations theta0 theta1 X ->
    forall eps, 0 < eps -> exists N, forall n, (N <= n)%nat ->
      exists rows, numba_euler sub_into dict_order cse linalg_solve false variables parameters equations (X 0) theta0 theta1 n = Ok rows /\
        length rows = S n /\
        (forall k, (k <= n)%nat -> exists x, nth_error rows k = Some (x ++ line theta0 theta1 (INR k / INR n)) /\ within eps x (X (INR k / INR n))) /\
        exists x, nth_error rows n = Some (x ++ theta1) /\ within eps x (X 1) /\
          Forall (fun v => Rabs v <= eps) (values_at variables parameters equations x theta1).
Proof.
  intros si dord cse solve DO EL vs ps eqs th0 th1 X names ND NC IN RV VN SQ EQ T0 T1 RS SP eps He.
  destruct (@c118_rate__p si dord cse solve DO EL vs ps eqs th0 th1 X ND NC IN RV VN SQ EQ T0 T1 RS SP) as (C & N & HC & H).
  destruct (large_number (C / eps)) as (N' & HN). exists (N + N')%nat. intros n Hn. destruct (H n ltac:(lia)) as (N0 & rows & E & L & HR & x & Ex & Wx & Wv).
  assert (Np : 0 < INR n) by (now apply lt_0_INR). specialize (HN n ltac:(lia)).
  assert (CE : C / INR n <= eps).
  { apply Rmult_le_reg_r with (INR n); [auto|]. unfold Rdiv at 1. rewrite Rmult_assoc, Rinv_l by lra.
    apply Rmult_le_compat_l with (r := eps) in HN; [|lra]. replace (eps * (C / eps)) with C in HN by (field; lra). lra. }
  exists rows. split; auto. split; auto. split.
  - intros k Hk. destruct (HR k Hk) as (y & Ey & Wy). exists y. split; auto. eapply within_mono; eauto.
  - exists x. split; auto. split; [eapply within_mono; eauto|]. apply Forall_forall. intros v Hv. apply In_nth_error in Hv as (i & Hi).
    destruct Wv as (Lv & Wv). assert (i < length (values_at vs ps eqs x th1))%nat as Li by (apply nth_error_Some; congruence). specialize (Wv i Li).
    rewrite nth_zeros, Rminus_0_r, (nth_error_nth _ _ _ Hi) in Wv. lra.
Qed.
