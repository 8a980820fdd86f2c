(** Lemmas for C120: solutions near a regular solution when the parameters
    change. *)
From Coq Require Import Reals Lra.
From Verif Require Import Py PyStr NdArray M_SymExpr M_Calculus S_Calculus L_Calculus S_Reduce M_Euler M_Newton S_Euler S_Converge S_Newton S_Kantorovich
  M_Utilities S_Layout L_Utilities L_Layout L_Wrappers L_Euler L_Euler2 L_Euler3 L_Newton L_Converge L_Converge2 L_Kantorovich L_Kantorovich2 S_Trace L_Trace L_Trace2 L_Trace3 L_Trace4 S_NewtonNear L_NewtonNear L_NewtonNear2.
Local Open Scope list_scope.
Local Open Scope R_scope.

Lemma dist_pos u v : 0 <= dist1 u v.
Proof. apply abs_pos. Qed.
Lemma dist_zero u v : length u = length v -> dist1 u v <= 0 -> u = v.
Proof.
  intros E D. apply vec_ext; auto. intros i Hi. assert (H := entry_le (vsub u v) i). fold (dist1 u v) in H. rewrite nth_vsub in H by auto.
  destruct (Req_dec (nth i u 0 - nth i v 0) 0) as [|N]; [lra|]. apply Rabs_pos_lt in N. lra.
Qed.
Lemma dist_zeros v n : length v = n -> dist1 v (zeros n) = abs_sum v.
Proof.
  intros Lv. unfold dist1. f_equal. apply vec_ext; [rewrite vsub_length; auto; now rewrite zeros_length|]. intros i _.
  rewrite nth_vsub, nth_zeros by (now rewrite zeros_length). ring.
Qed.
Lemma zeros_add v n : length v = n -> vadd (zeros n) v = v.
Proof.
  intros Lv. apply vec_ext; [rewrite vadd_length; rewrite zeros_length; auto|]. intros i _. rewrite nth_vadd, nth_zeros by (rewrite zeros_length; auto). ring.
Qed.
Lemma all_zeros l : Forall (fun r => r = 0) l -> l = zeros (length l).
Proof. intros Z. induction Z as [|a l -> _ IH]; [reflexivity|]. cbn [length]. rewrite IH at 1. reflexivity. Qed.

Section Small.
Context (vs ps : list string) (eqs : list sexpr) (th xs : list R) (solve : list (list R) -> list R -> res (list R)).
Hypothesis ND : NoDup (vs ++ ps).
Hypothesis SQ : length eqs = length vs.
Hypothesis LT : length th = length ps.
Hypothesis LX : length xs = length vs.
Hypothesis RS : regular_solution vs ps eqs xs th.
Hypothesis HS : right_solver_res solve (length vs).
Notation n := (length vs).
Notation np := (length ps).
Notation st x t := (state_of (vs ++ ps) (x ++ t)).
Notation f x t := (values_at vs ps eqs x t).
Notation A x t := (Am vs ps eqs x t).

Lemma xs_zeros : f xs th = zeros n.
Proof. rewrite (all_zeros (rs_solution RS)), f_length; auto. Qed.

Context (r beta K L : R).
Hypothesis Hr : 0 < r.
Hypothesis Hb : 1 <= beta.
Hypothesis HK : 1 <= K.
Hypothesis HL : 0 <= L.
Hypothesis NP : forall x t, length x = n -> length t = np -> dist1 x xs <= r -> dist1 t th <= r ->
    Forall (smooth (st x t) no_arrays) eqs /\ nonsingular (A x t) n /\
    (forall u, length u = n -> abs_sum u <= beta * abs_sum (mv (A x t) u)) /\
    (forall y t', length y = n -> length t' = np -> dist1 y xs <= r -> dist1 t' th <= r -> dist1 (f y t') (f x t) <= L * (dist1 y x + dist1 t' t)) /\
    (forall y, length y = n -> dist1 y xs <= r -> dist1 (f y t) (vadd (f x t) (mv (A x t) (vsub y x))) <= K * dist1 y x ^ 2).

(** Near a solution the residuals bound the distance. *)
Lemma residual_bound x1 t x : length x1 = n -> length x = n -> length t = np -> dist1 x1 xs <= r -> dist1 x xs <= r -> dist1 t th <= r ->
  2 * (beta * K) * (dist1 x1 xs + dist1 x xs) <= 1 -> f x1 t = zeros n -> dist1 x x1 <= 2 * beta * abs_sum (f x t).
Proof.
  intros L1 L2 Lt D1 D2 Dt HB Z. destruct (NP x1 t L1 Lt D1 Dt) as (_ & _ & IB & _ & TA). specialize (TA x L2 D2). rewrite Z in TA.
  set (w := mv (A x1 t) (vsub x x1)) in *. assert (Lw : length w = n) by (unfold w; rewrite mv_length; apply Am_matrix; auto).
  rewrite zeros_add in TA by auto. assert (Dw : dist1 x x1 <= beta * abs_sum w) by (apply IB; rewrite vsub_length; congruence).
  set (d := dist1 x x1) in *. assert (Hd : 0 <= d) by apply dist_pos. set (v := abs_sum (f x t)).
  assert (Aw : abs_sum w <= K * d ^ 2 + v).
  { rewrite dist_sym in TA. eapply Rle_trans; [apply (@abs_of_dist w (f x t)); rewrite f_length; auto|]. fold v. lra. }
  assert (Dq : d <= dist1 x1 xs + dist1 x xs).
  { unfold d. eapply Rle_trans; [apply (@dist_tri x xs x1); congruence|]. rewrite (dist_sym xs x1). lra. }
  assert (BK : beta * K * d <= 1 / 2).
  { assert (beta * K * d <= beta * K * (dist1 x1 xs + dist1 x xs)) by (apply Rmult_le_compat_l; [apply Rmult_le_pos; lra|exact Dq]). lra. }
  assert (X1 : beta * abs_sum w <= beta * (K * d ^ 2 + v)) by (apply Rmult_le_compat_l; lra).
  assert (X2 : beta * (K * d ^ 2 + v) = (beta * K * d) * d + beta * v) by ring.
  assert (X3 : (beta * K * d) * d <= 1 / 2 * d) by (apply Rmult_le_compat_r; lra). lra.
Qed.

(** Solutions move at most in proportion to the parameters. *)
Lemma solution_lipschitz x1 t x2 t2 : length x1 = n -> length x2 = n -> length t = np -> length t2 = np -> dist1 x1 xs <= r -> dist1 x2 xs <= r -> dist1 t th <= r -> dist1 t2 th <= r ->
  2 * (beta * K) * (dist1 x1 xs + dist1 x2 xs) <= 1 -> f x1 t = zeros n -> f x2 t2 = zeros n -> dist1 x2 x1 <= 2 * beta * L * dist1 t2 t.
Proof.
  intros L1 L2 Lt Lt2 D1 D2 Dt Dt2 HB Z1 Z2. eapply Rle_trans; [apply residual_bound with (t := t); auto|].
  destruct (NP x2 t2 L2 Lt2 D2 Dt2) as (_ & _ & _ & LI & _). specialize (LI x2 t L2 Lt D2 Dt). rewrite Z2, dist_zeros, dist_self, Rplus_0_l in LI by (apply f_length; auto).
  rewrite (dist_sym t2 t). replace (2 * beta * L * dist1 t t2) with (2 * beta * (L * dist1 t t2)) by ring. apply Rmult_le_compat_l; lra.
Qed.

Lemma solution_exists t rho : length t = np -> dist1 t th <= r -> 0 < rho <= r -> 2 * (K * beta ^ 2 * (L * dist1 t th)) <= 1 -> 2 * beta * (L * dist1 t th) <= rho ->
  exists x1, length x1 = n /\ dist1 x1 xs <= rho /\ f x1 t = zeros n.
Proof.
  intros Lt Dt Hrho C1 C2. set (g := fun y => match solve (A y t) (f y t) with Ok s => s | Err _ => [] end).
  assert (UL : abs_sum (f xs t) <= L * dist1 t th).
  { destruct (NP xs th LX LT ltac:(rewrite dist_self; lra) ltac:(rewrite dist_self; lra)) as (_ & _ & _ & LI & _).
    specialize (LI xs t LX Lt ltac:(rewrite dist_self; lra) Dt). rewrite xs_zeros, dist_zeros, dist_self, Rplus_0_l in LI by (apply f_length; auto). exact LI. }
  assert (U0 := abs_pos (f xs t)).
  destruct (@solution_near (fun y => f y t) g (fun y => A y t) n xs rho beta K) with (u0 := L * dist1 t th) (y := xs) as (z & (Lz & Dz) & Z & _); auto; try lra.
  - intros y (Ly & Dy). destruct (NP y t Ly Lt ltac:(lra) Dt) as (_ & NO & IB & _). destruct (@HS (A y t) (f y t)) as (s & E & Ls & Es); auto using Am_matrix, f_length.
    unfold g. rewrite E. split; [apply f_length; auto|]. split; [apply Am_matrix; auto|]. split; [auto|]. split; [auto|]. rewrite <- Es at 1. apply IB. auto.
  - intros y z (Ly & Dy) (Lz & Dz). destruct (NP y t Ly Lt ltac:(lra) Dt) as (_ & _ & _ & _ & TA). apply TA; auto. lra.
  - split; [auto|]. rewrite dist_self. split; [|exact UL]. apply Rplus_le_reg_l with 0. rewrite !Rplus_0_l. apply Rmult_le_compat_l; lra.
  - exists z. auto.
Qed.
End Small.

(** *** The Newton solver after a small shock *)
Lemma c120_newton__p :
  forall (F : list (arr R) -> res (list R)) (J : list (arr R) -> res (list (list R)))
         (solve : list (list R) -> list R -> res (list R)) (parameters0 : list (arr R))
         (variables params : list string) (equations : list sexpr) (xs : list (arr R)),
  NoDup (variables ++ params) -> length equations = length variables ->
  length (flat xs) = length variables -> length (flat parameters0) = length params ->
  parameters0 <> [] -> xs <> [] -> Forall (fun a => arr_wf a) xs -> Forall (fun a => arr_wf a) parameters0 ->
  regular_solution variables params equations (flat xs) (flat parameters0) ->
  (forall parameters, map (@ashape R) parameters = map (@ashape R) parameters0 -> Forall (fun a => arr_wf a) parameters ->
     computes F J (Some parameters) variables params equations (map (@ashape R) xs)) ->
  right_solver_res solve (length variables) ->
  exists rho delta C, 0 < rho /\ 0 < delta /\ 0 <= C /\
    forall parameters, around parameters0 delta parameters ->
    exists x1, around xs rho x1 /\
      Forall (fun r => r = 0) (values_at variables params equations (flat x1) (flat parameters)) /\
      dist1 (flat x1) (flat xs) <= C * dist1 (flat parameters) (flat parameters0) /\
      (forall y, around xs rho y -> Forall (fun r => r = 0) (values_at variables params equations (flat y) (flat parameters)) -> flat y = flat x1) /\
      forall step tol, 0 < step <= 1 -> 0 < tol ->
      exists T, forall x0 max_iter, around xs rho x0 ->
      exists hist, newton_root F J solve x0 (Some parameters) step tol max_iter = Ok hist /\ length hist = max_iter /\
        forall t st, nth_error hist t = Some st ->
          (nconv st = true -> dist1 (flat (nx st)) (flat x1) <= C * tol) /\
          (nconv st = false -> dist1 (flat (nx st)) (flat x1) <= C * (1 - step / 2) ^ S t * dist1 (flat x0) (flat x1)) /\
          ((T <= t)%nat -> nconv st = true).
Proof.
  intros F J solve p0 vs ps eqs xs ND SQ LX LT Hp Hx W Wp RS CO HS.
  set (th := flat p0) in *.
  destruct (@near_point vs ps eqs th (flat xs) solve ND SQ LT LX RS HS) as (r & beta & K & L & Hr & Hb & HK & HL & NP).
  (* radii *)
  set (Q := 4 * beta * L + 1). set (m := Rmin r 1).
  assert (BL : 0 <= beta * L) by (apply Rmult_le_pos; lra). assert (HQ : 1 <= Q) by (unfold Q; lra).
  assert (KB : 0 <= K * beta ^ 2 * L) by (apply Rmult_le_pos; [apply Rmult_le_pos; [lra|apply pow2_ge_0]|auto]).
  assert (BK1 : 1 <= beta * K) by nra. assert (KQ : 0 <= beta * K * Q) by (apply Rmult_le_pos; lra).
  set (S0 := 2 + 4 * (K * beta ^ 2 * L) + 8 * (beta * L) + Q + 4 * (beta * K * Q)).
  assert (HS0 : 0 < S0) by (unfold S0; lra).
  assert (Hm : 0 < m) by (unfold m; apply Rmin_pos; lra). assert (Mr : m <= r) by apply Rmin_l. assert (M1 : m <= 1) by apply Rmin_r.
  set (rho := m / S0). assert (Hrho : 0 < rho) by (unfold rho; now apply Rdiv_lt_0_compat).
  assert (B1 : 2 * rho <= m) by (apply (@scaled_radius _ m S0 rho HS0); [unfold S0; lra|exact Hm|reflexivity]).
  assert (B2 : 4 * (K * beta ^ 2 * L) * rho <= m) by (apply (@scaled_radius _ m S0 rho HS0); [unfold S0; lra|exact Hm|reflexivity]).
  assert (B3 : 8 * (beta * L) * rho <= m) by (apply (@scaled_radius _ m S0 rho HS0); [unfold S0; lra|exact Hm|reflexivity]).
  assert (B4 : Q * rho <= m) by (apply (@scaled_radius _ m S0 rho HS0); [unfold S0; lra|exact Hm|reflexivity]).
  assert (B5 : 4 * (beta * K * Q) * rho <= m) by (apply (@scaled_radius _ m S0 rho HS0); [unfold S0; lra|exact Hm|reflexivity]).
  set (S1 := 1 + 2 * (beta * L)). set (delta := rho / S1). assert (HS1 : 1 <= S1) by (unfold S1; lra).
  assert (Hdelta : 0 < delta) by (unfold delta; apply Rdiv_lt_0_compat; lra).
  assert (D1 : 1 * delta <= rho) by (apply (@scaled_radius _ rho S1 delta); [lra|unfold S1; lra|lra|reflexivity]).
  assert (D2 : 2 * (beta * L) * delta <= rho) by (apply (@scaled_radius _ rho S1 delta); [lra|unfold S1; lra|lra|reflexivity]).
  assert (RR : 2 * (beta * K) * (rho + Q * rho) <= 1).
  { assert (rho <= Q * rho) by nra. assert (beta * K * (rho + Q * rho) <= beta * K * (2 * (Q * rho))) by (apply Rmult_le_compat_l; lra).
    replace (beta * K * (2 * (Q * rho))) with (1 / 2 * (4 * (beta * K * Q) * rho)) in H0 by field. lra. }
  exists rho, delta, (2 * beta * (L + 1)). split; [auto|]. split; [auto|]. split; [apply Rmult_le_pos; lra|].
  intros pa (P1 & P2 & P3). fold th in P3. set (t := flat pa) in *.
  assert (Lt : length t = length ps).
  { rewrite <- LT. destruct (@good_flat (map (@ashape R) p0) pa (conj P1 P2)) as (Lp & _). unfold t. rewrite Lp. symmetry. apply (@good_flat (map (@ashape R) p0) p0 (conj eq_refl Wp)). }
  assert (LF : forall x, map (@ashape R) x = map (@ashape R) xs -> Forall (fun a => arr_wf a) x -> length (flat x) = length vs).
  { intros x E Wx. rewrite <- LX. destruct (@good_flat (map (@ashape R) xs) x (conj E Wx)) as (-> & _). symmetry. apply (@good_flat (map (@ashape R) xs) xs (conj eq_refl W)). }
  set (dt := dist1 t th) in *. assert (Hdt : 0 <= dt) by apply dist_pos. assert (Dt : dt <= r) by lra.
  assert (Ldt : beta * (L * dt) <= beta * L * delta) by (rewrite <- Rmult_assoc; apply Rmult_le_compat_l; lra).
  assert (LdR : L * dt <= L * rho) by (apply Rmult_le_compat_l; lra).
  assert (KBL : K * beta ^ 2 * (L * dt) <= K * beta ^ 2 * (L * rho)) by (apply Rmult_le_compat_l; [apply Rmult_le_pos; [lra|apply pow2_ge_0]|exact LdR]).
  destruct (@solution_exists vs ps eqs th (flat xs) solve SQ LT LX RS HS r beta K L Hr Hb HK NP t rho Lt Dt) as (z & Lz & Dz & Zz); try lra.
  { fold dt. lra. } { fold dt. lra. }
  assert (LZ : length z = total (map (@ashape R) xs)).
  { rewrite Lz, <- LX. apply (@good_flat (map (@ashape R) xs) xs (conj eq_refl W)). }
  destruct (good_chop _ _ LZ) as ((G1 & G2) & Gz). set (x1 := chop (map (@ashape R) xs) z) in *.
  exists x1. rewrite Gz.
  assert (DX : dist1 (flat xs) (flat xs) <= r) by (rewrite dist_self; lra).
  assert (DT : dist1 th th <= r) by (rewrite dist_self; lra).
  assert (RB0 : rho <= Q * rho) by nra.
  split; [split; [exact G1|]; split; [exact G2|]; rewrite Gz; exact Dz|].
  split; [rewrite Zz; clear; induction (length vs); cbn; constructor; auto|].
  split.
  { rewrite dist_sym. eapply Rle_trans; [apply (@residual_bound vs ps eqs th (flat xs) SQ LX r beta K L Hb HK NP z t (flat xs)); auto; try lra|].
    - rewrite dist_self, Rplus_0_r. assert (beta * K * dist1 z (flat xs) <= beta * K * (rho + Q * rho)) by (apply Rmult_le_compat_l; lra). lra.
    - destruct (NP (flat xs) th LX LT DX DT) as (_ & _ & _ & LI & _). specialize (LI (flat xs) t LX Lt DX Dt).
      rewrite (@xs_zeros vs ps eqs th (flat xs) SQ RS), dist_zeros, dist_self, Rplus_0_l in LI by (apply f_length; auto). fold dt in LI.
      replace (2 * beta * (L + 1) * dt) with (2 * beta * (L * dt + dt)) by ring. apply Rmult_le_compat_l; lra. }
  split.
  { intros y (Y1 & Y2 & Y3) Zy. assert (Ly := LF y Y1 Y2). apply dist_zero; [congruence|].
    eapply Rle_trans; [apply (@residual_bound vs ps eqs th (flat xs) SQ LX r beta K L Hb HK NP z t (flat y)); auto; try lra|].
    - assert (beta * K * (dist1 z (flat xs) + dist1 (flat y) (flat xs)) <= beta * K * (rho + Q * rho)) by (apply Rmult_le_compat_l; lra). lra.
    - rewrite (all_zeros Zy), f_length by auto. rewrite <- dist_zeros with (n := length vs) by apply zeros_length. rewrite dist_self. lra. }
  intros step tol Hstep Htol.
  set (U := 2 * (L * rho)). assert (HU : 0 <= U) by (unfold U; assert (0 <= L * rho) by (apply Rmult_le_pos; lra); lra).
  destruct (@small_powers (1 - step / 2) U tol) as (T & HT); [lra|auto|auto|].
  exists T. intros x0 max_iter (A1 & A2 & A3).
  assert (L0 := LF x0 A1 A2).
  assert (Hx0 : x0 <> []) by (intros ->; destruct xs; [congruence|discriminate]).
  assert (Hpa : Some pa <> Some []) by (intros E; injection E as ->; destruct p0; [congruence|discriminate]).
  assert (CX : forall x, map (@ashape R) x = map (@ashape R) xs -> Forall (fun a => arr_wf a) x -> dist1 (flat x) (flat xs) <= r ->
    F (at_point (Some pa) x) = Ok (values_at vs ps eqs (flat x) t) /\ J (at_point (Some pa) x) = Ok (Am vs ps eqs (flat x) t)).
  { intros x E Wx D. destruct (NP (flat x) t (LF x E Wx) Lt D Dt) as (SM & _). destruct (CO pa P1 P2 x E Wx SM) as (E1 & M & E2 & HM). split; [exact E1|].
    rewrite E2. f_equal. now apply derivatives_unique. }
  assert (AR : forall x, around x0 (r / 2) x -> map (@ashape R) x = map (@ashape R) xs /\ Forall (fun a => arr_wf a) x /\ length (flat x) = length vs /\ dist1 (flat x) (flat xs) <= r).
  { intros x (E & Wx & D). assert (E' : map (@ashape R) x = map (@ashape R) xs) by congruence. split; [exact E'|]. split; [exact Wx|]. assert (Lx := LF x E' Wx). split; [exact Lx|].
    eapply Rle_trans; [apply (@dist_tri (flat x) (flat x0) (flat xs)); congruence|]. lra. }
  assert (NR : newton_region F J solve (Some pa) x0 (r / 2) beta K).
  { split.
    - intros x Ax. destruct (AR x Ax) as (E & Wx & Lx & D). destruct (CX x E Wx D) as (E1 & E2). destruct (NP (flat x) t Lx Lt D Dt) as (SM & NO & IB & _).
      destruct (@HS (Am vs ps eqs (flat x) t) (values_at vs ps eqs (flat x) t)) as (s & E3 & E4 & E5); auto using Am_matrix.
      { apply f_length; auto. }
      exists (values_at vs ps eqs (flat x) t), (Am vs ps eqs (flat x) t), s. rewrite L0. repeat (split; auto); auto using Am_matrix.
      + apply f_length; auto.
      + apply Am_matrix; auto.
      + apply Am_matrix; auto.
      + rewrite <- E5 at 1. now apply IB.
    - intros x y r1 r2 j Ax Ay. destruct (AR x Ax) as (E & Wx & Lx & D). destruct (CX x E Wx D) as (E1 & E2).
      destruct (AR y Ay) as (Ey & Wy & Ly & Dy). destruct (CX y Ey Wy Dy) as (E3 & E4). rewrite E1, E2, E3.
      intros H1 H2 H3. assert (R1 : r1 = values_at vs ps eqs (flat x) t) by congruence. assert (R2 : r2 = values_at vs ps eqs (flat y) t) by congruence.
      assert (R3 : j = Am vs ps eqs (flat x) t) by congruence. subst r1 r2 j.
      destruct (NP (flat x) t Lx Lt D Dt) as (_ & _ & _ & _ & TA). now apply TA. }
  set (u0 := abs_sum (values_at vs ps eqs (flat x0) t)). assert (D0r : dist1 (flat x0) (flat xs) <= r) by lra.
  assert (U0 : residual_norm F (Some pa) x0 u0).
  { destruct (CX x0 A1 A2 D0r) as (E1 & _). exists (values_at vs ps eqs (flat x0) t). split; [exact E1|reflexivity]. }
  assert (Hu0 : 0 <= u0) by apply abs_pos.
  assert (UR : u0 <= U).
  { destruct (NP (flat xs) th LX LT DX DT) as (_ & _ & _ & LI & _). specialize (LI (flat x0) t L0 Lt D0r Dt).
    rewrite (@xs_zeros vs ps eqs th (flat xs) SQ RS), dist_zeros in LI by (apply f_length; auto). fold u0 dt in LI.
    eapply Rle_trans; [exact LI|]. unfold U. replace (2 * (L * rho)) with (L * (rho + rho)) by ring. apply Rmult_le_compat_l; lra. }
  assert (Dzr : dist1 z (flat xs) <= r) by lra.
  assert (UL : u0 <= L * dist1 (flat x0) z).
  { destruct (NP z t Lz Lt Dzr Dt) as (_ & _ & _ & LI & _). specialize (LI (flat x0) t L0 Lt D0r Dt).
    rewrite Zz, dist_zeros, dist_self, Rplus_0_r in LI by (apply f_length; auto). exact LI. }
  assert (BU : 2 * beta * u0 <= 4 * (beta * L) * rho).
  { replace (4 * (beta * L) * rho) with (2 * beta * U) by (unfold U; ring). apply Rmult_le_compat_l; lra. }
  assert (C1 : 2 * (K * beta ^ 2 * u0) <= 1).
  { apply Rle_trans with (4 * (K * beta ^ 2 * L) * rho); [|lra]. replace (4 * (K * beta ^ 2 * L) * rho) with (2 * (K * beta ^ 2 * U)) by (unfold U; ring).
    apply Rmult_le_compat_l; [lra|]. apply Rmult_le_compat_l; [|exact UR]. apply Rmult_le_pos; [lra|apply pow2_ge_0]. }
  assert (C2 : 2 * beta * u0 <= r / 2) by lra.
  destruct (@c116_converges__p F J solve (Some pa) x0 step tol (r / 2) beta K u0 max_iter Hpa Hx0 A2 NR U0 Hstep Htol) as (hist & HH & HL1 & HC); try lra.
  exists hist. split; [exact HH|]. split; [exact HL1|]. intros k st Hst. destruct (HC k st Hst) as (v & Hv & Dx0 & V1 & V2 & V3).
  pose proof (@root_good F J solve x0 (Some pa) step tol max_iter hist k st Hpa Hx0 A2 HH Hst) as (N1 & N2). rewrite A1 in N1.
  assert (Ln := LF (nx st) N1 N2). set (x := flat (nx st)) in *.
  assert (Dq : dist1 x (flat xs) <= Q * rho).
  { eapply Rle_trans; [apply (@dist_tri x (flat x0) (flat xs)); congruence|]. unfold Q. lra. }
  assert (Dr : dist1 x (flat xs) <= r) by lra.
  destruct (CX (nx st) N1 N2 Dr) as (E1 & _). assert (Ev : v = abs_sum (values_at vs ps eqs x t)).
  { destruct Hv as (rr & Er & ->). unfold x in *. rewrite E1 in Er. assert (rr = values_at vs ps eqs (flat (nx st)) t) by congruence. subst rr. reflexivity. }
  assert (Hvp : 0 <= v) by (rewrite Ev; apply abs_pos).
  assert (DV : dist1 x z <= 2 * beta * v).
  { rewrite Ev. apply (@residual_bound vs ps eqs th (flat xs) SQ LX r beta K L Hb HK NP z t x); auto.
    assert (beta * K * (dist1 z (flat xs) + dist1 x (flat xs)) <= beta * K * (rho + Q * rho)) by (apply Rmult_le_compat_l; lra). lra. }
  split; [|split].
  - intros Hc. specialize (V1 Hc). apply Rle_trans with (2 * beta * tol); [eapply Rle_trans; [exact DV|]; apply Rmult_le_compat_l; lra|].
    apply Rmult_le_compat_r; [lra|]. rewrite <- (Rmult_1_r (2 * beta)) at 1. apply Rmult_le_compat_l; lra.
  - intros Hc. destruct (V2 Hc) as (_ & V21 & _). set (p := (1 - step / 2) ^ S k) in *. assert (Pp : 0 <= p) by (apply pow_le; lra).
    eapply Rle_trans; [exact DV|]. set (d0 := dist1 (flat x0) z) in *. assert (0 <= d0) by apply dist_pos.
    replace (2 * beta * (L + 1) * p * d0) with (2 * beta * (p * (L * d0) + p * d0)) by ring. apply Rmult_le_compat_l; [lra|].
    assert (p * u0 <= p * (L * d0)) by (apply Rmult_le_compat_l; lra). assert (0 <= p * d0) by (apply Rmult_le_pos; lra). lra.
  - intros Ht. apply V3. eapply Rle_lt_trans; [|apply (HT k Ht)]. apply Rmult_le_compat_l; [apply pow_le; lra|exact UR].
Qed.
