(** C119. *)
From Coq Require Import Reals Lra.
From Verif Require Import Py PyStr NdArray M_SymExpr M_Calculus S_Calculus L_Calculus S_Reduce M_Euler M_Newton S_Euler S_Converge S_Newton S_Kantorovich
  L_Euler L_Euler3 L_Newton L_Converge L_Converge2 L_Kantorovich L_Kantorovich2 S_Trace L_Trace L_Trace2 L_Trace3 L_Trace4 S_NewtonNear L_NewtonNear.
Local Open Scope list_scope.
Local Open Scope R_scope.

Lemma root_good F J solve x0 parameters step tol max_iter hist t st :
  parameters <> Some [] -> x0 <> [] -> Forall (fun a => arr_wf a) x0 ->
  newton_root F J solve x0 parameters step tol max_iter = Ok hist -> nth_error hist t = Some st -> good (map (@ashape R) x0) (nx st).
Proof.
  intros Hp Hx W H Ht. unfold newton_root in H.
  assert (Hs : map (@ashape R) x0 <> []) by (destruct x0; [congruence|discriminate]).
  assert (G : good (map (@ashape R) x0) (nx (mkN x0 false step 0))) by (split; auto).
  destruct (@loop_ok F J solve parameters (map (@ashape R) x0) step tol Hp Hs (length x0) max_iter _ hist G eq_refl H) as (L & C).
  destruct (@nth_consecutive (mkN x0 false step 0) hist t st Ht) as (a & _ & Hab). destruct (C a st Hab) as (_ & _ & Gb). exact Gb.
Qed.

Lemma scaled_radius a m S rho : 0 < S -> 0 <= a <= S -> 0 < m -> rho = m / S -> a * rho <= m.
Proof.
  intros HS Ha Hm ->. apply Rmult_le_reg_r with S; auto. replace (a * (m / S) * S) with (a * m) by (field; lra). rewrite (Rmult_comm m). apply Rmult_le_compat_r; lra.
Qed.

Lemma small_powers q c tol : 0 <= q < 1 -> 0 <= c -> 0 < tol -> exists T, forall t, (T <= t)%nat -> q ^ t * c < tol.
Proof.
  intros Hq Hc Ht. destruct (pow_lt_1_zero q) with (y := tol / (c + 1)) as (T & H); [rewrite Rabs_pos_eq; lra|apply Rdiv_lt_0_compat; lra|].
  exists T. intros t L. specialize (H t L). rewrite Rabs_pos_eq in H by (apply pow_le; lra). assert (0 <= q ^ t) by (apply pow_le; lra).
  apply Rmult_lt_compat_r with (r := c + 1) in H; [|lra]. replace (tol / (c + 1) * (c + 1)) with tol in H by (field; lra). lra.
Qed.

Lemma c119_near__p :
  forall (F : list (arr R) -> res (list R)) (J : list (arr R) -> res (list (list R)))
         (solve : list (list R) -> list R -> res (list R)) (parameters : option (list (arr R)))
         (variables params : list string) (equations : list sexpr) (xs : list (arr R)),
  NoDup (variables ++ params) -> length equations = length variables ->
  length (flat xs) = length variables -> length (flat_parameters parameters) = length params ->
  parameters <> Some [] -> xs <> [] -> Forall (fun a => arr_wf a) xs ->
  regular_solution variables params equations (flat xs) (flat_parameters parameters) ->
  computes F J parameters variables params equations (map (@ashape R) xs) -> right_solver_res solve (length variables) ->
  exists rho C, 0 < rho /\ 0 <= C /\
    forall step tol, 0 < step <= 1 -> 0 < tol ->
    exists T, forall x0 max_iter, around xs rho x0 ->
    exists hist, newton_root F J solve x0 parameters step tol max_iter = Ok hist /\ length hist = max_iter /\
      forall t st, nth_error hist t = Some st ->
        (nconv st = true -> dist1 (flat (nx st)) (flat xs) <= C * tol) /\
        (nconv st = false -> dist1 (flat (nx st)) (flat xs) <= C * (1 - step / 2) ^ S t * dist1 (flat x0) (flat xs) /\
           (step = 1 -> dist1 (flat (nx st)) (flat xs) <= C * (1 / 2) ^ (2 ^ S t))) /\
        ((T <= t)%nat -> nconv st = true).
Proof.
  intros F J solve parameters vs ps eqs xs ND SQ LX LT Hp Hx W RS CO HS.
  set (th := flat_parameters parameters) in *.
  destruct (@near_solution vs ps eqs th (flat xs) solve ND SQ LT LX RS HS) as (r & beta & K & L & Hr & Hb & HK & HL & NS).
  set (Q := 2 * beta * L + 1). set (m := Rmin r 1).
  assert (BL : 0 <= beta * L) by (apply Rmult_le_pos; lra). assert (HQ : 1 <= Q) by (unfold Q; lra).
  assert (KB : 0 <= K * beta ^ 2 * L) by (apply Rmult_le_pos; [apply Rmult_le_pos; [lra|apply pow2_ge_0]|auto]).
  assert (KQ : 0 <= beta * K * Q) by (apply Rmult_le_pos; [apply Rmult_le_pos; lra|lra]).
  set (S0 := 2 + 2 * (K * beta ^ 2 * L) + 4 * (beta * L) + Q + 2 * (beta * K * Q)).
  assert (HS0 : 0 < S0) by (unfold S0; lra).
  assert (Hm : 0 < m) by (unfold m; apply Rmin_pos; lra). assert (m <= r) by apply Rmin_l. assert (m <= 1) by apply Rmin_r.
  set (rho := m / S0). assert (Hrho : 0 < rho) by (unfold rho; now apply Rdiv_lt_0_compat).
  assert (B1 : 2 * rho <= m) by (apply (@scaled_radius _ m S0 rho HS0); [unfold S0; lra|exact Hm|reflexivity]).
  assert (B2 : 2 * (K * beta ^ 2 * L) * rho <= m) by (apply (@scaled_radius _ m S0 rho HS0); [unfold S0; lra|exact Hm|reflexivity]).
  assert (B3 : 4 * (beta * L) * rho <= m) by (apply (@scaled_radius _ m S0 rho HS0); [unfold S0; lra|exact Hm|reflexivity]).
  assert (B4 : Q * rho <= m) by (apply (@scaled_radius _ m S0 rho HS0); [unfold S0; lra|exact Hm|reflexivity]).
  assert (B5 : 2 * (beta * K * Q) * rho <= m) by (apply (@scaled_radius _ m S0 rho HS0); [unfold S0; lra|exact Hm|reflexivity]).
  exists rho, (2 * beta * (L + 1)). split; [auto|]. split; [apply Rmult_le_pos; lra|]. intros step tol Hstep Htol.
  destruct (@small_powers (1 - step / 2) (L * rho) tol) as (T & HT); [lra|apply Rmult_le_pos; lra|auto|].
  exists T. intros x0 max_iter (A1 & A2 & A3).
  assert (LF : forall x, map (@ashape R) x = map (@ashape R) xs -> Forall (fun a => arr_wf a) x -> length (flat x) = length vs).
  { intros x E Wx. rewrite <- LX. destruct (@good_flat (map (@ashape R) xs) x (conj E Wx)) as (-> & _). symmetry. apply (@good_flat (map (@ashape R) xs) xs (conj eq_refl W)). }
  assert (L0 := LF x0 A1 A2).
  assert (Hx0 : x0 <> []) by (intros ->; destruct xs; [congruence|discriminate]).
  (* what is computed near the solution *)
  assert (CX : forall x, map (@ashape R) x = map (@ashape R) xs -> Forall (fun a => arr_wf a) x -> dist1 (flat x) (flat xs) <= r ->
    F (at_point parameters x) = Ok (values_at vs ps eqs (flat x) th) /\ J (at_point parameters x) = Ok (Am vs ps eqs (flat x) th)).
  { intros x E Wx D. destruct (NS (flat x) (LF x E Wx) D) as (SM & _). destruct (CO x E Wx SM) as (E1 & M & E2 & HM). split; [exact E1|].
    rewrite E2. f_equal. now apply derivatives_unique. }
  assert (AR : forall x, around x0 (r / 2) x -> map (@ashape R) x = map (@ashape R) xs /\ Forall (fun a => arr_wf a) x /\ length (flat x) = length vs /\ dist1 (flat x) (flat xs) <= r).
  { intros x (E & Wx & D). assert (E' : map (@ashape R) x = map (@ashape R) xs) by congruence. split; [exact E'|]. split; [exact Wx|]. assert (Lx := LF x E' Wx). split; [exact Lx|].
    eapply Rle_trans; [apply (@dist_tri (flat x) (flat x0) (flat xs)); congruence|]. lra. }
  assert (NR : newton_region F J solve parameters x0 (r / 2) beta K).
  { split.
    - intros x Ax. destruct (AR x Ax) as (E & Wx & Lx & D). destruct (CX x E Wx D) as (E1 & E2). destruct (NS (flat x) Lx D) as (SM & NO & IB & _).
      destruct (@HS (Am vs ps eqs (flat x) th) (values_at vs ps eqs (flat x) th)) as (s & E3 & E4 & E5); auto using Am_matrix.
      { apply f_length; auto. }
      exists (values_at vs ps eqs (flat x) th), (Am vs ps eqs (flat x) th), s. rewrite L0. repeat (split; auto); auto using Am_matrix.
      + apply f_length; auto.
      + apply Am_matrix; auto.
      + apply Am_matrix; auto.
      + rewrite <- E5 at 1. now apply IB.
    - intros x y r1 r2 j Ax Ay. destruct (AR x Ax) as (E & Wx & Lx & D). destruct (CX x E Wx D) as (E1 & E2).
      destruct (AR y Ay) as (Ey & Wy & Ly & Dy). destruct (CX y Ey Wy Dy) as (E3 & E4). rewrite E1, E2, E3.
      intros H1 H2 H3. assert (R1 : r1 = values_at vs ps eqs (flat x) th) by congruence. assert (R2 : r2 = values_at vs ps eqs (flat y) th) by congruence.
      assert (R3 : j = Am vs ps eqs (flat x) th) by congruence. subst r1 r2 j.
      destruct (NS (flat x) Lx D) as (_ & _ & _ & _ & TA). now apply TA. }
  set (d0 := dist1 (flat x0) (flat xs)) in *. assert (Hd0 : 0 <= d0) by apply abs_pos.
  assert (DS : dist1 (flat xs) (flat xs) <= r) by (rewrite dist_self; lra).
  destruct (NS (flat xs) LX DS) as (_ & _ & IBs & LIPs & TAs).
  assert (FZ : values_at vs ps eqs (flat xs) th = zeros (length vs)).
  { destruct RS as [Z _ _]. rewrite <- (@f_length vs ps eqs SQ (flat xs) th). clear - Z. induction Z as [|a l -> _ IH]; [reflexivity|]. cbn [length]. rewrite IH at 1. reflexivity. }
  set (u0 := abs_sum (values_at vs ps eqs (flat x0) th)).
  assert (U0 : residual_norm F parameters x0 u0).
  { destruct (CX x0 A1 A2 ltac:(unfold d0 in *; lra)) as (E1 & _). exists (values_at vs ps eqs (flat x0) th). split; [exact E1|reflexivity]. }
  assert (Zr : forall v, length v = length vs -> dist1 v (zeros (length vs)) = abs_sum v).
  { intros v Lv. unfold dist1. f_equal. apply vec_ext; [rewrite vsub_length; auto; now rewrite zeros_length|]. intros i _.
    rewrite nth_vsub, nth_zeros by (now rewrite zeros_length). ring. }
  assert (UL : u0 <= L * d0).
  { unfold u0. rewrite <- Zr by (now apply f_length). rewrite <- FZ. apply LIPs; auto. unfold d0 in *. lra. }
  assert (Hu0 : 0 <= u0) by apply abs_pos.
  assert (UR : u0 <= L * rho) by (eapply Rle_trans; [exact UL|]; apply Rmult_le_compat_l; lra).
  assert (C1 : 2 * (K * beta ^ 2 * u0) <= 1).
  { apply Rle_trans with (2 * (K * beta ^ 2 * L) * rho); [|lra]. replace (2 * (K * beta ^ 2 * L) * rho) with (2 * (K * beta ^ 2 * (L * rho))) by ring.
    apply Rmult_le_compat_l; [lra|]. apply Rmult_le_compat_l; [|exact UR]. apply Rmult_le_pos; [lra|apply pow2_ge_0]. }
  assert (BU : 2 * beta * u0 <= 2 * (beta * L) * rho).
  { replace (2 * (beta * L) * rho) with (2 * beta * (L * rho)) by ring. apply Rmult_le_compat_l; lra. }
  assert (C2 : 2 * beta * u0 <= r / 2) by lra.
  destruct (@c116_converges__p F J solve parameters x0 step tol (r / 2) beta K u0 max_iter Hp Hx0 A2 NR U0 Hstep Htol) as (hist & HH & HL1 & HC); try lra.
  exists hist. split; [exact HH|]. split; [exact HL1|]. intros t st Hst. destruct (HC t st Hst) as (v & Hv & Dx0 & V1 & V2 & V3).
  pose proof (@root_good F J solve x0 parameters step tol max_iter hist t st Hp Hx0 A2 HH Hst) as (G1 & G2). rewrite A1 in G1.
  assert (Ln := LF (nx st) G1 G2). set (x := flat (nx st)) in *. set (d := dist1 x (flat xs)) in *. assert (Hd : 0 <= d) by apply abs_pos.
  assert (Dq : d <= Q * rho).
  { unfold d. eapply Rle_trans; [apply (@dist_tri x (flat x0) (flat xs)); congruence|]. fold d0. unfold Q. lra. }
  assert (Dr : d <= r) by lra.
  destruct (CX (nx st) G1 G2 Dr) as (E1 & _). assert (Ev : v = abs_sum (values_at vs ps eqs x th)).
  { destruct Hv as (rr & Er & ->). unfold x in *. rewrite E1 in Er. assert (rr = values_at vs ps eqs (flat (nx st)) th) by congruence. subst rr. reflexivity. }
  assert (Hvp : 0 <= v) by (rewrite Ev; apply abs_pos).
  assert (DV : d <= 2 * beta * v).
  { pose proof (TAs x Ln Dr) as TA. fold d in TA. rewrite FZ in TA. set (w := mv (Am vs ps eqs (flat xs) th) (vsub x (flat xs))) in *.
    assert (Lw : length w = length vs) by (unfold w; rewrite mv_length; apply Am_matrix; auto).
    assert (Ez : vadd (zeros (length vs)) w = w).
    { apply vec_ext; [rewrite vadd_length; rewrite zeros_length; auto|]. intros i _. rewrite nth_vadd, nth_zeros by (rewrite zeros_length; auto). ring. }
    rewrite Ez in TA. assert (Dw : d <= beta * abs_sum w) by (apply IBs; rewrite vsub_length; congruence).
    assert (Aw : abs_sum w <= K * d ^ 2 + v).
    { rewrite Ev. rewrite dist_sym in TA. eapply Rle_trans; [apply (@abs_of_dist w (values_at vs ps eqs x th)); rewrite f_length; auto|]. lra. }
    assert (BK : beta * K * d <= 1 / 2).
    { apply Rle_trans with (beta * K * (Q * rho)); [apply Rmult_le_compat_l; [apply Rmult_le_pos; lra|exact Dq]|]. lra. }
    assert (X1 : beta * abs_sum w <= beta * (K * d ^ 2 + v)) by (apply Rmult_le_compat_l; lra).
    assert (X2 : beta * (K * d ^ 2 + v) = (beta * K * d) * d + beta * v) by ring.
    assert (X3 : (beta * K * d) * d <= 1 / 2 * d) by (apply Rmult_le_compat_r; lra). lra. }
  assert (PB : 0 <= 2 * beta) by lra. split; [|split].
  - intros Hc. specialize (V1 Hc). apply Rle_trans with (2 * beta * tol); [eapply Rle_trans; [exact DV|]; apply Rmult_le_compat_l; lra|].
    apply Rmult_le_compat_r; [lra|]. rewrite <- (Rmult_1_r (2 * beta)) at 1. apply Rmult_le_compat_l; lra.
  - intros Hc. destruct (V2 Hc) as (_ & V21 & V22). set (p := (1 - step / 2) ^ S t) in *. assert (Pp : 0 <= p) by (apply pow_le; lra). split.
    + eapply Rle_trans; [exact DV|]. replace (2 * beta * (L + 1) * p * d0) with (2 * beta * (p * (L * d0) + p * d0)) by ring. apply Rmult_le_compat_l; [lra|].
      assert (p * u0 <= p * (L * d0)) by (apply Rmult_le_compat_l; lra). assert (0 <= p * d0) by (apply Rmult_le_pos; lra). lra.
    + intros Hs. specialize (V22 Hs). assert (Pw : (K * beta ^ 2 * u0) ^ (2 ^ S t) <= (1 / 2) ^ (2 ^ S t)).
      { apply pow_incr. split; [apply Rmult_le_pos; [apply Rmult_le_pos; [lra|apply pow2_ge_0]|lra]|lra]. }
      assert (K1 : 1 <= K * beta ^ 2) by (cbn [pow]; nra). assert (v <= K * beta ^ 2 * v) by nra.
      eapply Rle_trans; [exact DV|]. set (z := (1 / 2) ^ (2 ^ S t)) in *. assert (0 <= z) by (unfold z; apply pow_le; lra).
      apply Rle_trans with (2 * beta * z); [apply Rmult_le_compat_l; lra|]. apply Rmult_le_compat_r; [lra|]. rewrite <- (Rmult_1_r (2 * beta)) at 1. apply Rmult_le_compat_l; lra.
  - intros Ht. apply V3. eapply Rle_lt_trans; [|apply (HT t Ht)]. apply Rmult_le_compat_l; [apply pow_le; lra|exact UR].
Qed.

Local Open Scope string_scope.
Local Open Scope list_scope.
Local Open Scope R_scope.
(** Functions that evaluate written equations and their derivatives by the
    rules of differentiation, as a compiled model does *)
Definition nw_F (vs ps : list string) (eqs : list sexpr) (args : list (arr R)) : res (list R) :=
  Ok (values_at vs ps eqs (firstn (length vs) (flat args)) (skipn (length vs) (flat args))).
Definition nw_J (vs ps : list string) (eqs : list sexpr) (args : list (arr R)) : res (list (list R)) :=
  Ok (map (fun e => map (fun y => val (state_of (vs ++ ps) (flat args)) no_arrays (diff y e)) vs) eqs).

Lemma nw_computes vs ps eqs parameters shapes : (forall x, map (@ashape R) x = shapes -> Forall (fun a => arr_wf a) x -> length (flat x) = length vs) ->
  computes (nw_F vs ps eqs) (nw_J vs ps eqs) parameters vs ps eqs shapes.
Proof.
  intros HL x E W S. assert (Fl : flat (at_point parameters x) = flat x ++ flat_parameters parameters).
  { unfold at_point, flat_parameters, flat. rewrite map_app, concat_app. destruct parameters; reflexivity. }
  unfold nw_F, nw_J. rewrite Fl. rewrite <- (HL x E W), firstn_app, skipn_app, firstn_all, skipn_all, Nat.sub_diag. cbn [firstn skipn app]. rewrite app_nil_r.
  split; [reflexivity|]. eexists. split; [reflexivity|]. unfold derivatives_at. set (v := state_of _ _) in *. clearbody v. clear - S.
  induction S as [|e l He _ IH]; cbn [map]; [constructor|]. constructor; [|exact IH].
  clear IH. induction vs as [|y vs' IHv]; cbn [map]; [constructor|]. constructor; [now apply deriv_val|exact IHv].
Qed.

(** The model used in the example: p p = a, with a = 4 and the solution 2 *)
Definition nw_eq : sexpr := SBin OSub (SBin OMul (SSym "p") (SSym "p")) (SSym "a").
Definition nw_solve (M : list (list R)) (b : list R) : res (list R) :=
  match M, b with [[m]], [q] => if Req_EM_T m 0 then Err ValueError else Ok [q / m] | _, _ => Err ValueError end.

Lemma nw_solver : right_solver_res nw_solve 1.
Proof.
  intros [|row [|]] b (L & Rr) N Lb; try discriminate. assert (Lr := Rr row (or_introl eq_refl)). destruct row as [|m [|]]; try discriminate.
  destruct b as [|q [|]]; try discriminate. assert (m <> 0).
  { intros ->. assert (Q : [1] = [0]).
    { apply N; [reflexivity|reflexivity|]. unfold mv, dot. cbn. f_equal. ring. }
    injection Q as Q. lra. }
  exists [q / m]. unfold nw_solve. destruct (Req_EM_T m 0); [contradiction|]. split; [reflexivity|]. split; [reflexivity|]. unfold mv, dot. cbn. f_equal. field. auto.
Qed.

Lemma nw_raises step tol k : newton_root (nw_F ["p"] ["a"] [nw_eq]) (nw_J ["p"] ["a"] [nw_eq]) nw_solve [mkArr [] [0]] (Some [mkArr [] [0]]) step tol (S k) = Err ValueError.
Proof.
  unfold newton_root. cbn [newton_loop process_root_data length]. unfold scan_body. cbn [nx nconv body_args app firstn last_args length map ashape scalar].
  unfold newton_step. cbn -[nw_solve nw_J nw_F]. unfold nw_J at 1. unfold nw_F at 1. cbn [bind].
  match goal with |- context [nw_solve ?M ?b] => assert (E : nw_solve M b = Err ValueError) end.
  { unfold values_at. cbn. destruct (Req_EM_T _ 0) as [|N]; [reflexivity|]. exfalso. apply N. cbn. ring. }
  rewrite E. reflexivity.
Qed.

Lemma c119_singular_refuted__p :
  exists (F : list (arr R) -> res (list R)) (J : list (arr R) -> res (list (list R)))
         (solve : list (list R) -> list R -> res (list R)) (parameters : option (list (arr R)))
         (variables params : list string) (equations : list sexpr) (xs : list (arr R)),
  NoDup (variables ++ params) /\ length equations = length variables /\
  length (flat xs) = length variables /\ length (flat_parameters parameters) = length params /\
  parameters <> Some [] /\ xs <> [] /\ Forall (fun a => arr_wf a) xs /\
  Forall (fun r => r = 0) (values_at variables params equations (flat xs) (flat_parameters parameters)) /\
  Forall (smooth (state_of (variables ++ params) (flat xs ++ flat_parameters parameters)) no_arrays) equations /\
  computes F J parameters variables params equations (map (@ashape R) xs) /\ right_solver_res solve (length variables) /\
  forall step tol max_iter, newton_root F J solve xs parameters step tol (S max_iter) = Err ValueError.
Proof.
  exists (nw_F ["p"] ["a"] [nw_eq]), (nw_J ["p"] ["a"] [nw_eq]), nw_solve, (Some [mkArr [] [0]]), ["p"], ["a"], [nw_eq], [mkArr [] [0]].
  split; [repeat constructor; cbn; intuition discriminate|]. split; [reflexivity|]. split; [reflexivity|]. split; [reflexivity|]. split; [discriminate|]. split; [discriminate|].
  split; [repeat constructor|]. split; [constructor; [cbn; ring|constructor]|]. split; [constructor; [cbn; tauto|constructor]|].
  split; [|split; [exact nw_solver|exact nw_raises]]. apply nw_computes. intros [|a [|]] E W; try discriminate. injection E as E. inversion W as [|? ? W1 _]. unfold arr_wf in W1. rewrite E in W1.
  unfold flat. cbn. rewrite app_nil_r. exact W1.
Qed.
