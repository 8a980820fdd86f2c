(** C120: the path of solutions after a small shock. *)
From Coq Require Import Reals Lra.
From Verif Require Import Py PyStr NdArray M_SymExpr M_Calculus S_Calculus L_Calculus S_Reduce M_Lambdify S_Lambdify M_NumbaStep L_NumbaStep
  M_Euler S_Euler S_Converge S_Kantorovich L_Euler L_Euler3 L_Converge L_Converge2 M_NumbaEuler
  L_Kantorovich S_Trace L_Trace L_Trace2 L_Trace3 L_Trace4 L_Trace5 S_NewtonNear L_NewtonNear L_NewtonNear2 L_SmallShock.
Local Open Scope string_scope.
Local Open Scope list_scope.
Local Open Scope R_scope.

(** A function picked from unique vectors, by completeness of the real numbers *)
Lemma pick (P : R -> list R -> Prop) (n : nat) : (forall s, exists x, P s x /\ length x = n /\ forall y, P s y -> y = x) -> exists X, forall s, P s (X s).
Proof.
  intros H. assert (C : forall s i, {m | is_lub (fun z => exists x, P s x /\ z <= nth i x 0) m}).
  { intros s i. apply completeness.
    - destruct (H s) as (x & _ & _ & U). exists (nth i x 0). intros z (y & Hy & Hz). rewrite (U y Hy) in Hz. exact Hz.
    - destruct (H s) as (x & Px & _). exists (nth i x 0), x. split; [exact Px|lra]. }
  exists (fun s => map (fun i => proj1_sig (C s i)) (seq 0 n)). intros s. destruct (H s) as (x & Px & Lx & U).
  replace (map (fun i => proj1_sig (C s i)) (seq 0 n)) with x; [exact Px|]. symmetry. apply vec_ext; [now rewrite map_length, seq_length|].
  rewrite map_length, seq_length. intros i Hi. rewrite (nth_indep _ 0 (proj1_sig (C s 0%nat))) by (now rewrite map_length, seq_length).
  rewrite (map_nth (fun i => proj1_sig (C s i))), seq_nth by auto. cbn [Nat.add]. destruct (C s i) as (m & B & M). cbn. apply Rle_antisym.
  - apply M. intros z (y & Hy & Hz). rewrite (U y Hy) in Hz. exact Hz.
  - apply B. exists x. split; [exact Px|lra].
Qed.

Lemma line_diff a b s s' : length a = length b -> vsub (line a b s') (line a b s) = vscale (s' - s) (vsub b a).
Proof.
  intros E. assert (LL : length (line a b s) = length (line a b s')) by (rewrite !line_length; auto).
  assert (EE : length b = length a) by auto.
  apply vec_ext; [rewrite vsub_length, vscale_length, vsub_length, line_length; auto|]. rewrite vsub_length, line_length by auto. intros i Hi.
  rewrite nth_vsub, nth_vscale, !nth_line, nth_vsub by auto. ring.
Qed.
Lemma line_dist a b s s' : length a = length b -> dist1 (line a b s') (line a b s) = Rabs (s' - s) * dist1 b a.
Proof. intros E. unfold dist1. now rewrite line_diff, abs_scale by auto. Qed.

Section Path.
Context (vs ps : list string) (eqs : list sexpr) (th xs : list R) (linalg_solve : list (list R) -> list R -> list R).
Hypothesis ND : NoDup (vs ++ ps).
Hypothesis SQ : length eqs = length vs.
Hypothesis LT : length th = length ps.
Hypothesis LX : length xs = length vs.
Hypothesis RS : regular_solution vs ps eqs xs th.
Hypothesis HS : right_solver linalg_solve (length vs).
Notation n := (length vs).
Notation np := (length ps).
Notation st x t := (state_of (vs ++ ps) (x ++ t)).
Notation f x t := (values_at vs ps eqs x t).
Notation A x t := (Am vs ps eqs x t).
Notation B x t := (Bm vs ps eqs x t).

Lemma solver_res : right_solver_res (fun M b => Ok (linalg_solve M b)) n.
Proof. intros M b HM NM Lb. destruct (HS HM NM b Lb) as (E1 & E2). eauto. Qed.

Lemma path_exists : exists rho delta, 0 < rho /\ 0 < delta /\
  forall t1, length t1 = np -> dist1 t1 th <= delta ->
    exists X, solution_path vs ps eqs th t1 X /\ X 0 = xs /\ dist1 (X 1) xs <= rho /\
      forall y, length y = n -> dist1 y xs <= rho -> f y t1 = zeros n -> y = X 1.
Proof.
  destruct (@near_point vs ps eqs th xs (fun M b => Ok (linalg_solve M b)) ND SQ LT LX RS solver_res) as (r & beta & K & L & Hr & Hb & HK & HL & NP).
  assert (BK : 1 <= beta * K) by nra. assert (BL : 0 <= beta * L) by (apply Rmult_le_pos; lra).
  assert (KB : 0 <= K * beta ^ 2 * L) by (apply Rmult_le_pos; [apply Rmult_le_pos; [lra|apply pow2_ge_0]|auto]).
  set (m := Rmin r 1). assert (Hm : 0 < m) by (unfold m; apply Rmin_pos; lra). assert (Mr : m <= r) by apply Rmin_l. assert (M1 : m <= 1) by apply Rmin_r.
  set (S0 := 1 + 4 * (beta * K)). set (rho := m / S0). assert (HS0 : 0 < S0) by (unfold S0; lra).
  assert (Hrho : 0 < rho) by (unfold rho; now apply Rdiv_lt_0_compat).
  assert (B1 : 1 * rho <= m) by (apply (@scaled_radius _ m S0 rho HS0); [unfold S0; lra|exact Hm|reflexivity]).
  assert (B2 : 4 * (beta * K) * rho <= m) by (apply (@scaled_radius _ m S0 rho HS0); [unfold S0; lra|exact Hm|reflexivity]).
  assert (Rr : rho <= 1) by lra.
  set (S1 := 2 + 4 * (K * beta ^ 2 * L) + 4 * (beta * L)). set (delta := rho / S1). assert (HS1 : 0 < S1) by (unfold S1; lra).
  assert (Hdelta : 0 < delta) by (unfold delta; now apply Rdiv_lt_0_compat).
  assert (D1 : 2 * delta <= rho) by (apply (@scaled_radius _ rho S1 delta HS1); [unfold S1; lra|exact Hrho|reflexivity]).
  assert (D2 : 4 * (K * beta ^ 2 * L) * delta <= rho) by (apply (@scaled_radius _ rho S1 delta HS1); [unfold S1; lra|exact Hrho|reflexivity]).
  assert (D3 : 4 * (beta * L) * delta <= rho) by (apply (@scaled_radius _ rho S1 delta HS1); [unfold S1; lra|exact Hrho|reflexivity]).
  exists rho, delta. split; [auto|]. split; [auto|]. intros t1 Lt1 Dt1. set (d1 := dist1 t1 th) in *. assert (Hd1 : 0 <= d1) by apply dist_pos.
  assert (TT : length th = length t1) by congruence.
  assert (LL : forall s, length (line th t1 s) = np) by (intros; rewrite line_length; auto).
  assert (DL : forall s, -1 <= s <= 2 -> dist1 (line th t1 s) th <= 2 * d1).
  { intros s Hs. rewrite <- (@line_0 th t1) at 2 by auto. rewrite line_dist by auto. fold d1. apply Rmult_le_compat_r; [auto|]. rewrite Rminus_0_r. apply Rabs_le. lra. }
  assert (DR : forall s, -1 <= s <= 2 -> dist1 (line th t1 s) th <= r) by (intros s Hs; specialize (DL s Hs); lra).
  set (clip := fun s => Rmax (-1) (Rmin 2 s)).
  assert (CR : forall s, -1 <= clip s <= 2).
  { intros s. unfold clip. split; [apply Rmax_l|]. apply Rmax_lub; [lra|apply Rmin_l]. }
  assert (CI : forall s, -1 <= s <= 2 -> clip s = s).
  { intros s Hs. unfold clip. rewrite (Rmin_right 2 s) by lra. apply Rmax_right. lra. }
  set (P := fun s x => length x = n /\ dist1 x xs <= rho /\ f x (line th t1 (clip s)) = zeros n).
  assert (LIP : forall s s' x y, P s x -> P s' y -> dist1 y x <= 2 * beta * L * dist1 (line th t1 (clip s')) (line th t1 (clip s))).
  { intros s s' x y (X1 & X2 & X3) (Y1 & Y2 & Y3).
    apply (@solution_lipschitz vs ps eqs th xs SQ LX r beta K L Hb HK NP); auto; try lra.
    assert (beta * K * (dist1 x xs + dist1 y xs) <= beta * K * (2 * rho)) by (apply Rmult_le_compat_l; lra). lra. }
  destruct (@pick P n) as (X & HX).
  { intros s. destruct (@solution_exists vs ps eqs th xs (fun M b => Ok (linalg_solve M b)) SQ LT LX RS solver_res r beta K L Hr Hb HK NP (line th t1 (clip s)) rho (LL _) (DR _ (CR s))) as (x & X1 & X2 & X3).
    - lra.
    - specialize (DL _ (CR s)). apply Rle_trans with (4 * (K * beta ^ 2 * L) * delta); [|lra].
      replace (4 * (K * beta ^ 2 * L) * delta) with (2 * (K * beta ^ 2 * (L * (2 * delta)))) by ring. apply Rmult_le_compat_l; [lra|].
      apply Rmult_le_compat_l; [apply Rmult_le_pos; [lra|apply pow2_ge_0]|]. apply Rmult_le_compat_l; lra.
    - specialize (DL _ (CR s)). apply Rle_trans with (4 * (beta * L) * delta); [|lra].
      replace (4 * (beta * L) * delta) with (2 * beta * (L * (2 * delta))) by ring. apply Rmult_le_compat_l; [lra|]. apply Rmult_le_compat_l; lra.
    - exists x. split; [repeat split; auto|]. split; [auto|]. intros y Py. apply dist_zero; [destruct Py; congruence|].
      eapply Rle_trans; [apply (LIP s s x y); [repeat split; auto|exact Py]|]. rewrite dist_self. lra. }
  assert (XS : forall s, -1 <= s <= 2 -> length (X s) = n /\ dist1 (X s) xs <= rho /\ f (X s) (line th t1 s) = zeros n).
  { intros s Hs. specialize (HX s). unfold P in HX. rewrite CI in HX by auto. exact HX. }
  assert (XL : forall s s', -1 <= s <= 2 -> -1 <= s' <= 2 -> dist1 (X s') (X s) <= 2 * beta * L * d1 * Rabs (s' - s)).
  { intros s s' Hs Hs'. eapply Rle_trans; [apply (LIP s s'); apply HX|]. rewrite !CI, line_dist by auto. fold d1. right. ring. }
  exists X. assert (X0 : X 0 = xs).
  { apply dist_zero; [rewrite LX; apply XS; lra|]. rewrite dist_sym. eapply Rle_trans; [apply (LIP 0 0 (X 0) xs); [apply HX|]|rewrite dist_self; lra].
    split; [auto|]. split; [rewrite dist_self; lra|]. rewrite CI, line_0 by (auto; lra). apply xs_zeros; auto. }
  split; [|split; [exact X0|split; [apply XS; lra|]]].
  - constructor.
    + intros s Hs. apply XS. lra.
    + intros s i Hs Hi. destruct (XS s ltac:(lra)) as (L1 & L2 & L3).
      destruct (NP (X s) (line th t1 s) L1 (LL s) ltac:(lra) (DR s ltac:(lra))) as (SM & NO & IB & _).
      set (As := A (X s) (line th t1 s)) in *. set (Bs := B (X s) (line th t1 s)). set (D := vsub t1 th).
      assert (MA : is_matrix n n As) by (apply Am_matrix; auto). assert (MB : is_matrix n np Bs) by (apply Bm_matrix; auto).
      set (d := vneg (linalg_solve As (mv Bs D))). assert (LB : length (mv Bs D) = n) by (rewrite mv_length; apply MB).
      destruct (HS MA NO _ LB) as (Ld0 & Ed0). assert (Ld : length d = n) by (unfold d; now rewrite vneg_length).
      exists (nth i d 0). pose proof (@model_differentiable vs ps eqs ND SQ (X s) (line th t1 s) L1 (LL s) SM) as DF. fold As Bs in DF.
      set (C := 2 * beta * L * d1 + d1). assert (HC : 0 <= C) by (unfold C; assert (0 <= 2 * beta * L * d1) by (apply Rmult_le_pos; lra); lra).
      set (G := beta * INR n * C). assert (HG : 0 <= G) by (unfold G; apply Rmult_le_pos; [apply Rmult_le_pos; [lra|apply pos_INR]|auto]).
      intros eps He. set (e1 := eps / (2 * (G + 1))). assert (He1 : 0 < e1) by (unfold e1; apply Rdiv_lt_0_compat; lra).
      destruct (DF e1 He1) as (del & Hdel & HF). set (dd := Rmin 1 (del / (C + 1))).
      assert (Hdd : 0 < dd) by (unfold dd; apply Rmin_pos; [lra|apply Rdiv_lt_0_compat; lra]).
      exists (mkposreal dd Hdd). cbn [pos]. intros h Hh Hl. pose proof (Rabs_pos_lt h Hh) as Ph.
      assert (H1 : Rabs h <= 1) by (unfold dd in Hl; pose proof (Rmin_l 1 (del / (C + 1))); lra).
      assert (Hdl : C * Rabs h <= del).
      { assert (Rabs h <= del / (C + 1)) as Q by (unfold dd in Hl; pose proof (Rmin_r 1 (del / (C + 1))); lra).
        apply Rmult_le_compat_l with (r := C + 1) in Q; [|lra]. replace ((C + 1) * (del / (C + 1))) with del in Q by (field; lra). nra. }
      assert (Hs' : -1 <= s + h <= 2) by (apply Rabs_le_inv in H1; lra). destruct (XS (s + h) Hs') as (L1' & _ & L3').
      assert (Sh : s + h - s = h) by ring.
      assert (W1 : within (C * Rabs h) (X (s + h)) (X s)).
      { eapply within_more; [apply dist_within; congruence|]. eapply Rle_trans; [apply XL; auto; lra|]. rewrite Sh. apply Rmult_le_compat_r; [lra|]. unfold C. lra. }
      assert (W2 : within (C * Rabs h) (line th t1 (s + h)) (line th t1 s)).
      { eapply within_more; [apply dist_within; now rewrite !LL|]. rewrite line_dist, Sh by auto. fold d1. rewrite (Rmult_comm C). apply Rmult_le_compat_l; [lra|]. unfold C.
        assert (0 <= 2 * beta * L * d1) by (apply Rmult_le_pos; lra). lra. }
      assert (Hm' : 0 <= C * Rabs h <= del) by (split; [apply Rmult_le_pos; lra|exact Hdl]).
      specialize (HF _ _ _ Hm' W1 W2). unfold Fm in HF. rewrite L3, L3', line_diff, Sh, mv_vscale in HF by auto. fold D in HF.
      set (u := vsub (X (s + h)) (X s)) in *. assert (Lu : length u = n) by (unfold u; rewrite vsub_length; congruence).
      assert (LAu : length (mv As u) = n) by (rewrite mv_length; apply MA).
      set (e := vsub u (vscale h d)). assert (Le : length e = n) by (unfold e; rewrite vsub_length; rewrite ?vscale_length; congruence).
      assert (LM : length (mv As u) = length (vscale h (mv Bs D))) by (rewrite vscale_length; congruence).
      assert (Ee : mv As e = vadd (mv As u) (vscale h (mv Bs D))).
      { unfold e. rewrite mv_vsub, mv_vscale by (rewrite vscale_length; congruence). unfold d. rewrite mv_vneg, Ed0.
        assert (LN : length (mv As u) = length (vscale h (vneg (mv Bs D)))) by (rewrite vscale_length, vneg_length; congruence).
        apply vec_ext; [rewrite vsub_length, vadd_length; auto|]. intros j _. rewrite nth_vsub, nth_vadd, !nth_vscale, nth_vneg by auto. ring. }
      assert (Be : abs_sum (mv As e) <= INR n * (e1 * (C * Rabs h))).
      { rewrite Ee. destruct HF as (HF1 & HF2). rewrite zeros_length in HF2. replace (INR n) with (INR (length (vadd (mv As u) (vscale h (mv Bs D))))) by (rewrite vadd_length; congruence).
        apply abs_le. rewrite vadd_length by auto. intros j Hj. rewrite LAu in Hj. specialize (HF2 j Hj).
        rewrite zeros_add in HF2 by (rewrite vadd_length; auto). rewrite nth_zeros in HF2. rewrite Rminus_0_l, Rabs_Ropp in HF2. exact HF2. }
      assert (Bu : abs_sum e <= G * e1 * Rabs h).
      { eapply Rle_trans; [apply IB; auto|]. eapply Rle_trans; [apply Rmult_le_compat_l; [lra|exact Be]|]. unfold G. right. ring. }
      pose proof (entry_le e i) as En. unfold e in En at 1. rewrite nth_vsub, nth_vscale in En by (rewrite vscale_length; congruence). unfold u in En. rewrite nth_vsub in En by congruence.
      replace ((nth i (X (s + h)) 0 - nth i (X s) 0) / h - nth i d 0) with ((nth i (X (s + h)) 0 - nth i (X s) 0 - h * nth i d 0) * / h) by (field; auto).
      rewrite Rabs_mult, Rabs_inv. apply Rmult_lt_reg_r with (Rabs h); [auto|]. rewrite Rmult_assoc, Rinv_l, Rmult_1_r by lra.
      eapply Rle_lt_trans; [exact En|]. eapply Rle_lt_trans; [exact Bu|]. apply Rmult_lt_compat_r; [auto|].
      unfold e1. apply Rmult_lt_reg_r with (2 * (G + 1)); [lra|]. replace (G * (eps / (2 * (G + 1))) * (2 * (G + 1))) with (G * eps) by (field; lra). nra.
    + intros s Hs. destruct (XS s ltac:(lra)) as (_ & _ & ->). clear. induction n; cbn; constructor; auto.
    + intros s Hs. destruct (XS s ltac:(lra)) as (L1 & L2 & _). apply (NP (X s) (line th t1 s) L1 (LL s) ltac:(lra) (DR s ltac:(lra))).
    + intros s Hs. destruct (XS s ltac:(lra)) as (L1 & L2 & _). destruct (NP (X s) (line th t1 s) L1 (LL s) ltac:(lra) (DR s ltac:(lra))) as (SM & NO & _).
      exists (A (X s) (line th t1 s)). split; [|exact NO]. unfold derivatives_at, Am. set (v := st (X s) (line th t1 s)) in *. clearbody v. clear - SM.
      induction SM as [|e l He _ IH]; cbn [map]; [constructor|]. constructor; [|exact IH]. clear IH.
      induction vs as [|y l' IHv]; cbn [map]; [constructor|]. constructor; [now apply deriv_val|exact IHv].
  - intros y Ly Dy Zy. apply dist_zero; [rewrite Ly; symmetry; apply XS; lra|].
    eapply Rle_trans; [apply (LIP 1 1 (X 1) y); [apply HX|]|rewrite dist_self; lra]. split; [auto|]. split; [auto|]. rewrite CI, line_1 by (auto; lra). exact Zy.
Qed.
End Path.

Lemma c120_euler__p :
  forall sub_into dict_order cse linalg_solve, walks_set dict_order -> eliminates cse ->
  forall variables parameters equations x0 theta0,
    let names := variables ++ parameters in
    NoDup names -> (forall n m, In n names -> In m names -> n <> (m ++ "_0")%string) ->
    (forall n, In n names -> is_name n = true) -> (forall n, In n parameters -> ~ In n reserved) ->
    variables <> [] -> length equations = length variables ->
    (forall e, In e equations -> indexed_exprs e = [] /\ forall s, In s (atoms e) -> In s names) ->
    length x0 = length variables -> length theta0 = length parameters ->
    right_solver linalg_solve (length variables) -> regular_solution variables parameters equations x0 theta0 ->
    exists rho delta, 0 < rho /\ 0 < delta /\
    forall theta1, length theta1 = length parameters -> dist1 theta1 theta0 <= delta ->
    exists x1, length x1 = length variables /\ dist1 x1 x0 <= rho /\
      Forall (fun r => r = 0) (values_at variables parameters equations x1 theta1) /\
      (forall y, length y = length variables -> dist1 y x0 <= rho -> Forall (fun r => r = 0) (values_at variables parameters equations y theta1) -> y = x1) /\
      exists C N, 0 <= C /\ forall n, (N <= n)%nat ->
        exists rows, numba_euler sub_into dict_order cse linalg_solve false variables parameters equations x0 theta0 theta1 n = Ok rows /\
          length rows = S n /\ exists x, nth_error rows n = Some (x ++ theta1) /\ within (C / INR n) x x1.
Proof.
  intros sub_into dict_order cse ls H1 H2 vs ps eqs x0 th0 names ND H3 H4 H5 NE SQ H6 LX LT HS RS.
  destruct (@path_exists vs ps eqs th0 x0 ls ND SQ LT LX RS HS) as (rho & delta & Hr & Hd & H). exists rho, delta. split; [auto|]. split; [auto|].
  intros th1 Lt1 Dt1. destruct (H th1 Lt1 Dt1) as (X & SP & X0 & D1 & U).
  assert (O1 : 0 <= 1 <= 1) by lra. assert (L1 := so_length SP O1). assert (Z1 := so_solution SP O1). rewrite line_1 in Z1 by congruence.
  exists (X 1). split; [exact L1|]. split; [exact D1|]. split; [exact Z1|]. split.
  { intros y Ly Dy Zy. apply U; auto. rewrite (all_zeros Zy). f_equal. apply f_length; auto. }
  destruct (@c118_rate__p sub_into dict_order cse ls H1 H2 vs ps eqs th0 th1 X ND H3 H4 H5 NE SQ H6 LT Lt1 HS SP) as (C & N & HC & HN).
  exists C, N. split; [auto|]. intros n Hn. destruct (HN n Hn) as (_ & rows & E & Lr & _ & x & Ex & Wx & _). rewrite X0 in E.
  exists rows. split; [exact E|]. split; [exact Lr|]. exists x. auto.
Qed.

(** A shock after which there is no solution: p p = a, with a from 1 to -1 *)
Lemma nw_regular1 : regular_solution ["p"] ["a"] [nw_eq] [1] [1].
Proof.
  constructor.
  - constructor; [|constructor]. cbn. ring.
  - constructor; [|constructor]. cbn. tauto.
  - exists [[2]]. split.
    + constructor; [|constructor]. constructor; [|constructor].
      assert (Sm : smooth (state_of (["p"] ++ ["a"]) ([1] ++ [1])) no_arrays nw_eq) by (cbn; tauto).
      pose proof (@deriv_val (state_of (["p"] ++ ["a"]) ([1] ++ [1])) no_arrays "p" nw_eq Sm) as D. unfold partial_derivative.
      eapply eq_rect; [exact D|]. cbn. lra.
    + intros [|u [|]] [|v [|]] Lu Lv E; try discriminate. unfold mv, dot in E. cbn in E. injection E as E. f_equal. lra.
Qed.
Lemma c120_large_refuted__p :
  exists variables parameters equations x0 theta0 theta1,
    let names := variables ++ parameters in
    NoDup names /\ (forall n m, In n names -> In m names -> n <> (m ++ "_0")%string) /\
    (forall n, In n names -> is_name n = true) /\ (forall n, In n parameters -> ~ In n reserved) /\
    variables <> [] /\ length equations = length variables /\
    (forall e, In e equations -> indexed_exprs e = [] /\ forall s, In s (atoms e) -> In s names) /\
    length x0 = length variables /\ length theta0 = length parameters /\ length theta1 = length parameters /\
    regular_solution variables parameters equations x0 theta0 /\
    (forall y, length y = length variables -> ~ Forall (fun r => r = 0) (values_at variables parameters equations y theta1)) /\
    forall sub_into dict_order cse linalg_solve, walks_set dict_order -> eliminates cse -> right_solver linalg_solve (length variables) ->
      exists rows, numba_euler sub_into dict_order cse linalg_solve false variables parameters equations x0 theta0 theta1 1 = Ok rows.
Proof.
  exists ["p"], ["a"], [nw_eq], [1], [1], [-1]. intros names.
  assert (H1 : NoDup names) by (repeat constructor; cbn; intuition discriminate).
  assert (H2 : forall n m, In n names -> In m names -> n <> (m ++ "_0")%string) by (intros n m [<-|[<-|[]]] [<-|[<-|[]]]; discriminate).
  assert (H3 : forall n, In n names -> is_name n = true) by (intros n [<-|[<-|[]]]; reflexivity).
  assert (H4 : forall n, In n ["a"] -> ~ In n reserved) by (intros n [<-|[]]; cbn; intuition discriminate).
  assert (H5 : forall e, In e [nw_eq] -> indexed_exprs e = [] /\ forall s, In s (atoms e) -> In s names) by (intros e [<-|[]]; split; [reflexivity|cbn; tauto]).
  split; [exact H1|]. split; [exact H2|]. split; [exact H3|]. split; [exact H4|]. split; [discriminate|]. split; [reflexivity|]. split; [exact H5|].
  split; [reflexivity|]. split; [reflexivity|]. split; [reflexivity|]. split; [exact nw_regular1|]. split.
  - intros [|p [|]] L Z; try discriminate. apply Forall_cons_iff in Z as (Z & _). cbn in Z. nra.
  - intros si dord cse ls DO EL RS. unfold numba_euler. cbn [length Nat.eqb].
    set (D := fun x e => val (state_of (["p"] ++ ["a"]) ([1] ++ [1])) no_arrays (diff x e)).
    assert (LS : length (vdiv (vsub [-1] [1]) 1) = 1%nat) by reflexivity.
    assert (SF : forall e, In e [nw_eq] -> smooth (state_of (["p"] ++ ["a"]) ([1] ++ [1])) no_arrays e) by (intros e [<-|[]]; cbn; tauto).
    pose proof (@c41_step__p si dord cse ls DO EL ["p"] ["a"] [nw_eq] [1] [1] (vdiv (vsub [-1] [1]) 1) H1 H2 H3 H4 ltac:(discriminate) ltac:(discriminate) H5 eq_refl eq_refl LS no_arrays D SF) as Q.
    cbn [euler_rows]. rewrite Q by (intros e x He _; apply deriv_val; auto). cbn [bind]. unfold checked_add. rewrite !app_length, map_length.
    destruct (RS [[D "p" nw_eq]]) with (b := map (fun e => rsum (map (fun jx => D (fst jx) e * snd jx) (combine ["a"] (vdiv (vsub [-1] [1]) 1)))) [nw_eq]) as (L & _).
    + split; [reflexivity|]. intros row [<-|[]]. reflexivity.
    + intros [|u [|]] [|v [|]] Lu Lv E; try discriminate. unfold D, mv, dot in E. cbn in E. injection E as E. f_equal. lra.
    + reflexivity.
    + cbn [map] in L |- *. rewrite L. cbn. eexists. reflexivity.
Qed.
