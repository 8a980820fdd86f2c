(** C115. *)
From Coq Require Import Reals Lra.
From Verif Require Import Py PyStr NdArray M_Primitives M_Utilities M_Wrappers M_Euler S_Layout S_Euler S_Converge L_Euler L_Euler3 L_Converge.
Local Open Scope list_scope.
Local Open Scope R_scope.

Lemma inc_sized A B solve nv np : (forall x th, length (B x th) = nv) -> (forall m v, length (solve m v) = length v) ->
  well_sized (euler_inc A B solve) nv np.
Proof. intros HB HS x th d _ _ _. unfold euler_inc. rewrite vneg_length, HS, mv_length. apply HB. Qed.

Lemma c115_bound__p :
  forall (b : backend) (use_rk4 : bool) (F : list R -> list R -> list R) (A B : list R -> list R -> list (list R))
         (solve : list (list R) -> list R -> list R) (c : coords) (vars params : list mobj) (sv sp : list (list nat)) (data : dict (arr R))
         (x0 theta0 theta1 : list R) (X X' : R -> list R) (r L M : R) (n : nat),
  euler_input c vars params sv sp data x0 theta0 theta1 -> supports b use_rk4 ->
  (forall x th, length (B x th) = total sv) -> (forall m v, length (solve m v) = length v) ->
  equilibrium_path F A B solve (total sv) (total sp) x0 theta0 theta1 X X' r L M -> 0 < r -> 0 <= L -> 0 <= M ->
  (1 <= n)%nat -> L <= INR n -> 12 * M * exp (2 * L) <= r * INR n ->
  exists out, run_euler b use_rk4 (euler_inc A B solve) vars params c theta1 n data = Ok out /\
    forall t, (first_step b <= t <= n)%nat ->
      within (3 * M * exp (2 * L) / INR n) (firstn (total sv) (row_of out (t - first_step b))) (X (INR t / INR n)).
Proof.
  intros b rk4 F A B solve c vars params sv sp data x0 th0 th1 X X' r L M n H Hs HB HS EP R0 L0 M0 Hn HL HR.
  destruct (@run_row b rk4 (euler_inc A B solve) c vars params sv sp data x0 th0 th1 n H Hs (inc_sized A B solve HB HS)) as (out & E & _ & HRow).
  exists out. split; [exact E|]. destruct (input_lengths H) as (Lx & Lt & _). pose proof (ei_final H) as L1.
  intros t Ht. destruct (HRow t Ht) as (Er & La & _). rewrite Er, firstn_app, <- La, firstn_all, Nat.sub_diag. cbn [firstn]. rewrite app_nil_r.
  apply (all_steps EP R0 L0 M0 Lt L1 rk4 Hn HL HR). lia.
Qed.

Lemma large_number (q : R) : exists N, forall n, (N <= n)%nat -> q <= INR n.
Proof.
  exists (Z.to_nat (up q)). intros n Hn. destruct (archimed q) as (U & _). apply le_INR in Hn.
  assert (Q : IZR (up q) <= INR (Z.to_nat (up q))).
  { rewrite INR_IZR_INZ. apply IZR_le. lia. }
  lra.
Qed.

Lemma c115_limit__p :
  forall (b : backend) (use_rk4 : bool) (F : list R -> list R -> list R) (A B : list R -> list R -> list (list R))
         (solve : list (list R) -> list R -> list R) (c : coords) (vars params : list mobj) (sv sp : list (list nat)) (data : dict (arr R))
         (x0 theta0 theta1 : list R) (X X' : R -> list R) (r L M : R),
  euler_input c vars params sv sp data x0 theta0 theta1 -> supports b use_rk4 ->
  (forall x th, length (B x th) = total sv) -> (forall m v, length (solve m v) = length v) ->
  equilibrium_path F A B solve (total sv) (total sp) x0 theta0 theta1 X X' r L M -> 0 < r -> 0 <= L -> 0 <= M ->
  F (X 1) theta1 = zeros (total sv) /\
  forall eps, 0 < eps -> exists N, forall n, (N <= n)%nat ->
    exists out, run_euler b use_rk4 (euler_inc A B solve) vars params c theta1 n data = Ok out /\
      (forall t, (first_step b <= t <= n)%nat -> within eps (firstn (total sv) (row_of out (t - first_step b))) (X (INR t / INR n))) /\
      within eps (firstn (total sv) (row_of out (n - first_step b))) (X 1) /\
      skipn (total sv) (row_of out (n - first_step b)) = theta1 /\
      within eps (F (firstn (total sv) (row_of out (n - first_step b))) theta1) (zeros (total sv)).
Proof.
  intros b rk4 F A B solve c vars params sv sp data x0 th0 th1 X X' r L M H Hs HB HS EP R0 L0 M0.
  destruct (input_lengths H) as (Lx & Lt & _). pose proof (ei_final H) as L1.
  assert (TT : length th0 = length th1) by congruence.
  assert (I1 : 0 <= 1 <= 1) by lra. pose proof (ep_solution EP I1) as S1. rewrite (line_1 _ _ TT) in S1. split; [exact S1|].
  intros eps He. pose proof (ep_differentiable EP I1 (eps := 1) ltac:(lra)) as (del & D0 & D). rewrite (line_1 _ _ TT) in D.
  destruct (ep_systems EP I1 (within_refl (X 1) (Rlt_le _ _ R0))) as ((A1 & A2) & (B1 & B2) & _). rewrite (line_1 _ _ TT) in A1, A2, B1, B2.
  set (A0 := A (X 1) th1) in *. set (B0 := B (X 1) th1) in *.
  destruct (ep_length EP I1) as (LX & _).
  (* the rows of the Jacobian at the end are bounded *)
  assert (RB : exists k, 0 <= k /\ forall row v m, In row A0 -> 0 <= m -> (forall i, Rabs (nth i v 0) <= m) -> Rabs (dot row v) <= k * m).
  { clear - A0. clearbody A0. induction A0 as [|row A0 (k & K0 & K)]; [exists 0; split; [lra|]; intros ? ? ? []|].
    assert (RR : exists k, 0 <= k /\ forall v m, 0 <= m -> (forall i, Rabs (nth i v 0) <= m) -> Rabs (dot row v) <= k * m).
    { clear. induction row as [|a row (k & K0 & K)].
      - exists 0. split; [lra|]. intros. unfold dot. cbn. rewrite Rabs_R0. lra.
      - exists (Rabs a + k). pose proof (Rabs_pos a). split; [lra|]. intros [|y v] m Hm Hv.
        + unfold dot. cbn. rewrite Rabs_R0. nra.
        + change (dot (a :: row) (y :: v)) with (a * y + dot row v). eapply Rle_trans; [apply Rabs_triang|]. rewrite Rabs_mult.
          specialize (K v m Hm (fun i => Hv (S i))). pose proof (Hv 0%nat) as Y. cbn in Y.
          assert (Rabs a * Rabs y <= Rabs a * m) by (apply Rmult_le_compat_l; auto). lra. }
    destruct RR as (k' & K0' & K'). exists (k + k'). split; [lra|]. intros w v m [<-|Hw] Hm Hv.
    - specialize (K' v m Hm Hv). nra.
    - specialize (K w v m Hw Hm Hv). nra. }
  destruct RB as (kr & KR0 & KR).
  set (C := 3 * M * exp (2 * L)). assert (C0 : 0 <= C) by (unfold C; pose proof (exp_pos (2 * L)); nra).
  set (g := Rmin eps (Rmin del (eps / (kr + 1)))).
  assert (G0 : 0 < g) by (unfold g; repeat apply Rmin_pos; try lra; apply Rdiv_lt_0_compat; lra).
  assert (G1 : g <= eps) by apply Rmin_l.
  assert (G2 : g <= del) by (eapply Rle_trans; [apply Rmin_r|apply Rmin_l]).
  assert (G3 : (kr + 1) * g <= eps).
  { assert (Q : g <= eps / (kr + 1)) by (eapply Rle_trans; [apply Rmin_r|apply Rmin_r]).
    apply Rmult_le_compat_l with (r := kr + 1) in Q; [|lra]. replace ((kr + 1) * (eps / (kr + 1))) with eps in Q by (field; lra). exact Q. }
  destruct (large_number L) as (N1 & H1), (large_number (4 * C / r)) as (N2 & H2), (large_number (C / g)) as (N3 & H3).
  exists (1 + N1 + N2 + N3)%nat. intros n Hn. assert (Hn1 : (1 <= n)%nat) by lia. assert (P : 0 < INR n) by (apply lt_0_INR; lia).
  specialize (H1 n ltac:(lia)). specialize (H2 n ltac:(lia)). specialize (H3 n ltac:(lia)).
  assert (HR : 12 * M * exp (2 * L) <= r * INR n).
  { apply Rmult_le_compat_l with (r := r) in H2; [|lra]. replace (r * (4 * C / r)) with (4 * C) in H2 by (field; lra). unfold C in H2. lra. }
  assert (HG : C / INR n <= g).
  { apply Rmult_le_compat_l with (r := g) in H3; [|lra]. replace (g * (C / g)) with C in H3 by (field; lra).
    apply Rmult_le_reg_r with (INR n); [lra|]. replace (C / INR n * INR n) with C by (field; lra). exact H3. }
  destruct (@c115_bound__p b rk4 F A B solve c vars params sv sp data x0 th0 th1 X X' r L M n H Hs HB HS EP R0 L0 M0 Hn1 H1 HR) as (out & E & W).
  fold C in W. destruct (@c37_line__p b rk4 (euler_inc A B solve) c vars params sv sp data x0 th0 th1 n H Hs (inc_sized A B solve HB HS) Hn1) as (out' & E' & _ & _ & HT).
  assert (out' = out) by congruence. subst out'.
  assert (FS : (first_step b <= n)%nat) by (destruct b; cbn; lia).
  assert (WL : within g (firstn (total sv) (row_of out (n - first_step b))) (X 1)).
  { specialize (W n ltac:(lia)). replace (INR n / INR n) with 1 in W by (field; lra). eapply within_mono; [exact W|exact HG]. }
  exists out. split; [exact E|]. split; [|split; [|split; [exact HT|]]].
  - intros t Ht. eapply within_mono; [apply (W t Ht)|lra].
  - eapply within_mono; [exact WL|lra].
  - set (xf := firstn (total sv) (row_of out (n - first_step b))) in *.
    pose proof (D xf th1 g (conj (Rlt_le _ _ G0) G2) WL (within_refl th1 (Rlt_le _ _ G0))) as WF. fold A0 B0 in WF.
    rewrite S1 in WF. rewrite vsub_self in WF.
    destruct WF as (F1 & F2). destruct WL as (LW & WL).
    assert (LV : length (vsub xf (X 1)) = total sv) by (rewrite vsub_length; congruence).
    assert (LI : length (vadd (mv A0 (vsub xf (X 1))) (mv B0 (zeros (length th1)))) = total sv) by (rewrite vadd_length; rewrite !mv_length; congruence).
    assert (LF : length (F xf th1) = total sv) by (rewrite F1, vadd_length; rewrite zeros_length; auto).
    split; [now rewrite zeros_length|]. intros i Hi. rewrite LF in Hi. specialize (F2 i ltac:(lia)).
    assert (NZ : nth i (zeros (total sv)) 0 = 0) by (unfold zeros; apply nth_repeat).
    unfold vadd in F2 at 1. rewrite nth_vmap2_0 in F2 by (rewrite ?zeros_length; auto).
    unfold vadd in F2. rewrite nth_vmap2_0 in F2 by (rewrite !mv_length; lia).
    assert (NM : forall Q v, nth i (mv Q v) 0 = dot (nth i Q []) v).
    { intros Q v. unfold mv. change 0 with (dot [] v) at 1. apply (map_nth (fun row => dot row v)). }
    rewrite NZ, !NM, dot_zeros in F2. rewrite NZ.
    assert (KK : Rabs (dot (nth i A0 []) (vsub xf (X 1))) <= kr * g).
    { apply KR; [apply nth_In; lia|lra|]. intros j. destruct (Nat.lt_ge_cases j (total sv)) as [J|J].
      - unfold vsub. rewrite nth_vmap2_0 by lia. apply WL. lia.
      - rewrite nth_overflow by lia. rewrite Rabs_R0. lra. }
    replace (nth i (F xf th1) 0 - 0) with ((nth i (F xf th1) 0 - (0 + (dot (nth i A0 []) (vsub xf (X 1)) + 0))) + dot (nth i A0 []) (vsub xf (X 1))) by ring.
    eapply Rle_trans; [apply Rabs_triang|]. lra.
Qed.
