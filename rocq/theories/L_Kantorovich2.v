(** C116. *)
From Coq Require Import Reals Lra.
From Verif Require Import Py PyStr NdArray M_Primitives M_Utilities M_Wrappers M_Euler M_Newton.
From Verif Require Import S_Layout S_Euler S_Newton S_Kantorovich L_Utilities L_Layout L_Wrappers L_Euler L_Euler2 L_Euler3 L_Newton L_Kantorovich.
Local Open Scope list_scope.
Local Open Scope R_scope.

Section Run.
  Context (F : list (arr R) -> res (list R)) (J : list (arr R) -> res (list (list R))) (solve : list (list R) -> list R -> res (list R)).
  Context (parameters : option (list (arr R))) (x0 : list (arr R)) (step tol rho beta K u0 : R).
  Hypothesis Hp : parameters <> Some [].
  Hypothesis Hx : x0 <> [].
  Hypothesis W0 : Forall (fun a => arr_wf a) x0.
  Hypothesis Reg : newton_region F J solve parameters x0 rho beta K.
  Hypothesis Hu : residual_norm F parameters x0 u0.
  Hypothesis S0 : 0 < step <= 1.
  Hypothesis T0 : 0 < tol.
  Hypothesis B0 : 0 <= beta.
  Hypothesis K0 : 0 <= K.
  Hypothesis Hq : 2 * (K * beta ^ 2 * u0) <= 1.
  Hypothesis Hr : 2 * beta * u0 <= rho.
  Let shapes := map (@ashape R) x0.
  Let n := length (flat x0).
  Definition f_of (y : list R) : list R := match F (at_point parameters (chop shapes y)) with Ok r => r | Err _ => [] end.
  Definition j_of (y : list R) : list (list R) := match J (at_point parameters (chop shapes y)) with Ok j => j | Err _ => [] end.
  Definition g_of (y : list R) : list R := match solve (j_of y) (f_of y) with Ok s => s | Err _ => [] end.

  Lemma good0 : good shapes x0.
  Proof. split; [reflexivity|exact W0]. Qed.
  Lemma n_total : n = total shapes.
  Proof. apply (good_flat good0). Qed.

  Lemma chop_around y : inside n (flat x0) rho y -> around x0 rho (chop shapes y) /\ flat (chop shapes y) = y.
  Proof.
    intros (L & D). rewrite n_total in L. destruct (good_chop _ _ L) as ((G1 & G2) & E). split; [|exact E].
    split; [exact G1|]. split; [exact G2|]. now rewrite E.
  Qed.

  Lemma systems y : inside n (flat x0) rho y ->
    F (at_point parameters (chop shapes y)) = Ok (f_of y) /\ J (at_point parameters (chop shapes y)) = Ok (j_of y) /\ solve (j_of y) (f_of y) = Ok (g_of y) /\
    length (f_of y) = n /\ length (j_of y) = n /\ length (g_of y) = n /\ mv (j_of y) (g_of y) = f_of y /\ abs_sum (g_of y) <= beta * abs_sum (f_of y).
  Proof.
    intros I. destruct (chop_around I) as (A & _). destruct (nr_systems Reg A) as (r & j & s & E1 & E2 & E3 & L1 & (L2 & _) & L3 & E & Hb).
    unfold g_of. assert (Ef : f_of y = r) by (unfold f_of; now rewrite E1). assert (Ej : j_of y = j) by (unfold j_of; now rewrite E2).
    rewrite Ef, Ej, E3. auto 10.
  Qed.

  Lemma HG y : inside n (flat x0) rho y -> length (f_of y) = n /\ length (j_of y) = n /\ length (g_of y) = n /\ mv (j_of y) (g_of y) = f_of y /\ abs_sum (g_of y) <= beta * abs_sum (f_of y).
  Proof. intros I. apply (systems I). Qed.

  Lemma HT y z : inside n (flat x0) rho y -> inside n (flat x0) rho z -> dist1 (f_of z) (vadd (f_of y) (mv (j_of y) (vsub z y))) <= K * dist1 z y ^ 2.
  Proof.
    intros I I'. destruct (chop_around I) as (A & E), (chop_around I') as (A' & E').
    destruct (systems I) as (F1 & J1 & _), (systems I') as (F2 & _).
    pose proof (nr_taylor Reg A A' F1 F2 J1) as T. rewrite E, E' in T. exact T.
  Qed.

  Let bud := budget f_of n (flat x0) beta u0.
  Lemma bud_inside y : bud y -> inside n (flat x0) rho y.
  Proof. apply (budget_inside B0 Hr). Qed.

  Lemma u0_abs : abs_sum (f_of (flat x0)) = u0.
  Proof.
    destruct Hu as (r & E & ->). unfold f_of. destruct (good_flat good0) as (_ & C). rewrite C, E. reflexivity.
  Qed.
  Lemma bud0 : bud (flat x0).
  Proof. split; [reflexivity|]. rewrite dist_self, u0_abs. lra. Qed.

  Definition unconverged (t : nat) (u : R) : Prop :=
    u <= (1 - step / 2) ^ t * u0 /\ (step = 1 -> K * beta ^ 2 * u <= (K * beta ^ 2 * u0) ^ (2 ^ t)).
  Record inv (t : nat) (st : nstate) : Prop := {
    i_good : good shapes (nx st);
    i_bud : bud (flat (nx st));
    i_done : nconv st = true -> abs_sum (f_of (flat (nx st))) < tol;
    i_todo : nconv st = false -> nstep st = step /\ unconverged t (abs_sum (f_of (flat (nx st)))) }.

  Let has_exog := match parameters with None => false | Some _ => true end.
  Let exog := process_root_data parameters.

  Lemma Hsh : shapes <> [].
  Proof. intros E. apply map_eq_nil in E. contradiction. Qed.

  Lemma body_inv t st m : length (nx st) = m -> inv t st ->
    exists st', scan_body F J solve has_exog step tol m (length exog) st exog = Ok st' /\ length (nx st') = m /\ inv (S t) st' /\
      ((1 - step / 2) ^ t * u0 < tol -> nconv st' = true).
  Proof.
    intros Hm I. destruct I as [G B D T].
    assert (Lm : forall x, good shapes x -> length x = m).
    { intros x Gx. rewrite <- Hm, <- (map_length (@ashape R) x), <- (map_length (@ashape R) (nx st)). now rewrite (proj1 Gx), (proj1 G). }
    unfold has_exog, exog. rewrite (@body_unfold F J solve parameters shapes step tol Hp Hsh st m G Hm). destruct (nconv st) eqn:Ec.
    - cbn [bind]. rewrite rlt_irrefl, (ragged_good G). cbn [bind]. eexists. split; [reflexivity|]. split; [now apply Lm|]. split; [|reflexivity].
      constructor; cbn [nx nconv nstep]; auto. discriminate.
    - destruct (T eq_refl) as (Es & U1 & U2). clear D T.
      set (y := flat (nx st)) in *. pose proof (bud_inside B) as Iy. destruct (systems Iy) as (F1 & J1 & V1 & Lf & Lj & Lg & _ & _).
      destruct (good_flat G) as (Ly & Cy). fold y in Ly, Cy. rewrite Cy in F1, J1.
      assert (Sk : 0 <= step <= 1) by lra.
      pose proof (next_inside g_of j_of eq_refl B0 HG Hr Sk B) as Iz. set (z := next g_of step y) in *.
      destruct (next_half g_of j_of eq_refl B0 K0 HG HT Hq Hr Sk B) as (Hh & Bz). fold z in Hh, Bz.
      pose proof (next_residual f_of g_of j_of K0 HG HT Sk Iy Iz) as Hz. fold z in Hz.
      destruct (systems Iz) as (F2 & _). destruct (chop_around Iz) as (Az & Ez). destruct Iz as (Lz & Dz).
      assert (Gz : good shapes (chop shapes z)) by (split; apply Az).
      assert (NS : newton_step F J solve (match parameters with None => false | Some _ => true end) y (process_root_data parameters) (nstep st) shapes = Ok (y, z, f_of y, f_of z)).
      { unfold newton_step. unfold y at 1. rewrite (ragged_good G). cbn [bind]. rewrite !eval_at, F1 by exact Hp. cbn [bind]. rewrite J1. cbn [bind]. rewrite V1. cbn [bind].
        rewrite Es. unfold vsub_checked. rewrite vscale_length, Lg. fold n in Lz. destruct Iy as (Ly' & _). rewrite Ly', Nat.eqb_refl. cbn [bind].
        change (vsub y (vscale step (g_of y))) with z. rewrite (proj1 G), ragged_chop0 by (rewrite Lz; apply n_total). cbn [bind]. rewrite eval_at, F2 by exact Hp. reflexivity. }
      rewrite NS. cbn [bind]. rewrite !norm1_abs.
      pose proof (abs_pos (f_of y)) as Up. pose proof (abs_pos (f_of z)) as Uz.
      assert (Er : ragged (if rlt (abs_sum (f_of z)) (abs_sum (f_of y)) then z else y) 0 shapes = Ok (if rlt (abs_sum (f_of z)) (abs_sum (f_of y)) then chop shapes z else nx st)).
      { destruct (rlt _ _); [apply ragged_chop0; rewrite Lz; apply n_total|unfold y; apply (ragged_good G)]. }
      rewrite Er. cbn [bind]. eexists. split; [reflexivity|]. split; [cbn [nx]; destruct (rlt (abs_sum (f_of z)) (abs_sum (f_of y))); now apply Lm|].
      split.
      + constructor; cbn [nx nconv nstep].
        * destruct (rlt (abs_sum (f_of z)) (abs_sum (f_of y))); assumption.
        * destruct (rlt (abs_sum (f_of z)) (abs_sum (f_of y))); [rewrite Ez; exact Bz|exact B].
        * intros Hc. apply rlt_true in Hc. destruct (rlt (abs_sum (f_of z)) (abs_sum (f_of y))) eqn:Ed; [|exact Hc].
          apply rlt_true in Ed. rewrite Ez. lra.
        * intros Hc. apply rlt_false in Hc.
          assert (Lt : abs_sum (f_of z) < abs_sum (f_of y)) by nra.
          assert (Ed : rlt (abs_sum (f_of z)) (abs_sum (f_of y)) = true) by (unfold rlt; destruct (Rlt_dec _ _); [reflexivity|contradiction]).
          rewrite Ed, Ez. split; [reflexivity|]. split.
          -- cbn [pow]. rewrite Rmult_assoc. eapply Rle_trans; [exact Hh|]. apply Rmult_le_compat_l; [lra|exact U1].
          -- intros E1. specialize (U2 E1). rewrite E1 in Hz. replace (2 ^ S t)%nat with (2 ^ t + 2 ^ t)%nat by (cbn; lia). rewrite pow_add.
             set (w := abs_sum (f_of y)) in *. assert (KB : 0 <= K * beta ^ 2) by (apply Rmult_le_pos; [auto|apply pow_le; auto]).
             apply Rle_trans with ((K * beta ^ 2 * w) * (K * beta ^ 2 * w)).
             ++ replace ((K * beta ^ 2 * w) * (K * beta ^ 2 * w)) with (K * beta ^ 2 * ((1 - 1) * w + K * (1 * beta * w) ^ 2)) by ring.
                apply Rmult_le_compat_l; auto.
             ++ assert (0 <= K * beta ^ 2 * w) by (apply Rmult_le_pos; auto). apply Rmult_le_compat; auto.
      + intros Ht. cbn [nconv]. unfold rlt. destruct (Rlt_dec _ _) as [|N]; [reflexivity|]. exfalso. apply N. lra.
  Qed.

  Lemma loop_inv m k : forall t st, length (nx st) = m -> inv t st ->
    exists hist, newton_loop F J solve has_exog step tol m (length exog) k st exog = Ok hist /\ length hist = k /\
      forall i s, nth_error hist i = Some s -> inv (S (t + i)) s /\ ((1 - step / 2) ^ (t + i) * u0 < tol -> nconv s = true).
  Proof.
    induction k as [|k IH]; intros t st Hm I; cbn [newton_loop].
    - exists []. split; [reflexivity|]. split; [reflexivity|]. intros [|i] s H; discriminate.
    - destruct (body_inv Hm I) as (st' & E & Hm' & I' & C). rewrite E. cbn [bind].
      destruct (IH (S t) st' Hm' I') as (hist & E2 & L & H). rewrite E2. cbn [bind]. eexists. split; [reflexivity|]. split; [cbn; lia|].
      intros [|i] s Hs.
      + injection Hs as <-. rewrite Nat.add_0_r. auto.
      + cbn [nth_error] in Hs. replace (t + S i)%nat with (S t + i)%nat by lia. now apply H.
  Qed.

  Lemma norm_of st : good shapes (nx st) -> bud (flat (nx st)) -> residual_norm F parameters (nx st) (abs_sum (f_of (flat (nx st)))).
  Proof.
    intros G B. destruct (systems (bud_inside B)) as (F1 & _). destruct (good_flat G) as (_ & C). rewrite C in F1.
    eexists. split; [exact F1|]. reflexivity.
  Qed.

  Lemma run_inv max_iter : exists hist, newton_root F J solve x0 parameters step tol max_iter = Ok hist /\ length hist = max_iter /\
    forall t st, nth_error hist t = Some st -> inv (S t) st /\ ((1 - step / 2) ^ t * u0 < tol -> nconv st = true).
  Proof.
    assert (I : inv 0 (mkN x0 false step 0)).
    { constructor; cbn [nx nconv nstep].
      - apply good0.
      - apply bud0.
      - discriminate.
      - intros _. split; [reflexivity|]. rewrite u0_abs. split; cbn; [lra|]. intros _. lra. }
    apply (@loop_inv (length x0) max_iter 0%nat (mkN x0 false step 0) eq_refl I).
  Qed.

  Lemma near st : good shapes (nx st) -> bud (flat (nx st)) ->
    exists xs, map (@ashape R) xs = map (@ashape R) x0 /\ Forall (fun a => arr_wf a) xs /\ F (at_point parameters xs) = Ok (zeros n) /\
      dist1 (flat xs) (flat (nx st)) <= 2 * beta * abs_sum (f_of (flat (nx st))).
  Proof.
    intros G B. destruct (solution_near g_of j_of eq_refl B0 K0 HG HT Hq Hr B) as (z & Iz & Ez & Dz).
    destruct (chop_around Iz) as ((A1 & A2 & A3) & E). destruct (systems Iz) as (F1 & _). exists (chop shapes z).
    split; [exact A1|]. split; [exact A2|]. split; [rewrite F1, Ez; reflexivity|]. rewrite E. exact Dz.
  Qed.
End Run.

Lemma c116_converges__p :
  forall (F : list (arr R) -> res (list R)) (J : list (arr R) -> res (list (list R)))
         (solve : list (list R) -> list R -> res (list R)) (parameters : option (list (arr R))) (x0 : list (arr R))
         (step tol rho beta K u0 : R) (max_iter : nat),
  parameters <> Some [] -> x0 <> [] -> Forall (fun a => arr_wf a) x0 ->
  newton_region F J solve parameters x0 rho beta K -> residual_norm F parameters x0 u0 ->
  0 < step <= 1 -> 0 < tol -> 0 <= beta -> 0 <= K -> 2 * (K * beta ^ 2 * u0) <= 1 -> 2 * beta * u0 <= rho ->
  exists hist, newton_root F J solve x0 parameters step tol max_iter = Ok hist /\ length hist = max_iter /\
    forall t st, nth_error hist t = Some st ->
      exists v, residual_norm F parameters (nx st) v /\ dist1 (flat (nx st)) (flat x0) <= 2 * beta * u0 /\
        (nconv st = true -> v < tol) /\
        (nconv st = false -> nstep st = step /\ v <= (1 - step / 2) ^ S t * u0 /\
           (step = 1 -> K * beta ^ 2 * v <= (K * beta ^ 2 * u0) ^ (2 ^ S t))) /\
        ((1 - step / 2) ^ t * u0 < tol -> nconv st = true).
Proof.
  intros F J solve p x0 step tol rho beta K u0 max_iter Hp Hx W Reg Hu S0 T0 B0 K0 Hq Hr.
  destruct (run_inv Hp Hx W Reg Hu S0 T0 B0 K0 Hq Hr max_iter) as (hist & E & L & H). exists hist. split; [exact E|]. split; [exact L|].
  intros t st Hst. destruct (H t st Hst) as ([G B D T] & C). eexists. split; [apply (norm_of W Reg B0 Hr _ G B)|]. split.
  - destruct B as (_ & B & _). pose proof (abs_pos (f_of F p x0 (flat (nx st)))). assert (0 <= beta * abs_sum (f_of F p x0 (flat (nx st)))) by (apply Rmult_le_pos; auto). lra.
  - split; [exact D|]. split; [exact T|exact C].
Qed.

Lemma c116_solution__p :
  forall (F : list (arr R) -> res (list R)) (J : list (arr R) -> res (list (list R)))
         (solve : list (list R) -> list R -> res (list R)) (parameters : option (list (arr R))) (x0 : list (arr R))
         (step tol rho beta K u0 : R) (max_iter : nat),
  parameters <> Some [] -> x0 <> [] -> Forall (fun a => arr_wf a) x0 ->
  newton_region F J solve parameters x0 rho beta K -> residual_norm F parameters x0 u0 ->
  0 < step <= 1 -> 0 < tol -> 0 <= beta -> 0 <= K -> 2 * (K * beta ^ 2 * u0) <= 1 -> 2 * beta * u0 <= rho ->
  exists hist, newton_root F J solve x0 parameters step tol max_iter = Ok hist /\
    forall st, In st hist ->
      exists v xs, residual_norm F parameters (nx st) v /\ (nconv st = true -> v < tol) /\
        map (@ashape R) xs = map (@ashape R) x0 /\ Forall (fun a => arr_wf a) xs /\
        F (at_point parameters xs) = Ok (zeros (length (flat x0))) /\ dist1 (flat xs) (flat (nx st)) <= 2 * beta * v.
Proof.
  intros F J solve p x0 step tol rho beta K u0 max_iter Hp Hx W Reg Hu S0 T0 B0 K0 Hq Hr.
  destruct (run_inv Hp Hx W Reg Hu S0 T0 B0 K0 Hq Hr max_iter) as (hist & E & L & H). exists hist. split; [exact E|].
  intros st Hst. apply In_nth_error in Hst as (t & Hst). destruct (H t st Hst) as ([G B D T] & _).
  destruct (near W Reg B0 K0 Hq Hr _ G B) as (xs & X1 & X2 & X3 & X4).
  eexists. exists xs. split; [apply (norm_of W Reg B0 Hr _ G B)|]. auto.
Qed.
