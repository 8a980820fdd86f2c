(** Lemmas for C126. *)
From Coq Require Import Reals Lra Classical.
From Verif Require Import Py PyStr NdArray M_Primitives M_Utilities M_Wrappers S_Layout L_Utilities L_Layout L_Wrappers M_SymExpr M_Calculus S_Calculus L_Calculus
  M_Euler M_Newton S_Euler S_Converge S_Newton S_Kantorovich L_Euler L_Euler3 L_Newton L_Converge L_Converge2
  L_Kantorovich S_Trace L_Trace L_Trace2 L_Trace3 L_Trace4 L_Trace5 S_NewtonNear L_NewtonNear L_SmallShock L_PriceLevel L_Walras S_Backtrack L_Backtrack
  M_NewtonNan S_NewtonNan.
Local Open Scope string_scope.
Local Open Scope list_scope.
Local Open Scope R_scope.

Lemma nan_norm_some r : nan_norm1 (map Some r) = Some (abs_sum r).
Proof. induction r as [|a r IH]; [reflexivity|]. unfold nan_norm1, abs_sum in *. cbn [map fold_right]. now rewrite IH. Qed.
Lemma nan_norm_number r v : nan_norm1 r = Some v -> exists l, r = map Some l /\ v = abs_sum l.
Proof.
  revert v. induction r as [|[a|] r IH]; intros v; unfold nan_norm1 in *; cbn [fold_right]; [|destruct (fold_right _ _ r) as [w|] eqn:E; [|discriminate]|discriminate].
  - intros E. injection E as <-. now exists [].
  - destruct (IH w eq_refl) as (l & -> & ->). intros Q. injection Q as <-. now exists (a :: l).
Qed.
Lemma nan_norm_none r : In None r -> nan_norm1 r = None.
Proof.
  unfold nan_norm1. induction r as [|a r IH]; intros H; [destruct H|]. cbn [fold_right]. destruct H as [->|H]; [reflexivity|]. rewrite (IH H). now destruct a.
Qed.
Lemma nan_lt_irrefl a : nan_lt a a = false.
Proof. destruct a; [apply rlt_irrefl|reflexivity]. Qed.
Lemma nan_lt_none a : nan_lt a None = false.
Proof. now destruct a. Qed.

Section Run.
  Context (F : list (arr R) -> res (list (option R))) (J : list (arr R) -> res (list (list (option R))))
    (solve : list (list (option R)) -> list (option R) -> res (option (list R))) (parameters : option (list (arr R))) (shapes : list (list nat)) (init tol : R).
  Hypothesis Hp : parameters <> Some [].
  Hypothesis Hs : shapes <> [].
  Let has_exog := match parameters with None => false | Some _ => true end.
  Let exog := process_root_data parameters.

  Inductive nan_spec (st st' : nstate) : Prop :=
  | n_done : nconv st = true -> nx st' = nx st -> nconv st' = true -> nstep st' = (nstep st * (1 / 2)) -> nan_spec st st'
  | n_step r j s xn rn : nconv st = false ->
             F (at_point parameters (nx st)) = Ok r -> J (at_point parameters (nx st)) = Ok j -> solve j r = Ok (Some s) ->
             good shapes xn -> flat xn = vsub (flat (nx st)) (vscale (nstep st) s) ->
             F (at_point parameters xn) = Ok rn ->
             nconv st' = nan_lt (nan_norm1 r) (Some tol) ->
             nx st' = (if nan_lt (nan_norm1 rn) (nan_norm1 r) then xn else nx st) ->
             nstep st' = (if nan_lt (nan_norm1 rn) (nan_norm1 r) then init else nstep st * (1 / 2)) -> nan_spec st st'
  | n_nan r : nconv st = false -> F (at_point parameters (nx st)) = Ok r ->
             nconv st' = nan_lt (nan_norm1 r) (Some tol) -> nx st' = nx st -> nstep st' = nstep st * (1 / 2) -> nan_spec st st'.

  Lemma nan_unfold st n : good shapes (nx st) -> length (nx st) = n ->
    nan_body F J solve has_exog init tol n (length exog) st exog =
    (let* out := if nconv st then Ok (flat (nx st), flat (nx st), map Some (flat (nx st)), map Some (flat (nx st)))
                 else nan_step F J solve has_exog (flat (nx st)) exog (nstep st) shapes in
     let '(flat_x, flat_new_x, f_x, f_new_x) := out in
     let* return_x := ragged (if nan_lt (nan_norm1 f_new_x) (nan_norm1 f_x) then flat_new_x else flat_x) 0 shapes in
     let c := if nconv st then true else nan_lt (nan_norm1 f_x) (Some tol) in
     Ok (mkN return_x c (if nan_lt (nan_norm1 f_new_x) (nan_norm1 f_x) then init else nstep st * (1 / 2))
             (ncount st + (1 - (if c then 1 else 0))))).
  Proof.
    intros G <-. unfold nan_body, body_args. rewrite firstn_app, firstn_all, Nat.sub_diag. cbn [firstn]. rewrite app_nil_r.
    assert (E : forall a : list (arr R), last_args (length exog) (nx st ++ a ++ exog) = exog).
    { intros a. rewrite app_assoc. apply last_args_app. apply (exog_nonempty Hp). }
    rewrite E. destruct G as (G1 & G2). rewrite G1.
    assert (C : concat_arrays (nx st) = Ok (flat (nx st))).
    { unfold concat_arrays. destruct (nx st); [simpl in G1; congruence|reflexivity]. }
    rewrite C. cbn [bind]. reflexivity.
  Qed.

  Lemma nan_ok st st' n : good shapes (nx st) -> length (nx st) = n ->
    nan_body F J solve has_exog init tol n (length exog) st exog = Ok st' -> nan_spec st st' /\ good shapes (nx st').
  Proof.
    intros G Hn H. rewrite (nan_unfold _ G Hn) in H. destruct (nconv st) eqn:Ec.
    - cbn [bind] in H. rewrite nan_lt_irrefl, (@ragged_good shapes _ G) in H. cbn [bind] in H. injection H as <-. split; [|exact G]. apply n_done; auto.
    - apply bind_ok in H as ((((fx & fnx) & r) & rn) & H1 & H). unfold nan_step in H1.
      rewrite (@ragged_good shapes _ G) in H1. cbn [bind] in H1. unfold has_exog, exog in H1. rewrite !eval_at in H1 by auto.
      apply bind_ok in H1 as (r' & Hr & H1). apply bind_ok in H1 as (j & Hj & H1). apply bind_ok in H1 as (os & Hsv & H1).
      destruct os as [s|]; [|injection H1 as <- <- <- <-; change (nan_norm1 [None]) with (@None R) in H; cbn [nan_lt] in H;
        rewrite (@ragged_good shapes _ G) in H; cbn [bind] in H; injection H as <-; split; [eapply n_nan; eauto|exact G]].
      apply bind_ok in H1 as (fn & Hf & H1). apply bind_ok in H1 as (xn & Hx & H1). rewrite eval_at in H1 by auto.
      apply bind_ok in H1 as (rn' & Hrn & H1). injection H1 as <- <- <- <-.
      unfold vsub_checked in Hf. destruct (Nat.eqb (length (flat (nx st))) (length (vscale (nstep st) s))) eqn:El; [|discriminate].
      apply Nat.eqb_eq in El. rewrite vscale_length in El. injection Hf as <-. destruct (@good_flat shapes _ G) as (Lf & _).
      assert (Ln : length (vsub (flat (nx st)) (vscale (nstep st) s)) = total shapes) by (rewrite vsub_length; [exact Lf|]; rewrite vscale_length; congruence).
      destruct (@good_chop shapes _ Ln) as (Gn & Fn). rewrite (proj1 G) in Hx. rewrite ragged_chop0 in Hx by exact Ln. injection Hx as <-.
      assert (Er : ragged (if nan_lt (nan_norm1 rn') (nan_norm1 r') then vsub (flat (nx st)) (vscale (nstep st) s) else flat (nx st)) 0 shapes =
                   Ok (if nan_lt (nan_norm1 rn') (nan_norm1 r') then chop shapes (vsub (flat (nx st)) (vscale (nstep st) s)) else nx st)).
      { destruct (nan_lt _ _); [now apply ragged_chop0|now apply ragged_good]. }
      rewrite Er in H. cbn [bind] in H. injection H as <-. split.
      + eapply n_step; eauto.
      + cbn [nx]. destruct (nan_lt _ _); assumption.
  Qed.

  (** An invariant of the iterations *)
  Lemma nan_invariant (I : nat -> nstate -> Prop) : (forall t st st', good shapes (nx st) -> I t st -> nan_spec st st' -> I (S t) st') ->
    forall k t st hist, good shapes (nx st) -> I t st -> nan_loop F J solve has_exog init tol (length (nx st)) (length exog) k st exog = Ok hist ->
    forall i s, nth_error hist i = Some s -> I (S (t + i)) s.
  Proof.
    intros HI. induction k as [|k IH]; intros t st hist G H0 E i s Hn; cbn [nan_loop] in E; [injection E as <-; destruct i; discriminate|].
    apply bind_ok in E as (st' & E1 & E). apply bind_ok in E as (rest & E2 & E). injection E as <-.
    destruct (nan_ok st G eq_refl E1) as (SP & G'). assert (L : length (nx st') = length (nx st)).
    { rewrite <- (map_length (@ashape R) (nx st')), <- (map_length (@ashape R) (nx st)). now rewrite (proj1 G), (proj1 G'). }
    destruct i as [|i]; cbn [nth_error] in Hn; [injection Hn as <-; rewrite Nat.add_0_r; eauto|]. rewrite <- L in E2. replace (t + S i)%nat with (S t + i)%nat by lia.
    eapply IH; eauto.
  Qed.
End Run.

Lemma nan_root_invariant F J solve xs parameters step tol k hist (I : nat -> nstate -> Prop) :
  parameters <> Some [] -> xs <> [] -> Forall (fun a => arr_wf a) xs -> nan_root F J solve xs parameters step tol k = Ok hist ->
  I 0%nat (mkN xs false step 0) ->
  (forall t st st', good (map (@ashape R) xs) (nx st) -> I t st -> nan_spec F J solve parameters (map (@ashape R) xs) step tol st st' -> I (S t) st') ->
  forall i s, nth_error hist i = Some s -> I (S i) s.
Proof.
  intros PN XN WF E H0 HI i s Hn. assert (SN : map (@ashape R) xs <> []) by (destruct xs; [congruence|discriminate]).
  assert (G : good (map (@ashape R) xs) xs) by (split; [reflexivity|exact WF]).
  exact (@nan_invariant F J solve parameters (map (@ashape R) xs) step tol PN SN I HI k 0%nat (mkN xs false step 0) hist G H0 E i s Hn).
Qed.

Lemma c126_defined__p :
  forall F J solve xs parameters step tol k hist r,
  parameters <> Some [] -> xs <> [] -> Forall (fun a => arr_wf a) xs ->
  defined_at F parameters xs r -> nan_root F J solve xs parameters step tol k = Ok hist ->
  forall t s, nth_error hist t = Some s -> exists r', defined_at F parameters (nx s) r' /\ abs_sum r' <= abs_sum r.
Proof.
  intros F J solve xs pars step tol k hist r PN XN WF D E t s Hn.
  refine (@nan_root_invariant F J solve xs pars step tol k hist (fun _ s => exists r', defined_at F pars (nx s) r' /\ abs_sum r' <= abs_sum r) PN XN WF E _ _ t s Hn).
  - exists r. split; [exact D|lra].
  - clear - D. intros _ st st' _ (r' & D' & L) [C E1 _ _|r0 j s0 xn rn C E1 _ _ _ _ E2 _ E3 _|r0 C E1 _ E3 _]; [rewrite E1; eauto| |rewrite E3; eauto].
    rewrite E3. destruct (nan_lt (nan_norm1 rn) (nan_norm1 r0)) eqn:Ed; [|eauto]. unfold defined_at in D'. rewrite E1 in D'. injection D' as ->. rewrite nan_norm_some in Ed.
    destruct (nan_norm1 rn) as [v|] eqn:En; [|discriminate]. apply nan_norm_number in En as (l & -> & ->). cbn in Ed. apply rlt_true in Ed. exists l. split; [exact E2|lra].
Qed.

Lemma c126_stuck__p :
  forall F J solve xs parameters step tol k hist,
  parameters <> Some [] -> xs <> [] -> Forall (fun a => arr_wf a) xs ->
  undefined_at F parameters xs -> nan_root F J solve xs parameters step tol k = Ok hist ->
  forall t s, nth_error hist t = Some s -> nx s = xs /\ nconv s = false /\ nstep s = step * (1 / 2) ^ S t.
Proof.
  intros F J solve xs pars step tol k hist PN XN WF (r & D & HN) E t s Hn. apply nan_norm_none in HN.
  refine (@nan_root_invariant F J solve xs pars step tol k hist (fun t s => nx s = xs /\ nconv s = false /\ nstep s = step * (1 / 2) ^ t) PN XN WF E _ _ t s Hn).
  - cbn [nx nconv nstep pow]. split; [reflexivity|]. split; [reflexivity|]. ring.
  - clear - D HN. intros t st st' _ (X & C & S) [C' _ _ _|r0 j s0 xn rn _ E1 _ _ _ _ E2 E3 E4 E5|r0 _ E1 E3 E4 E5]; [congruence| |].
    + rewrite X in *. rewrite D in E1. injection E1 as <-.
    rewrite HN in *. rewrite nan_lt_none in *. split; [exact E4|]. split; [exact E3|]. rewrite E5, S. cbn [pow]. ring.
    + rewrite X in *. rewrite D in E1. injection E1 as <-. rewrite HN in *. split; [exact E4|]. split; [exact E3|]. rewrite E5, S. cbn [pow]. ring.
Qed.

(** Without NaN the model is that of M_Newton *)
Definition num {A} (r : res (list A)) : res (list (option A)) := match r with Ok l => Ok (map Some l) | Err e => Err e end.
Definition nums {A} (r : res (list (list A))) : res (list (list (option A))) := match r with Ok l => Ok (map (map Some) l) | Err e => Err e end.

Lemma nan_numbers F J solve (F0 : list (arr R) -> res (list R)) (J0 : list (arr R) -> res (list (list R))) (solve0 : list (list R) -> list R -> res (list R)) b step tol n m :
  (forall a, F a = num (F0 a)) -> (forall a, J a = nums (J0 a)) -> (forall M v, solve (map (map Some) M) (map Some v) = match solve0 M v with Ok s => Ok (Some s) | Err e => Err e end) ->
  forall k st ex, nan_loop F J solve b step tol n m k st ex = newton_loop F0 J0 solve0 b step tol n m k st ex.
Proof.
  intros HF HJ HS. induction k as [|k IH]; intros st ex; [reflexivity|]. cbn [nan_loop newton_loop].
  assert (EB : nan_body F J solve b step tol n m st ex = scan_body F0 J0 solve0 b step tol n m st ex).
  { unfold nan_body, scan_body. destruct (concat_arrays _) as [fx|e]; [|reflexivity]. cbn [bind].
    assert (LT : forall u v, nan_lt (nan_norm1 (map Some u)) (nan_norm1 (map Some v)) = rlt (norm1 u) (norm1 v)) by (intros; rewrite !nan_norm_some, !norm1_abs; reflexivity).
    assert (LC : forall u c, nan_lt (nan_norm1 (map Some u)) (Some c) = rlt (norm1 u) c) by (intros; rewrite nan_norm_some, norm1_abs; reflexivity).
    destruct (nconv st) eqn:C; cbn [bind]; [now rewrite !LT|].
    assert (ES : forall fx exo a sh, nan_step F J solve b fx exo a sh =
      match newton_step F0 J0 solve0 b fx exo a sh with Ok (x, y, u, v) => Ok (x, y, map Some u, map Some v) | Err e => Err e end).
    { intros. unfold nan_step, newton_step, eval_func. destruct (ragged fx0 0 sh) as [x|]; [|reflexivity]. cbn [bind].
      assert (EF : forall y, (if b then F (y ++ exo) else F y) = num (if b then F0 (y ++ exo) else F0 y)) by (intros; destruct b; apply HF).
      assert (EJ : forall y, (if b then J (y ++ exo) else J y) = nums (if b then J0 (y ++ exo) else J0 y)) by (intros; destruct b; apply HJ).
      rewrite EF, EJ. destruct (if b then F0 (x ++ exo) else F0 x) as [r|]; [|reflexivity]. cbn [num bind]. destruct (if b then J0 (x ++ exo) else J0 x) as [M|]; [|reflexivity]. cbn [nums bind].
      rewrite HS. destruct (solve0 M r) as [s|]; [|reflexivity]. cbn [bind]. destruct (vsub_checked _ _) as [y|]; [|reflexivity]. cbn [bind].
      destruct (ragged y 0 _) as [xn|]; [|reflexivity]. cbn [bind]. rewrite EF. destruct (if b then F0 (xn ++ exo) else F0 xn); reflexivity. }
    rewrite ES. destruct (newton_step _ _ _ _ _ _ _ _) as [(((x & y) & u) & v)|e]; [|reflexivity]. cbn [bind]. now rewrite !LT, !LC. }
  rewrite EB. destruct (scan_body _ _ _ _ _ _ _ _ _ _) as [st'|]; [|reflexivity]. cbn [bind]. now rewrite IH.
Qed.

Lemma c126_numbers__p :
  forall F J solve (F0 : list (arr R) -> res (list R)) (J0 : list (arr R) -> res (list (list R))) (solve0 : list (list R) -> list R -> res (list R)) xs parameters step tol k,
  (forall a, F a = match F0 a with Ok r => Ok (map Some r) | Err e => Err e end) ->
  (forall a, J a = match J0 a with Ok M => Ok (map (map Some) M) | Err e => Err e end) ->
  (forall M b, solve (map (map Some) M) (map Some b) = match solve0 M b with Ok s => Ok (Some s) | Err e => Err e end) ->
  nan_root F J solve xs parameters step tol k = newton_root F0 J0 solve0 xs parameters step tol k.
Proof. intros. unfold nan_root, newton_root. now apply nan_numbers. Qed.

(** ** The iterations until a step is accepted *)
Section Loop.
Context (F : list (arr R) -> res (list (option R))) (J : list (arr R) -> res (list (list (option R)))) (solve : list (list (option R)) -> list (option R) -> res (option (list R)))
  (pars : option (list (arr R))) (shapes : list (list nat)) (init tol : R) (xs : list (arr R)) (r s : list R) (M : list (list (option R))) (S0 : R).
Hypothesis PN : pars <> Some [].
Hypothesis SN : shapes <> [].
Hypothesis GX : good shapes xs.
Hypothesis AR : forall x, map (@ashape R) x = shapes -> Forall (fun a => arr_wf a) x -> exists r, F (at_point pars x) = Ok r.
Hypothesis Fx : F (at_point pars xs) = Ok (map Some r).
Hypothesis Jx : J (at_point pars xs) = Ok M.
Hypothesis Sv : solve M (map Some r) = Ok (Some s).
Hypothesis Ls : length s = length (flat xs).
Hypothesis NC : tol <= abs_sum r.
Hypothesis DE : forall a, 0 < a <= S0 -> exists rn, F (at_point pars (chop shapes (vsub (flat xs) (vscale a s)))) = Ok (map Some rn) /\ abs_sum rn < abs_sum r.
Let has_exog := match pars with None => false | Some _ => true end.
Let exog := process_root_data pars.

Lemma nan_iteration a cnt : let xn := chop shapes (vsub (flat xs) (vscale a s)) in
  good shapes xn /\ exists rn cnt', F (at_point pars xn) = Ok rn /\
    nan_body F J solve has_exog init tol (length xs) (length exog) (mkN xs false a cnt) exog =
    Ok (if nan_lt (nan_norm1 rn) (Some (abs_sum r)) then mkN xn false init cnt' else mkN xs false (a * (1 / 2)) cnt').
Proof.
  intros xn. destruct (good_flat GX) as (Lf & _). assert (Lz : length (vsub (flat xs) (vscale a s)) = total shapes) by (rewrite vsub_length; [auto|rewrite vscale_length; congruence]).
  destruct (@good_chop shapes _ Lz) as (Gn & Fn). split; [exact Gn|]. destruct (AR (proj1 Gn) (proj2 Gn)) as (rn & Ern). exists rn. eexists. split; [exact Ern|].
  pose proof (@nan_unfold F J solve pars shapes init tol PN SN (mkN xs false a cnt) (length xs) GX eq_refl) as E. fold has_exog exog in E. rewrite E. clear E. cbn [nx nconv nstep ncount].
  unfold nan_step. rewrite (ragged_good GX). cbn [bind]. unfold has_exog, exog. rewrite !eval_at, Fx by auto. cbn [bind]. rewrite Jx. cbn [bind]. rewrite Sv. cbn [bind].
  unfold vsub_checked. rewrite vscale_length, Ls, Nat.eqb_refl. cbn [bind]. rewrite (proj1 GX), ragged_chop0 by exact Lz. cbn [bind]. rewrite eval_at, Ern by auto. cbn [bind].
  rewrite nan_norm_some. assert (C : nan_lt (Some (abs_sum r)) (Some tol) = false) by (cbn; unfold rlt; destruct (Rlt_dec _ _); [lra|reflexivity]). rewrite C.
  destruct (nan_lt (nan_norm1 rn) (Some (abs_sum r))).
  - rewrite ragged_chop0 by exact Lz. reflexivity.
  - rewrite (ragged_good GX). reflexivity.
Qed.

Lemma nan_better rn : nan_lt (nan_norm1 rn) (Some (abs_sum r)) = true -> exists l, rn = map Some l /\ abs_sum l < abs_sum r.
Proof. destruct (nan_norm1 rn) as [v|] eqn:E; [|discriminate]. apply nan_norm_number in E as (l & -> & ->). cbn. intros H. apply rlt_true in H. eauto. Qed.

Lemma nan_accepted : forall k a cnt, 0 < a -> a * (1 / 2) ^ k <= S0 -> exists j hist st rn,
  nan_loop F J solve has_exog init tol (length xs) (length exog) (S j) (mkN xs false a cnt) exog = Ok hist /\ (j <= k)%nat /\
  nth_error hist j = Some st /\ F (at_point pars (nx st)) = Ok (map Some rn) /\ abs_sum rn < abs_sum r /\ nstep st = init /\ nconv st = false /\
  forall t s', (t < j)%nat -> nth_error hist t = Some s' -> nx s' = xs /\ nconv s' = false /\ nstep s' = a * (1 / 2) ^ S t.
Proof.
  induction k as [|k IH]; intros a cnt Ha Hk; destruct (nan_iteration a cnt) as (Gn & rn & cnt' & Ern & EB); destruct (nan_lt (nan_norm1 rn) (Some (abs_sum r))) eqn:Ed.
  - exists 0%nat. cbn [nan_loop]. rewrite EB. cbn [bind]. destruct (nan_better _ Ed) as (l & -> & Hl). eexists. eexists. exists l. split; [reflexivity|]. split; [lia|]. split; [reflexivity|].
    cbn [nx nstep nconv]. do 4 (split; [auto|]). intros t s' Ht. lia.
  - exfalso. assert (Ha1 : 0 < a <= S0) by (cbn [pow] in Hk; lra). destruct (DE Ha1) as (l & El & Hl). assert (rn = map Some l) by congruence. subst rn. rewrite nan_norm_some in Ed. cbn in Ed. apply rlt_false in Ed. contradiction.
  - exists 0%nat. cbn [nan_loop]. rewrite EB. cbn [bind]. destruct (nan_better _ Ed) as (l & -> & Hl). eexists. eexists. exists l. split; [reflexivity|]. split; [lia|]. split; [reflexivity|].
    cbn [nx nstep nconv]. do 4 (split; [auto|]). intros t s' Ht. lia.
  - destruct (IH (a * (1 / 2)) cnt') as (j & hist & st & rn' & E & Hj & En & Er & Hr & Hi & Hc & H); [lra|cbn [pow] in Hk; lra|].
    exists (S j). change (nan_loop F J solve has_exog init tol (length xs) (length exog) (S (S j)) (mkN xs false a cnt) exog) with
      (let* st' := nan_body F J solve has_exog init tol (length xs) (length exog) (mkN xs false a cnt) exog in
       let* rest := nan_loop F J solve has_exog init tol (length xs) (length exog) (S j) st' exog in Ok (st' :: rest)).
    rewrite EB. cbn [bind]. rewrite E. cbn [bind]. eexists. exists st, rn'. split; [reflexivity|]. split; [lia|]. split; [exact En|]. do 4 (split; [auto|]).
    intros [|t] s' Ht Hs.
    + injection Hs as <-. cbn [nx nconv nstep pow]. split; [reflexivity|]. split; [reflexivity|]. ring.
    + cbn [nth_error] in Hs. destruct (H t s' ltac:(lia) Hs) as (H1 & H2 & H3). split; [exact H1|]. split; [exact H2|]. rewrite H3. cbn [pow]. ring.
Qed.
End Loop.

Lemma c126_progress__p :
  forall F J solve (parameters : option (list (arr R))) (variables params : list string) (equations : list sexpr) (xs : list (arr R)) (step tol : R) r,
  NoDup (variables ++ params) -> length equations = length variables ->
  length (flat xs) = length variables -> length (flat_parameters parameters) = length params ->
  parameters <> Some [] -> xs <> [] -> Forall (fun a => arr_wf a) xs ->
  Forall (smooth (state_of (variables ++ params) (flat xs ++ flat_parameters parameters)) no_arrays) equations ->
  (exists M, derivatives_at variables params equations (flat xs) (flat_parameters parameters) M /\ nonsingular M (length variables)) ->
  computes_or_nan F J parameters variables params equations (map (@ashape R) xs) ->
  right_solver_nan solve (length variables) -> 0 < step -> defined_at F parameters xs r -> 0 < abs_sum r -> tol <= abs_sum r ->
  exists j hist st r', nan_root F J solve xs parameters step tol (S j) = Ok hist /\ nth_error hist j = Some st /\
    defined_at F parameters (nx st) r' /\ abs_sum r' < abs_sum r /\ nstep st = step /\
    forall t s, (t < j)%nat -> nth_error hist t = Some s -> nx s = xs /\ nconv s = false /\ nstep s = step * (1 / 2) ^ S t.
Proof.
  intros F J solve pars vs ps eqs xs step tol r0 ND SQ LX LT PN XN WF SM (M & DM & NM) CO RS Hs Er0 Hu Ht.
  set (shapes := map (@ashape R) xs) in *. assert (GX : good shapes xs) by (split; [reflexivity|exact WF]). assert (SN : shapes <> []) by (unfold shapes; destruct xs; [congruence|discriminate]).
  assert (AR : forall x, map (@ashape R) x = shapes -> Forall (fun a => arr_wf a) x -> exists r, F (at_point pars x) = Ok r) by (intros y E W; exact (proj1 (CO y E W))).
  set (x := flat xs) in *. set (th := flat_parameters pars) in *. destruct (proj2 (CO xs eq_refl WF) SM) as (Fx & M' & Jx & DM').
  assert (E1 := @derivatives_unique vs ps eqs x th M SM DM). assert (E2 := @derivatives_unique vs ps eqs x th M' SM DM'). rewrite E2, <- E1 in Jx. clear E2 DM'.
  assert (MM : is_matrix (length vs) (length vs) M) by (rewrite E1; apply Am_matrix; auto).
  set (r := values_at vs ps eqs x th) in *. assert (Lr : length r = length vs) by (unfold r; rewrite f_length; auto). fold x th r in Fx.
  assert (r0 = r). { unfold defined_at in *. rewrite Er0 in Fx. injection Fx as Fx. clear - Fx. revert Fx. generalize r. induction r0 as [|a l IH]; intros [|b r1] E; try discriminate; [reflexivity|]. cbn in E. injection E as -> E. f_equal. auto. }
  subst r0. destruct (RS M r MM NM Lr) as (s & Es & Ls & Ms). rewrite E1 in Ms.
  destruct (@descent vs ps eqs x th s ND SQ LX LT SM Ls Ms) as (S0 & HS0 & DE); [fold r; lra|].
  assert (DE' : forall a, 0 < a <= S0 -> exists rn, F (at_point pars (chop shapes (vsub (flat xs) (vscale a s)))) = Ok (map Some rn) /\ abs_sum rn < abs_sum r).
  { intros a Ha. destruct (DE a Ha) as (SA & LA). destruct (good_flat GX) as (Lf & _).
    assert (Lz : length (vsub (flat xs) (vscale a s)) = total shapes) by (rewrite vsub_length; [auto|rewrite vscale_length; fold x; congruence]).
    destruct (@good_chop shapes _ Lz) as (Gn & Fn). destruct (proj2 (CO _ (proj1 Gn) (proj2 Gn))) as (Fn' & _); [rewrite Fn; exact SA|]. unfold defined_at in Fn'. rewrite Fn in Fn'. fold th x in Fn'. eexists. split; [exact Fn'|exact LA]. }
  assert (EK : exists k, step * (1 / 2) ^ k <= S0).
  { destruct (pow_lt_1_zero (1 / 2)) with (y := S0 / step) as (k & Hk); [rewrite Rabs_pos_eq; lra|apply Rdiv_lt_0_compat; lra|]. exists k. specialize (Hk k (Nat.le_refl k)).
    rewrite Rabs_pos_eq in Hk by (apply pow_le; lra). apply Rmult_lt_compat_l with (r := step) in Hk; [|lra]. replace (step * (S0 / step)) with S0 in Hk by (field; lra). lra. }
  destruct EK as (k & Hk). assert (Lsx : length s = length (flat xs)) by (fold x; congruence).
  destruct (@nan_accepted F J solve pars shapes step tol xs r s (map (map Some) M) S0 PN SN GX AR Fx Jx Es Lsx Ht DE' k step 0%nat Hs Hk) as (j & hist & st & rn & E & _ & En & Er & Hr & Hi & _ & H).
  exists j, hist, st, rn. split; [exact E|]. split; [exact En|]. split; [exact Er|]. split; [exact Hr|]. split; [exact Hi|exact H].
Qed.
