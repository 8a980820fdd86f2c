(** Lemmas for C43-C46. *)
From Coq Require Import Reals Lra.
From Verif Require Import Py PyStr NdArray M_Primitives M_Utilities M_Wrappers M_Euler M_Newton.
From Verif Require Import S_Layout S_Euler S_Newton L_Utilities L_Layout L_Wrappers L_Euler L_Euler2 L_Euler3.
Local Open Scope list_scope.

Lemma norm1_sum v : norm1 v = fold_right (fun a s => Rabs a + s)%R 0%R v.
Proof. unfold norm1. induction v; simpl; congruence. Qed.
Lemma rlt_true a b : rlt a b = true -> (a < b)%R.
Proof. unfold rlt. destruct (Rlt_dec a b); [auto|discriminate]. Qed.
Lemma rlt_false a b : rlt a b = false -> ~ (a < b)%R.
Proof. unfold rlt. destruct (Rlt_dec a b); [discriminate|auto]. Qed.
Lemma rlt_irrefl a : rlt a a = false.
Proof. unfold rlt. destruct (Rlt_dec a a); [lra|auto]. Qed.

Lemma filter_length_le_ {A} (f : A -> bool) l : length (filter f l) <= length l.
Proof. induction l as [|a l IH]; simpl; [lia|]. destruct (f a); simpl; lia. Qed.

Definition good (shapes : list (list nat)) (x : list (arr R)) : Prop :=
  map (@ashape R) x = shapes /\ Forall (fun a => arr_wf a) x.

Lemma good_flat shapes x : good shapes x -> length (flat x) = total shapes /\ chop shapes (flat x) = x.
Proof.
  intros (<- & W). unfold flat. split; [now apply total_arrays|now apply chop_arrays].
Qed.

Lemma good_chop shapes y : length y = total shapes -> good shapes (chop shapes y) /\ flat (chop shapes y) = y.
Proof.
  intros L. split; [split|].
  - apply chop_shapes.
  - revert y L. induction shapes as [|s shapes IH]; intros y Hy; simpl; constructor.
    + unfold arr_wf. cbn [adata ashape]. unfold total in Hy. simpl in Hy. rewrite firstn_length. lia.
    + apply IH. unfold total in *. simpl in Hy. rewrite skipn_length. lia.
  - unfold flat. now apply chop_concat.
Qed.

Lemma ragged_good shapes x : good shapes x -> ragged (flat x) 0 shapes = Ok x.
Proof. intros G. destruct (@good_flat shapes _ G) as (L & C). rewrite ragged_chop0 by auto. now rewrite C. Qed.

Lemma last_args_app {A} (a b : list A) : b <> [] -> last_args (length b) (a ++ b) = b.
Proof.
  intros H. unfold last_args. destruct (length b) eqn:E; [destruct b; [congruence|discriminate]|].
  rewrite <- E, app_length, Nat.add_sub. rewrite skipn_app, skipn_all, Nat.sub_diag. reflexivity.
Qed.

Section Run.
  Variable F : list (arr R) -> res (list R).
  Variable J : list (arr R) -> res (list (list R)).
  Variable solve : list (list R) -> list R -> res (list R).
  Variable parameters : option (list (arr R)).
  Variable shapes : list (list nat).
  Variable init tol : R.
  Hypothesis Hp : parameters <> Some [].
  Hypothesis Hs : shapes <> [].
  Let has_exog := match parameters with None => false | Some _ => true end.
  Let exog := process_root_data parameters.

  Lemma exog_nonempty : exog <> [].
  Proof. unfold exog, process_root_data. destruct parameters; [congruence|discriminate]. Qed.

  Lemma eval_at {A} (f : list (arr R) -> res A) x : eval_func f x exog has_exog = f (at_point parameters x).
  Proof. unfold eval_func, has_exog, exog, at_point, process_root_data. destruct parameters; [reflexivity|]. now rewrite app_nil_r. Qed.

  (** One iteration in terms of points *)
  Inductive body_spec (st st' : nstate) : Prop :=
  | b_done : nconv st = true -> nx st' = nx st -> nconv st' = true -> ncount st' = ncount st ->
             nstep st' = (nstep st * (1 / 2))%R -> body_spec st st'
  | b_step r j s xn rn : nconv st = false ->
             F (at_point parameters (nx st)) = Ok r -> J (at_point parameters (nx st)) = Ok j -> solve j r = Ok s ->
             length s = length (flat (nx st)) ->
             good shapes xn -> flat xn = vsub (flat (nx st)) (vscale (nstep st) s) ->
             F (at_point parameters xn) = Ok rn ->
             nconv st' = rlt (norm1 r) tol ->
             nx st' = (if rlt (norm1 rn) (norm1 r) then xn else nx st) ->
             nstep st' = (if rlt (norm1 rn) (norm1 r) then init else nstep st * (1 / 2))%R ->
             ncount st' = ncount st + (if nconv st' then 0 else 1) -> body_spec st st'.

  Lemma body_unfold st n : good shapes (nx st) -> length (nx st) = n ->
    scan_body F J solve has_exog init tol n (length exog) st exog =
    (let* out := if nconv st then Ok (flat (nx st), flat (nx st), flat (nx st), flat (nx st))
                 else newton_step F J solve has_exog (flat (nx st)) exog (nstep st) shapes in
     let '(flat_x, flat_new_x, f_x, f_new_x) := out in
     let* return_x := ragged (if rlt (norm1 f_new_x) (norm1 f_x) then flat_new_x else flat_x) 0 shapes in
     let c := if nconv st then true else rlt (norm1 f_x) tol in
     Ok (mkN return_x c (if rlt (norm1 f_new_x) (norm1 f_x) then init else nstep st * (1 / 2))%R
             (ncount st + (1 - (if c then 1 else 0))))).
  Proof.
    intros G <-. unfold scan_body, body_args. rewrite firstn_app, firstn_all, Nat.sub_diag. cbn [firstn]. rewrite app_nil_r.
    assert (E : forall a : list (arr R), last_args (length exog) (nx st ++ a ++ exog) = exog).
    { intros a. rewrite app_assoc. apply last_args_app. apply exog_nonempty. }
    rewrite E. destruct G as (G1 & G2). rewrite G1.
    assert (C : concat_arrays (nx st) = Ok (flat (nx st))).
    { unfold concat_arrays. destruct (nx st); [simpl in G1; congruence|reflexivity]. }
    rewrite C. cbn [bind]. reflexivity.
  Qed.

  Lemma body_ok st st' n : good shapes (nx st) -> length (nx st) = n ->
    scan_body F J solve has_exog init tol n (length exog) st exog = Ok st' ->
    body_spec st st' /\ good shapes (nx st').
  Proof.
    intros G Hn H. rewrite (body_unfold _ G Hn) in H. destruct (nconv st) eqn:Ec.
    - cbn [bind] in H. rewrite rlt_irrefl, (@ragged_good shapes _ G) in H. cbn [bind] in H. injection H as <-. split; [|exact G].
      apply b_done; auto. simpl. lia.
    - apply bind_ok in H as ((((fx & fnx) & r) & rn) & H1 & H). unfold newton_step in H1.
      rewrite (@ragged_good shapes _ G) in H1. cbn [bind] in H1. rewrite !eval_at in H1.
      apply bind_ok in H1 as (r' & Hr & H1). apply bind_ok in H1 as (j & Hj & H1). apply bind_ok in H1 as (s & Hsv & H1).
      apply bind_ok in H1 as (fn & Hf & H1). apply bind_ok in H1 as (xn & Hx & H1). rewrite eval_at in H1.
      apply bind_ok in H1 as (rn' & Hrn & H1). injection H1 as <- <- <- <-.
      unfold vsub_checked in Hf. destruct (Nat.eqb (length (flat (nx st))) (length (vscale (nstep st) s))) eqn:El; [|discriminate].
      apply Nat.eqb_eq in El. rewrite vscale_length in El. injection Hf as <-.
      destruct (@good_flat shapes _ G) as (Lf & _).
      assert (Ln : length (vsub (flat (nx st)) (vscale (nstep st) s)) = total shapes).
      { rewrite vsub_length; [exact Lf|]. rewrite vscale_length. congruence. }
      destruct (@good_chop shapes _ Ln) as (Gn & Fn).
      rewrite (proj1 G) in Hx. rewrite ragged_chop0 in Hx by exact Ln. injection Hx as <-.
      assert (Er : ragged (if rlt (norm1 rn') (norm1 r') then vsub (flat (nx st)) (vscale (nstep st) s) else flat (nx st)) 0 shapes =
                   Ok (if rlt (norm1 rn') (norm1 r') then chop shapes (vsub (flat (nx st)) (vscale (nstep st) s)) else nx st)).
      { destruct (rlt (norm1 rn') (norm1 r')); [now apply ragged_chop0|now apply ragged_good]. }
      rewrite Er in H. cbn [bind] in H. injection H as <-. split.
      + eapply b_step; eauto. simpl. destruct (rlt (norm1 r') tol); reflexivity.
      + cbn [nx]. destruct (rlt (norm1 rn') (norm1 r')); auto.
  Qed.

  Lemma loop_ok n k : forall st hist, good shapes (nx st) -> length (nx st) = n ->
    newton_loop F J solve has_exog init tol n (length exog) k st exog = Ok hist ->
    length hist = k /\ (forall a b, consecutive st hist a b -> body_spec a b /\ good shapes (nx a) /\ good shapes (nx b)).
  Proof.
    induction k as [|k IH]; intros st hist G Hn H; cbn [newton_loop] in H.
    - injection H as <-. split; [reflexivity|]. intros a b (t & _ & Hb). now destruct t.
    - apply bind_ok in H as (st' & H1 & H). apply bind_ok in H as (rest & H2 & H). injection H as <-.
      destruct (body_ok _ G Hn H1) as (B & G').
      assert (Hn' : length (nx st') = n).
      { rewrite <- Hn, <- (map_length (@ashape R) (nx st')), <- (map_length (@ashape R) (nx st)).
        now rewrite (proj1 G), (proj1 G'). }
      destruct (IH st' rest G' Hn' H2) as (L & C). split; [simpl; lia|].
      intros a b ([|t] & Ha & Hb).
      + simpl in Ha, Hb. injection Ha as <-. injection Hb as <-. auto.
      + apply C. exists t. split; assumption.
  Qed.
End Run.

(** [newton_root] in terms of points *)
Lemma root_ok F J solve x0 parameters step tol max_iter hist :
  parameters <> Some [] -> x0 <> [] -> Forall (fun a => arr_wf a) x0 ->
  newton_root F J solve x0 parameters step tol max_iter = Ok hist ->
  length hist = max_iter /\
  (forall a b, consecutive (mkN x0 false step 0) hist a b ->
     body_spec F J solve parameters (map (@ashape R) x0) step tol a b /\ good (map (@ashape R) x0) (nx a)).
Proof.
  intros Hp Hx W H. unfold newton_root in H.
  assert (Hs : map (@ashape R) x0 <> []) by (destruct x0; [congruence|discriminate]).
  assert (G : good (map (@ashape R) x0) (nx (mkN x0 false step 0))) by (split; auto).
  destruct (@loop_ok F J solve parameters (map (@ashape R) x0) step tol Hp Hs (length x0) max_iter _ hist G eq_refl H) as (L & C).
  split; [exact L|]. intros a b Hab. destruct (C a b Hab) as (B & Ga & _). auto.
Qed.

Lemma nth_consecutive {first hist t b} : nth_error hist t = Some b -> exists a, nth_error (first :: hist) t = Some a /\ consecutive first hist a b.
Proof.
  intros H. destruct (nth_error (first :: hist) t) as [a|] eqn:E.
  - exists a. split; [reflexivity|]. exists t. auto.
  - apply nth_error_None in E. simpl in E. assert (t < length hist) by (apply nth_error_Some; congruence). lia.
Qed.

(** ** C43 *)
Lemma c43_success_is_root__p :
  forall (F : list (arr R) -> res (list R)) (J : list (arr R) -> res (list (list R)))
         (solve : list (list R) -> list R -> res (list R)) (x0 : list (arr R)) (parameters : option (list (arr R)))
         (step tol : R) (max_iter : nat) (hist : list nstate) (t : nat) (st : nstate),
  parameters <> Some [] -> x0 <> [] -> Forall (fun a => arr_wf a) x0 ->
  newton_root F J solve x0 parameters step tol max_iter = Ok hist ->
  nth_error hist t = Some st -> nconv st = true ->
  exists v, residual_norm F parameters (nx st) v /\ (v < tol)%R.
Proof.
  intros F J solve x0 parameters step tol max_iter hist t st Hp Hx W H. revert st.
  destruct (@root_ok F J solve x0 parameters step tol max_iter hist Hp Hx W H) as (_ & C).
  assert (P : forall t st, nth_error (mkN x0 false step 0 :: hist) t = Some st -> nconv st = true ->
              exists v, residual_norm F parameters (nx st) v /\ (v < tol)%R).
  { clear t. induction t as [|t IH]; intros st Hst Hc.
    - injection Hst as <-. discriminate.
    - cbn [nth_error] in Hst. destruct (nth_consecutive (first := mkN x0 false step 0) Hst) as (a & Ha & Hab).
      destruct (C a st Hab) as (B & _). destruct B as [Ca Ex _ _ _|r j s xn rn Ca Hr Hj Hsv _ _ _ Hrn Hcv Ex _ _].
      + rewrite Ex. now apply IH.
      + rewrite Hc in Hcv. symmetry in Hcv. apply rlt_true in Hcv. rewrite Ex.
        destruct (rlt (norm1 rn) (norm1 r)) eqn:Ed.
        * apply rlt_true in Ed. exists (norm1 rn). split; [|lra]. exists rn. split; [exact Hrn|apply norm1_sum].
        * exists (norm1 r). split; [|exact Hcv]. exists r. split; [exact Hr|apply norm1_sum]. }
  intros st Hst. apply (P (S t)). exact Hst.
Qed.

(** parameters={} makes the whole argument list exogenous. *)
Lemma c43_empty_parameters_refuted__p :
  exists (F : list (arr R) -> res (list R)) (J : list (arr R) -> res (list (list R)))
         (solve : list (list R) -> list R -> res (list R)) (x0 : list (arr R)),
  Forall (fun a => arr_wf a) x0 /\
  forall (tol step : R) (max_iter : nat),
    (exists hist, newton_root F J solve x0 None step tol (S max_iter) = Ok hist) /\
    newton_root F J solve x0 (Some []) step tol (S max_iter) = Err TypeError.
Proof.
  exists (fun args => match args with [a] => Ok (adata a) | _ => Err TypeError end),
         (fun args => match args with [a] => Ok [[1%R]] | _ => Err TypeError end),
         (fun j r => Ok r), [mkArr [1] [2%R]].
  split; [repeat constructor|]. intros tol step max_iter. split; [|reflexivity].
  assert (P : forall k st, (exists v, nx st = [mkArr [1] [v]]) ->
     exists hist, newton_loop (fun args => match args with [a] => Ok (adata a) | _ => Err TypeError end)
         (fun args => match args with [a] => Ok [[1%R]] | _ => Err TypeError end) (fun j r => Ok r) false step tol 1 1 k st
         [scalar 0%R] = Ok hist).
  { induction k as [|k IH]; intros st (v & Hv); cbn [newton_loop]; [eexists; reflexivity|].
    assert (E : exists st', scan_body (fun args => match args with [a] => Ok (adata a) | _ => Err TypeError end)
         (fun args => match args with [a] => Ok [[1%R]] | _ => Err TypeError end) (fun j r => Ok r) false step tol 1 1 st
         [scalar 0%R] = Ok st' /\ exists v', nx st' = [mkArr [1] [v']]).
    { unfold scan_body, body_args. rewrite Hv. destruct (nconv st); cbn.
      - rewrite rlt_irrefl. cbn. eexists. split; [reflexivity|]. eexists. reflexivity.
      - unfold newton_step. cbn. destruct (rlt _ _); cbn; (eexists; split; [reflexivity|]; eexists; reflexivity). }
    destruct E as (st' & E & Hv'). rewrite E. cbn [bind]. destruct (IH st' Hv') as (h & ->). cbn [bind]. eexists. reflexivity. }
  apply P. eexists. reflexivity.
Qed.

(** ** C44 *)
Lemma c44_monotone__p :
  forall (F : list (arr R) -> res (list R)) (J : list (arr R) -> res (list (list R)))
         (solve : list (list R) -> list R -> res (list R)) (x0 : list (arr R)) (parameters : option (list (arr R)))
         (step tol : R) (max_iter : nat) (hist : list nstate) (a b : nstate),
  parameters <> Some [] -> x0 <> [] -> Forall (fun a => arr_wf a) x0 ->
  newton_root F J solve x0 parameters step tol max_iter = Ok hist ->
  consecutive (mkN x0 false step 0) hist a b ->
  nx b = nx a \/
  exists u v, residual_norm F parameters (nx a) u /\ residual_norm F parameters (nx b) v /\ (v < u)%R.
Proof.
  intros F J solve x0 parameters step tol max_iter hist a b Hp Hx W H Hab.
  destruct (@root_ok F J solve x0 parameters step tol max_iter hist Hp Hx W H) as (_ & C). destruct (C a b Hab) as (B & _).
  destruct B as [Ca Ex _ _ _|r j s xn rn Ca Hr Hj Hsv _ _ _ Hrn Hcv Ex _ _]; [now left|].
  rewrite Ex. destruct (rlt (norm1 rn) (norm1 r)) eqn:Ed; [right|now left].
  apply rlt_true in Ed. exists (norm1 r), (norm1 rn). repeat split; auto; eexists; (split; [eassumption|apply norm1_sum]).
Qed.

(** Over a whole run: no later state has a larger residual norm. *)
Lemma c44_never_worse__p :
  forall (F : list (arr R) -> res (list R)) (J : list (arr R) -> res (list (list R)))
         (solve : list (list R) -> list R -> res (list R)) (x0 : list (arr R)) (parameters : option (list (arr R)))
         (step tol : R) (max_iter : nat) (hist : list nstate) (t1 t2 : nat) (a b : nstate) (u v : R),
  parameters <> Some [] -> x0 <> [] -> Forall (fun a => arr_wf a) x0 ->
  newton_root F J solve x0 parameters step tol max_iter = Ok hist -> t1 <= t2 ->
  nth_error (mkN x0 false step 0 :: hist) t1 = Some a -> nth_error (mkN x0 false step 0 :: hist) t2 = Some b ->
  residual_norm F parameters (nx a) u -> residual_norm F parameters (nx b) v -> (v <= u)%R.
Proof.
  intros F J solve x0 parameters step tol max_iter hist t1 t2 a b u v Hp Hx W H Ht.
  assert (Un : forall x p q, residual_norm F parameters x p -> residual_norm F parameters x q -> p = q).
  { intros x p q (r & Hr & ->) (r' & Hr' & ->). congruence. }
  revert b v. induction Ht as [|t2 Ht IH]; intros b v Ha Hb Hu Hv.
  - assert (a = b) by congruence. subst b. rewrite (Un _ _ _ Hu Hv). lra.
  - cbn [nth_error] in Hb. destruct (nth_consecutive (first := mkN x0 false step 0) Hb) as (m & Hm & Hmb).
    destruct (@c44_monotone__p F J solve x0 parameters step tol max_iter hist m b Hp Hx W H Hmb) as [E|(p & q & Hpm & Hq & Hl)].
    + rewrite E in Hv. eapply IH; eauto.
    + rewrite (Un _ _ _ Hv Hq). pose proof (IH m p Ha Hm Hu Hpm). lra.
Qed.

Lemma c44_step_sizes__p :
  forall (F : list (arr R) -> res (list R)) (J : list (arr R) -> res (list (list R)))
         (solve : list (list R) -> list R -> res (list R)) (x0 : list (arr R)) (parameters : option (list (arr R)))
         (step tol : R) (max_iter : nat) (hist : list nstate) (a b : nstate),
  parameters <> Some [] -> x0 <> [] -> Forall (fun a => arr_wf a) x0 ->
  newton_root F J solve x0 parameters step tol max_iter = Ok hist ->
  consecutive (mkN x0 false step 0) hist a b ->
  (exists k, nstep a = (step * (1 / 2) ^ k)%R) /\
  (nx b <> nx a -> nstep b = step /\
     exists r j s, F (at_point parameters (nx a)) = Ok r /\ J (at_point parameters (nx a)) = Ok j /\ solve j r = Ok s /\
       forall i p q, nth_error (flat (nx a)) i = Some p -> nth_error s i = Some q ->
         nth_error (flat (nx b)) i = Some (p - nstep a * q)%R).
Proof.
  intros F J solve x0 parameters step tol max_iter hist a b Hp Hx W H Hab.
  destruct (@root_ok F J solve x0 parameters step tol max_iter hist Hp Hx W H) as (_ & C). split.
  - destruct Hab as (t & Ha & _). revert a Ha. induction t as [|t IH]; intros a Ha.
    + injection Ha as <-. exists 0. simpl. lra.
    + cbn [nth_error] in Ha. destruct (nth_consecutive (first := mkN x0 false step 0) Ha) as (m & Hm & Hma).
      destruct (IH m Hm) as (k & Ek). destruct (C m a Hma) as (B & _).
      destruct B as [_ _ _ _ Es|r j s xn rn _ _ _ _ _ _ _ _ _ _ Es _].
      * exists (S k). rewrite Es, Ek. simpl. lra.
      * rewrite Es. destruct (rlt (norm1 rn) (norm1 r)).
        -- exists 0. simpl. lra.
        -- exists (S k). rewrite Ek. simpl. lra.
  - intros Hne. destruct (C a b Hab) as (B & _).
    destruct B as [Ca Ex _ _ _|r j s xn rn Ca Hr Hj Hsv _ _ Fx Hrn Hcv Ex Es _]; [congruence|].
    destruct (rlt (norm1 rn) (norm1 r)) eqn:Ed; [|congruence]. split; [exact Es|]. exists r, j, s. repeat (split; auto).
    intros i p q Hi Hq. rewrite Ex, Fx. unfold vsub, vscale. rewrite nth_vmap2, nth_error_map, Hi, Hq. reflexivity.
Qed.

(** ** C45 *)
Lemma c45_frozen__p :
  forall (F : list (arr R) -> res (list R)) (J : list (arr R) -> res (list (list R)))
         (solve : list (list R) -> list R -> res (list R)) (x0 : list (arr R)) (parameters : option (list (arr R)))
         (step tol : R) (max_iter : nat) (hist : list nstate) (t1 t2 : nat) (a b : nstate),
  parameters <> Some [] -> x0 <> [] -> Forall (fun a => arr_wf a) x0 ->
  newton_root F J solve x0 parameters step tol max_iter = Ok hist -> t1 <= t2 ->
  nth_error hist t1 = Some a -> nth_error hist t2 = Some b -> nconv a = true ->
  nconv b = true /\ nx b = nx a /\ ncount b = ncount a.
Proof.
  intros F J solve x0 parameters step tol max_iter hist t1 t2 a b Hp Hx W H Ht Ha Hb Hc.
  destruct (@root_ok F J solve x0 parameters step tol max_iter hist Hp Hx W H) as (_ & C). revert b Hb. induction Ht as [|t2 Ht IH]; intros b Hb.
  - assert (a = b) by congruence. subst b. auto.
  - destruct (nth_error hist t2) as [m|] eqn:Em.
    2:{ apply nth_error_None in Em. assert (S t2 < length hist) by (apply nth_error_Some; congruence). lia. }
    destruct (IH m eq_refl) as (A1 & A2 & A3).
    assert (Hmb : consecutive (mkN x0 false step 0) hist m b) by (exists (S t2); auto).
    destruct (C m b Hmb) as (B & _).
    destruct B as [_ Ex Ec En _|r j s xn rn Ca _ _ _ _ _ _ _ _ _ _ _]; [|congruence].
    repeat split; congruence.
Qed.

Lemma c45_count__p :
  forall (F : list (arr R) -> res (list R)) (J : list (arr R) -> res (list (list R)))
         (solve : list (list R) -> list R -> res (list R)) (x0 : list (arr R)) (parameters : option (list (arr R)))
         (step tol : R) (max_iter : nat) (hist : list nstate) (t : nat) (st : nstate),
  parameters <> Some [] -> x0 <> [] -> Forall (fun a => arr_wf a) x0 ->
  newton_root F J solve x0 parameters step tol max_iter = Ok hist -> nth_error hist t = Some st ->
  length hist = max_iter /\
  ncount st = length (filter (fun s => negb (nconv s)) (firstn (S t) hist)) /\ ncount st <= max_iter /\
  (forall s, In s (firstn (ncount st) hist) -> nconv s = false) /\
  (forall k s, ncount st <= k <= t -> nth_error hist k = Some s -> nconv s = true).
Proof.
  intros F J solve x0 parameters step tol max_iter hist t st Hp Hx W H Hst.
  pose proof (fun t1 t2 a b => @c45_frozen__p F J solve x0 parameters step tol max_iter hist t1 t2 a b Hp Hx W H) as Fz.
  destruct (@root_ok F J solve x0 parameters step tol max_iter hist Hp Hx W H) as (HL & C). split; [exact HL|].
  assert (Hcnt : forall t st, nth_error hist t = Some st ->
            ncount st = length (filter (fun s => negb (nconv s)) (firstn (S t) hist))).
  { clear t st Hst. induction t as [|t IH]; intros st Hst.
    - destruct hist as [|h hist']; [discriminate|]. injection Hst as ->. cbn [firstn filter].
      assert (Hc : consecutive (mkN x0 false step 0) (st :: hist') (mkN x0 false step 0) st) by (exists 0; auto).
      destruct (C _ _ Hc) as (B & _). destruct B as [Ca _ _ _ _|r j s xn rn _ _ _ _ _ _ _ _ _ _ _ En]; [discriminate|].
      rewrite En. destruct (nconv st); reflexivity.
    - destruct (nth_error hist t) as [m|] eqn:Em.
      2:{ apply nth_error_None in Em. assert (S t < length hist) by (apply nth_error_Some; congruence). lia. }
      assert (Hc : consecutive (mkN x0 false step 0) hist m st) by (exists (S t); auto).
      assert (Ef : firstn (S (S t)) hist = firstn (S t) hist ++ [st]).
      { clear -Hst. revert hist Hst. generalize (S t) as n. induction n; intros [|h l] E; try discriminate; simpl in *.
        - now injection E as ->.
        - f_equal. now apply IHn. }
      rewrite Ef, filter_app, app_length, <- (IH m eq_refl).
      destruct (C _ _ Hc) as (B & _). destruct B as [_ _ Ec En _|r j s xn rn _ _ _ _ _ _ _ _ _ _ _ En].
      + rewrite En. cbn [filter]. rewrite Ec. simpl. lia.
      + rewrite En. cbn [filter]. destruct (nconv st); simpl; lia. }
  split; [now apply Hcnt|].
  assert (Ht : t < max_iter) by (rewrite <- HL; apply nth_error_Some; congruence).
  assert (Hle : ncount st <= S t).
  { rewrite (Hcnt t st Hst). etransitivity; [apply filter_length_le_|]. rewrite firstn_length. lia. }
  split; [lia|].
  (* the unconverged states come first *)
  assert (Q : forall l : list nstate, (forall i j a b, i <= j -> nth_error l i = Some a -> nth_error l j = Some b ->
                nconv a = true -> nconv b = true) ->
     let c := length (filter (fun s => negb (nconv s)) l) in
     (forall s, In s (firstn c l) -> nconv s = false) /\ (forall k s, c <= k -> nth_error l k = Some s -> nconv s = true)).
  { clear. induction l as [|h l IH]; intros Hm c.
    - split; [intros s []|]. intros k s _ E. now destruct k.
    - destruct (nconv h) eqn:Eh.
      + assert (A : forall s, In s l -> nconv s = true).
        { intros s Hs. apply In_nth_error in Hs as (i & Hi). apply (Hm 0 (S i) h s); auto. lia. }
        assert (E : filter (fun s => negb (nconv s)) l = []).
        { clear -A. induction l as [|s l IH]; [reflexivity|]. simpl. rewrite (A s) by now left. simpl. apply IH. intros; apply A; now right. }
        unfold c. cbn [filter]. rewrite Eh. cbn [negb]. rewrite E. split; [intros s []|].
        intros [|k] s _ Es; simpl in Es; [congruence|]. apply A. eapply nth_error_In; eauto.
      + destruct IH as (I1 & I2).
        { intros i j a b Hij Ha Hb. apply (Hm (S i) (S j) a b); auto. lia. }
        unfold c. cbn [filter]. rewrite Eh. cbn [negb length]. split.
        * intros s [<-|Hs]; auto.
        * intros [|k] s Hk Es; [lia|]. simpl in Es. apply (I2 k s); auto. lia. }
  specialize (Q (firstn (S t) hist)). cbv zeta in Q. rewrite <- (Hcnt t st Hst) in Q. destruct Q as (Q1 & Q2).
  { assert (N : forall i (a : nstate), nth_error (firstn (S t) hist) i = Some a -> nth_error hist i = Some a).
    { clear. generalize (S t) as n. intros n. revert hist. induction n; intros hist i a; simpl; [now destruct i|]. destruct hist as [|h l]; [now destruct i|].
      destruct i; simpl; auto. }
    intros i j a b Hij Ha Hb Hc. apply (Fz i j a b Hij (N _ _ Ha) (N _ _ Hb) Hc). }
  rewrite firstn_firstn, Nat.min_l in Q1 by lia. split; [exact Q1|].
  intros k s Hk Es. apply (Q2 k s); [lia|]. 
  assert (N : forall n i, i < n -> nth_error (firstn n hist) i = nth_error hist i).
  { clear. intros n. revert hist. induction n; intros [|h l] i Hi; try lia; simpl; auto. destruct i; simpl; auto. apply IHn. lia. }
  rewrite N by lia. exact Es.
Qed.

(** ** C46 *)
Lemma norm1_nonneg v : (0 <= norm1 v)%R.
Proof. unfold norm1. induction v; simpl; [lra|]. pose proof (Rabs_pos a). lra. Qed.
Lemma norm1_zeros n : norm1 (zeros n) = 0%R.
Proof. unfold norm1, zeros. induction n; simpl; [lra|]. rewrite IHn, Rabs_R0. lra. Qed.
Lemma norm1_zero_inv v : norm1 v = 0%R -> v = zeros (length v).
Proof.
  unfold norm1, zeros. induction v as [|a v IH]; simpl; intros H; [reflexivity|].
  pose proof (Rabs_pos a). pose proof (norm1_nonneg v) as Hv. unfold norm1 in Hv.
  assert (Ea : Rabs a = 0%R) by lra. f_equal; [|apply IH; lra].
  destruct (Req_dec a 0) as [|Hn]; [auto|]. apply Rabs_no_R0 in Hn. lra.
Qed.

Lemma c46_affine__p :
  forall (F : list (arr R) -> res (list R)) (J : list (arr R) -> res (list (list R)))
         (solve : list (list R) -> list R -> res (list R)) (x0 : list (arr R)) (parameters : option (list (arr R)))
         (M : list (list R)) (k : list R) (tol : R) (m : nat),
  parameters <> Some [] -> x0 <> [] -> Forall (fun a => arr_wf a) x0 ->
  let n := length (flat x0) in
  is_matrix n n M -> length k = n -> (0 < tol)%R ->
  (forall x, map (@ashape R) x = map (@ashape R) x0 -> length (flat x) = n ->
     F (at_point parameters x) = Ok (vadd (mv M (flat x)) k) /\ J (at_point parameters x) = Ok M) ->
  (forall b, length b = n -> exists s, solve M b = Ok s /\ length s = n /\ mv M s = b) ->
  exists s1 s2 rest, newton_root F J solve x0 parameters 1 tol (S (S m)) = Ok (s1 :: s2 :: rest) /\
    F (at_point parameters (nx s1)) = Ok (zeros n) /\ nconv s2 = true /\ nx s2 = nx s1 /\ ncount s2 <= 1.
Proof.
  intros F J solve x0 parameters M k tol m Hp Hx W n HM Hk Htol HF Hsol.
  set (shapes := map (@ashape R) x0).
  assert (Hs : shapes <> []) by (unfold shapes; destruct x0; [congruence|discriminate]).
  assert (G0 : good shapes x0) by (split; auto).
  assert (En : n = total shapes) by (unfold n; apply good_flat; exact G0).
  set (has_exog := match parameters with None => false | Some _ => true end).
  set (exog := process_root_data parameters).
  (* the step is always defined *)
  assert (Step : forall st, good shapes (nx st) ->
            exists st', scan_body F J solve has_exog 1 tol (length x0) (length exog) st exog = Ok st').
  { intros st G. assert (Ln : length (nx st) = length x0).
    { rewrite <- (map_length (@ashape R) (nx st)), (proj1 G). apply map_length. }
    unfold has_exog, exog. rewrite (@body_unfold F J solve parameters shapes 1 tol Hp Hs st (length x0) G Ln).
    destruct (nconv st).
    - cbn [bind]. rewrite rlt_irrefl, (@ragged_good shapes _ G). eexists. reflexivity.
    - unfold newton_step. rewrite (@ragged_good shapes _ G). cbn [bind]. rewrite !eval_at by exact Hp.
      destruct (@good_flat shapes _ G) as (Lf & _). rewrite <- En in Lf.
      destruct (HF (nx st) (proj1 G) Lf) as (-> & ->). cbn [bind].
      assert (Lr : length (vadd (mv M (flat (nx st))) k) = n).
      { rewrite vadd_length; rewrite mv_length, (proj1 HM); auto. }
      destruct (Hsol _ Lr) as (s & -> & Ls & _). cbn [bind]. unfold vsub_checked. rewrite vscale_length, Lf, Ls, Nat.eqb_refl.
      cbn [bind]. assert (Ln' : length (vsub (flat (nx st)) (vscale (nstep st) s)) = total shapes).
      { rewrite vsub_length; rewrite ?vscale_length; congruence. }
      rewrite (proj1 G), ragged_chop0 by exact Ln'. cbn [bind]. rewrite eval_at by exact Hp.
      destruct (@good_chop shapes _ Ln') as (Gc & Fc).
      destruct (HF (chop shapes (vsub (flat (nx st)) (vscale (nstep st) s)))) as (-> & _).
      { apply Gc. } { rewrite Fc. congruence. }
      cbn [bind]. destruct (rlt _ _); [rewrite ragged_chop0 by exact Ln'|rewrite (@ragged_good shapes _ G)]; eexists; reflexivity. }
  assert (Good : forall st st', good shapes (nx st) ->
     scan_body F J solve has_exog 1 tol (length x0) (length exog) st exog = Ok st' ->
     body_spec F J solve parameters shapes 1 tol st st' /\ good shapes (nx st')).
  { intros st st' G E. apply (@body_ok F J solve parameters shapes 1 tol Hp Hs st st' (length x0) G); [|exact E].
    rewrite <- (map_length (@ashape R) (nx st)), (proj1 G). apply map_length. }
  assert (Loop : forall j st, good shapes (nx st) ->
     exists h, newton_loop F J solve has_exog 1 tol (length x0) (length exog) j st exog = Ok h).
  { induction j as [|j IH]; intros st G; cbn [newton_loop]; [eexists; reflexivity|].
    destruct (Step st G) as (st' & E). rewrite E. cbn [bind]. destruct (Good st st' G E) as (_ & G').
    destruct (IH st' G') as (h & ->). cbn [bind]. eexists. reflexivity. }
  destruct (Step (mkN x0 false 1 0) G0) as (s1 & E1). destruct (Good (mkN x0 false 1 0) s1 G0 E1) as (B1 & G1).
  destruct (Step s1 G1) as (s2 & E2). destruct (Good _ _ G1 E2) as (B2 & G2).
  destruct (Loop m s2 G2) as (rest & E3). exists s1, s2, rest. split.
  { unfold newton_root. fold has_exog exog. cbn [newton_loop]. rewrite E1. cbn [bind]. rewrite E2. cbn [bind]. rewrite E3. reflexivity. }
  (* the first point is a root *)
  assert (Root : F (at_point parameters (nx s1)) = Ok (zeros n)).
  { destruct B1 as [Ca _ _ _ _|r j s xn rn _ Hr Hj Hsv Ls Gx Fx Hrn Hcv Ex Es Ec]; [discriminate|]. cbn [nx nstep] in *.
    destruct (HF x0 eq_refl eq_refl) as (Hr' & Hj'). rewrite Hr' in Hr. injection Hr as <-. rewrite Hj' in Hj. injection Hj as <-.
    assert (Lr : length (vadd (mv M (flat x0)) k) = n) by (rewrite vadd_length; rewrite mv_length, (proj1 HM); auto).
    destruct (Hsol _ Lr) as (s' & Hs' & Ls' & Ms). assert (s' = s) by congruence. subst s'.
    assert (Lxn : length (flat xn) = n) by (rewrite Fx, vsub_length; rewrite ?vscale_length; auto).
    destruct (HF xn (proj1 Gx) Lxn) as (Hrn' & _). rewrite Hrn' in Hrn. injection Hrn as <-.
    assert (Z : vadd (mv M (flat xn)) k = zeros n).
    { rewrite Fx. assert (Ev : vsub (flat x0) (vscale 1 s) = vadd (flat x0) (vneg s)).
      { rewrite vscale_one. apply list_ext. intros i. unfold vsub, vadd, vneg. rewrite !nth_vmap2, nth_error_map.
        destruct (nth_error (flat x0) i), (nth_error s i); reflexivity. }
      rewrite Ev, (@mv_vadd M n n (flat x0) (vneg s) HM eq_refl), mv_vneg, Ms by (now rewrite vneg_length).
      rewrite <- Lr. apply list_ext. intros i. unfold zeros. unfold vadd, vneg. rewrite !nth_vmap2, nth_error_map, nth_vmap2.
      destruct (Nat.lt_ge_cases i n) as [Hi|Hi].
      - assert (Lm : length (mv M (flat x0)) = n) by (rewrite mv_length; apply HM).
        destruct (nth_error (mv M (flat x0)) i) as [p|] eqn:Ep; [|apply nth_error_None in Ep; lia].
        destruct (nth_error k i) as [q|] eqn:Eq; [|apply nth_error_None in Eq; lia]. cbn [option_map].
        rewrite nth_error_repeat.
        + f_equal. ring.
        + fold (vadd (mv M (flat x0)) k). lia.
      - assert (Lm : length (mv M (flat x0)) = n) by (rewrite mv_length; apply HM).
        destruct (nth_error (mv M (flat x0)) i) as [p|] eqn:Ep.
        { assert (i < length (mv M (flat x0))) by (apply nth_error_Some; congruence). lia. }
        symmetry. apply nth_error_None. rewrite repeat_length. fold (vadd (mv M (flat x0)) k). lia. }
    rewrite Ex. destruct (rlt _ _) eqn:Ed.
    - rewrite Hrn'. now rewrite Z.
    - rewrite Hr'. rewrite Z, norm1_zeros in Ed. apply rlt_false in Ed.
      pose proof (norm1_nonneg (vadd (mv M (flat x0)) k)) as Hn. f_equal. rewrite <- Lr. apply norm1_zero_inv. lra. }
  split; [exact Root|]. destruct B2 as [Ca Ex Ec En' _|r j s xn rn Ca Hr Hj Hsv Ls Gx Fx Hrn Hcv Ex Es Ec].
  - split; [exact Ec|]. split; [exact Ex|]. rewrite En'.
    destruct B1 as [Cb _ _ _ _|r j s xn rn _ _ _ _ _ _ _ _ _ _ _ Ec1]; [discriminate|]. rewrite Ec1. simpl. destruct (nconv s1); lia.
  - assert (r = zeros n) by congruence. subst r. rewrite norm1_zeros in *.
    assert (Hc : nconv s2 = true).
    { rewrite Hcv. unfold rlt. destruct (Rlt_dec 0 tol); [reflexivity|lra]. }
    split; [exact Hc|]. split.
    + rewrite Ex. destruct (rlt (norm1 rn) 0) eqn:Ed; [|reflexivity]. apply rlt_true in Ed. pose proof (norm1_nonneg rn). lra.
    + rewrite Ec, Hc.
      destruct B1 as [Cb _ _ _ _|r' j' s' xn' rn' _ _ _ _ _ _ _ _ _ _ _ Ec1]; [discriminate|]. rewrite Ec1. simpl. destruct (nconv s1); lia.
Qed.

(** With an empty dict of parameters the whole state is passed in their place. *)
Lemma c43_empty_parameters_state__p :
  forall (F : list (arr R) -> res (list R)) (J : list (arr R) -> res (list (list R)))
         (solve : list (list R) -> list R -> res (list R)) (x0 : list (arr R)) (step tol : R) (max_iter : nat) (e : exn),
  x0 <> [] -> Forall (fun a => arr_wf a) x0 ->
  let state := x0 ++ [mkArr [] [0%R]; mkArr [] [step]; mkArr [] [0%R]] in
  F (x0 ++ state) = Err e -> newton_root F J solve x0 (Some []) step tol (S max_iter) = Err e.
Proof.
  intros F J solve x0 step tol m e N W state E. unfold newton_root. cbn [process_root_data length newton_loop]. unfold scan_body, body_args, last_args. cbn [nx nconv nstep ncount].
  rewrite firstn_app, firstn_all, Nat.sub_diag. cbn [firstn]. rewrite app_nil_r. unfold concat_arrays. destruct x0 as [|a x0]; [easy|]. cbn [bind].
  unfold newton_step. replace (List.concat (map (@adata R) (a :: x0))) with (flat (a :: x0)) by reflexivity. rewrite (@ragged_good (map (@ashape R) (a :: x0)) (a :: x0)) by (split; [reflexivity|exact W]).
  cbn [bind eval_func]. unfold scalar. cbn [app INR] in *. unfold state in E. rewrite E. reflexivity.
Qed.
