(** C80. *)
From Coq Require Import Reals Lra.
From Verif Require Import Py PyStr M_SymExpr M_Calculus S_Calculus S_Reduce M_Lambdify S_Lambdify L_Calculus L_Calculus2 L_Lambdify L_NumbaStep.
From Verif Require Import M_Primitives M_Expand.
Local Open Scope string_scope.
Local Open Scope list_scope.

Lemma diff_indexed x e b l : In (b, l) (indexed_exprs (diff x e)) -> In (b, l) (indexed_exprs e).
Proof.
  induction e; try (cbn; tauto).
  - destruct o.
    1-4: cbn [diff indexed_exprs]; rewrite !in_app_iff; tauto.
    destruct (is_num e2) eqn:N.
    + destruct e2; try discriminate. rewrite diff_pow_num. destruct (Z.eqb z0 0); cbn [indexed_exprs]; rewrite ?in_app_iff; cbn; tauto.
    + rewrite diff_pow_gen by auto. cbn [indexed_exprs]. rewrite !in_app_iff. tauto.
  - destruct f; cbn [diff indexed_exprs]; rewrite ?in_app_iff; tauto.
Qed.
Lemma diff_no_indexed x e : indexed_exprs e = [] -> indexed_exprs (diff x e) = [].
Proof.
  intros H. destruct (indexed_exprs (diff x e)) as [|(b & l) r] eqn:E; [reflexivity|]. exfalso.
  assert (X : In (b, l) (indexed_exprs (diff x e))) by (rewrite E; simpl; auto). apply diff_indexed in X. rewrite H in X. destruct X.
Qed.

(** The expressions of the model: scalar symbols only *)
Definition closed_in (names : list string) (e : sexpr) : Prop :=
  no_reduction e /\ indexed_exprs e = [] /\ forall s, In s (atoms e) -> In s names.

Lemma closed_diff names x e : closed_in names e -> closed_in names (diff x e).
Proof.
  intros (A & B & C). split; [now apply diff_nored|]. split; [now apply diff_no_indexed|]. intros s Hs. apply C. now apply diff_atoms in Hs.
Qed.

Lemma py_sum_leaves l : (Forall no_reduction l -> no_reduction (py_sum l)) /\
  (forall b i, In (b, i) (indexed_exprs (py_sum l)) -> exists e, In e l /\ In (b, i) (indexed_exprs e)) /\
  (forall s, In s (atoms (py_sum l)) -> exists e, In e l /\ In s (atoms e)).
Proof.
  unfold py_sum. assert (G : forall l a, (no_reduction a -> Forall no_reduction l -> no_reduction (fold_left (SBin OAdd) l a)) /\
    (forall b i, In (b, i) (indexed_exprs (fold_left (SBin OAdd) l a)) -> exists e, In e (a :: l) /\ In (b, i) (indexed_exprs e)) /\
    (forall s, In s (atoms (fold_left (SBin OAdd) l a)) -> exists e, In e (a :: l) /\ In s (atoms e))).
  { clear l. induction l as [|c l IH]; intros a; cbn [fold_left].
    - split; [auto|]. split; intros; exists a; simpl; auto.
    - destruct (IH (SBin OAdd a c)) as (A & B & C). split; [|split].
      + intros Ha Hl. inversion Hl; subst. apply A; cbn; auto.
      + intros b i H. apply B in H as (e & [<-|He] & H); [|exists e; simpl; auto]. cbn in H. apply in_app_or in H as [H|H]; eexists; (split; [|exact H]); simpl; auto.
      + intros s H. apply C in H as (e & [<-|He] & H); [|exists e; simpl; auto]. cbn in H. apply in_app_or in H as [H|H]; eexists; (split; [|exact H]); simpl; auto. }
  destruct (G l (SNum 0)) as (A & B & C). split; [intros H; apply A; cbn; auto|]. split.
  - intros b i H. apply B in H as (e & [<-|He] & H); [destruct H|eauto].
  - intros s H. apply C in H as (e & [<-|He] & H); [destruct H|eauto].
Qed.

Lemma closed_loss names eqs : (forall e, In e eqs -> closed_in names e) -> closed_in names (squared_loss eqs).
Proof.
  intros W. unfold squared_loss. destruct (py_sum_leaves (map (fun e => SBin OPow e (SNum 2)) eqs)) as (A & B & C).
  split; [|split]; cbn [no_reduction indexed_exprs atoms app].
  - split; [cbn; auto|]. apply A. apply Forall_forall. intros e He. apply in_map_iff in He as (e' & <- & He). cbn. split; auto. now apply W.
  - destruct (indexed_exprs (py_sum _)) as [|(b & i) r] eqn:E; [reflexivity|]. exfalso. destruct (B b i) as (e & He & H); [simpl; auto|].
    apply in_map_iff in He as (e' & <- & He). cbn in H. rewrite app_nil_r in H. destruct (W e' He) as (_ & Z & _). rewrite Z in H. destruct H.
  - intros s Hs. apply C in Hs as (e & He & H). apply in_map_iff in He as (e' & <- & He). cbn in H. rewrite app_nil_r in H. now apply (W e' He).
Qed.

Lemma column_cells l : List.concat (map (fun e : sexpr => [e]) l) = l.
Proof. induction l as [|a l IH]; [reflexivity|]. cbn. now rewrite IH. Qed.

Lemma c80_system__p :
  forall cse, eliminates cse -> forall variables parameters equations,
  let names := variables ++ parameters in
  NoDup names -> (forall n, In n names -> is_name n = true /\ ~ In n reserved) ->
  (forall e, In e equations -> no_reduction e /\ indexed_exprs e = [] /\ forall s, In s (atoms e) -> In s names) ->
  exists f, compile_numba_system cse equations variables parameters = Ok f /\
    forall x theta p, length x = length variables -> length theta = length parameters ->
      f x theta = Ok (OVec (map (numval (state_of names (x ++ theta)) p) equations)).
Proof.
  intros cse EL variables parameters equations names N U W. unfold compile_numba_system.
  destruct (@lambdify_flat cse variables parameters (TMat (map (fun e => [e]) equations)) true EL N U) as (f & -> & E).
  { intros e He. cbn [cells] in He. rewrite column_cells in He. now apply W. }
  cbn [bind]. eexists. split; [reflexivity|]. intros x theta p Lx Lt. rewrite (E x theta p Lx Lt). cbn [finish cells]. now rewrite column_cells.
Qed.

Lemma c80_jacobian__p :
  forall cse, eliminates cse -> forall variables parameters equations,
  let names := variables ++ parameters in
  NoDup names -> (forall n, In n names -> is_name n = true /\ ~ In n reserved) ->
  (forall e, In e equations -> no_reduction e /\ indexed_exprs e = [] /\ forall s, In s (atoms e) -> In s names) ->
  equations <> [] -> variables <> [] ->
  exists f, compile_numba_jacobian_function cse (SysList equations) variables parameters = Ok f /\
    forall x theta p, length x = length variables -> length theta = length parameters ->
      exists J, f x theta = Ok (OMat J) /\ length J = length equations /\
        forall i j e y, nth_error equations i = Some e -> nth_error variables j = Some y ->
          exists row d, nth_error J i = Some row /\ length row = length variables /\ nth_error row j = Some d /\
            (smooth (state_of names (x ++ theta)) p e ->
             derivable_pt_lim (fun t => numval (set_sym (state_of names (x ++ theta)) y t) p e) (state_of names (x ++ theta) y) d).
Proof.
  intros cse EL variables parameters equations names N U W NE NV. unfold compile_numba_jacobian_function.
  assert (J : make_sympy_jacobian (SysList equations) variables = Ok (map (fun e => map (fun x => diff x e) variables) equations)).
  { destruct equations; [tauto|]. destruct variables; [tauto|]. reflexivity. }
  rewrite J. cbn [bind].
  destruct (@lambdify_flat cse variables parameters (TMat (map (fun e => map (fun x => diff x e) variables) equations)) false EL N U) as (f & -> & E).
  { intros e He. cbn [cells] in He. apply in_concat in He as (row & Hr & He). apply in_map_iff in Hr as (e' & <- & Hr). apply in_map_iff in He as (x & <- & _).
    apply closed_diff. now apply W. }
  cbn [bind]. eexists. split; [reflexivity|]. intros x theta p Lx Lt. rewrite (E x theta p Lx Lt). cbn [finish cells].
  rewrite finish_rows with (k := length variables) by (intros row Hr; apply in_map_iff in Hr as (e & <- & _); apply map_length).
  eexists. split; [reflexivity|]. rewrite !map_length. split; [reflexivity|]. intros i j e y Hi Hj.
  rewrite !nth_error_map, Hi. cbn [option_map]. eexists. eexists. split; [reflexivity|]. rewrite !map_length. split; [reflexivity|].
  rewrite !nth_error_map, Hj. cbn [option_map]. split; [reflexivity|]. intros S. apply numval_deriv. exact S.
Qed.

Lemma numval_loss v p eqs : numval v p (squared_loss eqs) = (/ 2 * rsum (map (fun e => numval v p e * numval v p e) eqs))%R.
Proof.
  unfold squared_loss. cbn [numval bin_val]. rewrite numval_sum, map_map. f_equal; [lra|]. f_equal. apply map_ext. intros e. cbn [numval bin_val].
  rewrite rpow_IZR. apply sq_powerRZ.
Qed.

Lemma c80_loss__p :
  forall cse, eliminates cse -> forall variables parameters equations,
  let names := variables ++ parameters in
  NoDup names -> (forall n, In n names -> is_name n = true /\ ~ In n reserved) ->
  (forall e, In e equations -> no_reduction e /\ indexed_exprs e = [] /\ forall s, In s (atoms e) -> In s names) ->
  exists f g, compile_numba_error_function cse equations variables parameters = Ok f /\
    compile_numba_gradient_function cse (squared_loss equations) variables parameters = Ok g /\
    forall x theta p, length x = length variables -> length theta = length parameters ->
      let loss v := (/ 2 * rsum (map (fun e => numval v p e * numval v p e) equations))%R in
      let state := state_of names (x ++ theta) in
      f x theta = Ok (OScalar (loss state)) /\
      exists G, g x theta = Ok (OVec G) /\ length G = length variables /\
        forall j y, nth_error variables j = Some y -> exists d, nth_error G j = Some d /\
          (Forall (smooth state p) equations -> derivable_pt_lim (fun t => loss (set_sym state y t)) (state y) d).
Proof.
  intros cse EL variables parameters equations names N U W. unfold compile_numba_error_function, compile_numba_gradient_function.
  assert (CL : closed_in names (squared_loss equations)) by (apply closed_loss; exact W).
  destruct (@lambdify_flat cse variables parameters (TExpr (squared_loss equations)) false EL N U) as (f & -> & Ef).
  { intros e [<-|[]]. exact CL. }
  destruct (@lambdify_flat cse variables parameters (TMat (map (fun e => [e]) (make_sympy_gradient (squared_loss equations) variables))) true EL N U) as (g & -> & Eg).
  { intros e He. cbn [cells] in He. rewrite column_cells in He. apply in_map_iff in He as (y & <- & _). now apply closed_diff. }
  cbn [bind]. eexists. eexists. split; [reflexivity|]. split; [reflexivity|]. intros x theta p Lx Lt. set (state := state_of names (x ++ theta)).
  split.
  - rewrite (Ef x theta p Lx Lt). cbn [finish cells map hd]. do 2 f_equal. apply numval_loss.
  - rewrite (Eg x theta p Lx Lt). cbn [finish cells]. rewrite column_cells. eexists. split; [reflexivity|]. unfold make_sympy_gradient. rewrite !map_length. split; [reflexivity|].
    intros j y Hj. rewrite !nth_error_map, Hj. cbn [option_map]. eexists. split; [reflexivity|].
    intros S. apply deriv_ext with (f := fun t => numval (set_sym state y t) p (squared_loss equations)); [intros t; apply numval_loss|].
    apply numval_deriv. now apply smooth_loss.
Qed.

Lemma val_noix v q q' e : indexed_exprs e = [] -> val v q e = val v q' e.
Proof.
  induction e; cbn [indexed_exprs]; intros H; try discriminate; auto.
  - apply app_eq_nil in H as (H1 & H2). specialize (IHe1 H1). specialize (IHe2 H2). destruct o; cbn [val]; rewrite ?IHe1, ?IHe2; auto.
  - specialize (IHe H). destruct f; cbn [val]; now rewrite IHe.
Qed.
Lemma smooth_noix v q q' e : indexed_exprs e = [] -> smooth v q e -> smooth v q' e.
Proof.
  induction e; cbn [indexed_exprs]; intros H; try discriminate; auto.
  - apply app_eq_nil in H as (H1 & H2). specialize (IHe1 H1). specialize (IHe2 H2).
    destruct o; cbn [smooth]; rewrite ?(val_noix v q q' e1 H1), ?(val_noix v q q' e2 H2); tauto.
  - specialize (IHe H). destruct f; cbn [smooth]; rewrite ?(val_noix v q q' e H); tauto.
Qed.

(** make_sympy_hessp has scalar symbols of the gradient and entries of hess_point *)
Lemma hessp_leaves names grad vars e : (forall g, In g grad -> closed_in names g) -> length grad = length vars -> In e (make_sympy_hessp grad vars) ->
  no_reduction e /\ (forall s, In s (atoms e) -> In s names) /\
  forall b l, In (b, l) (indexed_exprs e) -> b = "hess_point" /\ exists i, l = [IPos i] /\ i < length vars.
Proof.
  intros W L H. unfold make_sympy_hessp in H. apply in_map_iff in H as (y & <- & _).
  match goal with |- context [diff y (py_sum ?t)] => set (ts := t) in *; destruct (py_sum_leaves ts) as (A & B & C) end.
  assert (T : forall t, In t ts -> no_reduction t /\ (forall s, In s (atoms t) -> In s names) /\
    forall b l, In (b, l) (indexed_exprs t) -> b = "hess_point" /\ exists i, l = [IPos i] /\ i < length vars).
  { intros t Ht. apply in_map_iff in Ht as (i & <- & Hi). apply in_seq in Hi.
    assert (G : closed_in names (nth i grad (SNum 0))) by (apply W, nth_In; lia). destruct G as (G1 & G2 & G3).
    cbn [no_reduction atoms indexed_exprs hess_point]. rewrite G2, app_nil_r. split; [cbn; auto|]. split; [exact G3|].
    intros b l [[= <- <-]|[]]. split; auto. exists i. split; auto. lia. }
  split; [|split].
  - apply diff_nored. apply A. apply Forall_forall. intros t Ht. now apply T.
  - intros s Hs. apply diff_atoms in Hs. apply C in Hs as (t & Ht & Hs). now apply (T t Ht).
  - intros b l Hb. apply diff_indexed in Hb. apply B in Hb as (t & Ht & Hb). now apply (T t Ht).
Qed.

Lemma c80_hessian__p :
  forall cse, eliminates cse -> forall variables parameters equations,
  let names := variables ++ parameters in
  NoDup names -> (forall n, In n names -> is_name n = true /\ ~ In n reserved) -> ~ In "hess_point" names ->
  (forall e, In e equations -> no_reduction e /\ indexed_exprs e = [] /\ forall s, In s (atoms e) -> In s names) ->
  variables <> [] ->
  let grad := make_sympy_gradient (squared_loss equations) variables in
  exists h hp, compile_numba_jacobian_function cse (SysMatrix (map (fun g => [g]) grad)) variables parameters = Ok h /\
    compile_numba_hessp_function cse grad variables parameters = Ok hp /\
    forall x theta p, length x = length variables -> length theta = length parameters ->
      let state := state_of names (x ++ theta) in
      Forall (smooth state p) equations ->
      exists H, h x theta = Ok (OMat H) /\ length H = length variables /\
        (forall j row, nth_error H j = Some row -> length row = length variables) /\
        (forall j k g y, nth_error grad j = Some g -> nth_error variables k = Some y ->
           derivable_pt_lim (fun t => numval (set_sym state y t) p g) (state y) (nth k (nth j H []) 0%R)) /\
        (forall j k, j < length variables -> k < length variables -> nth k (nth j H []) 0%R = nth j (nth k H []) 0%R) /\
        forall dir, length dir = length variables ->
          hp x dir theta = Ok (map (fun row => rsum (map (fun kd => fst kd * snd kd)%R (combine row dir))) H).
Proof.
  intros cse EL variables parameters equations names N U NH W NV grad. unfold compile_numba_jacobian_function, compile_numba_hessp_function.
  assert (CG : forall g, In g grad -> closed_in names g).
  { intros g Hg. apply in_map_iff in Hg as (y & <- & _). apply closed_diff, closed_loss. exact W. }
  assert (LG : length grad = length variables) by apply map_length.
  destruct (@c50_hessian__p equations variables NV) as (HS & EH & LH & DH & SH). fold grad in EH, DH. rewrite EH. cbn [bind].
  assert (RH : forall row, In row HS -> length row = length variables).
  { intros row Hr. apply In_nth_error in Hr as (j & Hj). assert (Lj : j < length HS) by (apply nth_error_Some; congruence). rewrite LH in Lj.
    destruct (nth_error grad j) as [g|] eqn:Eg; [|apply nth_error_None in Eg; lia].
    destruct variables as [|y0 vs] eqn:Ev; [tauto|]. destruct (DH j 0 g y0 Eg eq_refl) as (row' & _ & Er & Lr & _). congruence. }
  assert (HH : HS = map (fun e => map (fun x => diff x e) variables) grad).
    { assert (E : as_vector (SysMatrix (map (fun g => [g]) grad)) = as_vector (SysList grad)).
      { destruct grad as [|g [|g2 gs]]; [reflexivity|reflexivity|]. cbn. do 3 f_equal. clear. induction gs; cbn; congruence. }
      destruct variables as [|y0 vs]; [tauto|]. unfold make_sympy_jacobian in EH. rewrite E in EH.
      unfold grad in EH. cbn [make_sympy_gradient map as_vector bind] in EH. injection EH as <-. reflexivity. }
  assert (CH : forall e, In e (List.concat HS) -> closed_in names e).
  { intros e He. rewrite HH in He. apply in_concat in He as (row & Hr & He). apply in_map_iff in Hr as (g & <- & Hg). apply in_map_iff in He as (y & <- & _).
    apply closed_diff. now apply CG. }
  destruct (@lambdify_flat cse variables parameters (TMat HS) false EL N U CH) as (h & -> & Eh). cbn [bind].
  destruct (usable_parts U) as (U0 & U1 & U2).
  destruct (@lambdify_run cse (variables ++ ["hess_point"]) (TMat (map (fun e => [e]) (make_sympy_hessp grad variables))) parameters false) as (hp & Ep & Rp).
  { exact EL. }
  { intros n Hn. rewrite !in_app_iff in Hn. destruct Hn as [[Hn|[<-|[]]]|Hn]; [|split; [reflexivity|split; discriminate]|]; apply U0; apply in_or_app; auto. }
  { apply Forall_forall. intros e He. cbn [cells] in He. rewrite column_cells in He. now apply (@hessp_leaves names grad variables e) in He. }
  rewrite Ep. cbn [bind]. eexists. eexists. split; [reflexivity|]. split; [reflexivity|].
  intros x theta p Lx Lt. set (state := state_of names (x ++ theta)). intros Sm.
  assert (SL : forall q, Forall (smooth state q) equations -> smooth state q (squared_loss equations)) by (intros q; apply smooth_loss).
  assert (SC : forall e, In e (List.concat HS) -> smooth state p e).
  { intros e He. rewrite HH in He. apply in_concat in He as (row & Hr & He). apply in_map_iff in Hr as (g & <- & Hg). apply in_map_iff in He as (y & <- & _).
    apply in_map_iff in Hg as (z & <- & _). now apply smooth_diff, smooth_diff, SL. }
  exists (map (map (val state p)) HS). rewrite map_length.
  split.
  { rewrite (Eh x theta p Lx Lt). cbn [finish cells]. fold state. rewrite (map_ext_in (numval state p) (val state p)) by (intros e He; apply numval_val, SC; auto). now rewrite finish_rows with (k := length variables) by exact RH. }
  split; [exact LH|]. split.
  { intros j row Hj. rewrite nth_error_map in Hj. destruct (nth_error HS j) as [r|] eqn:E; [|discriminate]. injection Hj as <-. rewrite map_length.
    apply RH. eapply nth_error_In; eauto. }
  assert (NN : forall j k, j < length variables -> k < length variables -> nth k (nth j (map (map (val state p)) HS) []) 0%R = val state p (nth k (nth j HS []) (SNum 0))).
  { intros j k Hj Hk. change (@nil R) with (map (val state p) []). rewrite map_nth. rewrite nth_indep with (d' := val state p (SNum 0)); [now rewrite map_nth|].
    rewrite map_length, RH; [auto|]. apply nth_In. lia. }
  split.
  { intros j k g y Hg Hy. destruct (DH j k g y Hg Hy) as (row & hjk & E1 & _ & E2 & PD).
    rewrite NN; [|rewrite <- LG; apply nth_error_Some; congruence|apply nth_error_Some; congruence].
    rewrite (nth_error_nth HS j [] E1), (nth_error_nth row k _ E2). unfold grad, make_sympy_gradient in Hg. rewrite nth_error_map in Hg.
    destruct (nth_error variables j) as [z|]; [|discriminate]. injection Hg as <-.
    assert (SG : smooth state p (diff z (squared_loss equations))) by (now apply smooth_diff, SL).
    apply deriv_near with (f := fun t => val (set_sym state y t) p (diff z (squared_loss equations))); [|now apply PD].
    eapply near_imp; [|apply smooth_near, SG]. intros t Ht. symmetry. now apply numval_val. }
  split.
  { intros j k Hj Hk. rewrite !NN by auto. now apply SH. }
  intros dir Ld.
  set (ph := fun (b : string) (l : list idx) => match l with [IPos i] => nth i dir 0%R | _ => 0%R end).
  assert (NE : NoDup ((variables ++ ["hess_point"]) ++ parameters)).
  { rewrite <- app_assoc. apply NoDup_app_parts in N as (N1 & N2 & N3). apply NoDup_app; auto.
    - cbn. constructor; auto. intros H. apply NH, in_or_app. auto.
    - intros n Hn [<-|Hp]; [apply NH, in_or_app; auto|]. now apply (N3 n). }
  set (X := PList (map PNum x ++ [PArr dir])).
  assert (IX : forall j n, nth_error (variables ++ ["hess_point"]) j = Some n ->
     (exists r, nth_error variables j = Some n /\ nth_error x j = Some r /\ py_item X j = Ok (PNum r)) \/ (n = "hess_point" /\ py_item X j = Ok (PArr dir))).
  { intros j n Hj. unfold X. cbn [py_item]. destruct (Nat.lt_ge_cases j (length variables)) as [Lj|Lj].
    - left. rewrite nth_error_app1 in Hj by auto. destruct (nth_error x j) as [r|] eqn:E; [|apply nth_error_None in E; lia].
      exists r. rewrite nth_error_app1 by (rewrite map_length; lia). rewrite nth_error_map, E. auto.
    - right. rewrite nth_error_app2 in Hj by auto. rewrite nth_error_app2 by (rewrite map_length; lia). rewrite map_length, Lx.
      destruct (j - length variables) as [|[|k]]; try discriminate. injection Hj as <-. auto. }
  destruct (@unpack_both (variables ++ ["hess_point"]) parameters X (PArr theta)) as (env1 & env & A & B & C & D); auto.
  { rewrite in_app_iff. intros [H|[H|[]]]; [|discriminate]. apply U1, in_or_app. auto. }
  { rewrite !in_app_iff. intros [[H|[H|[]]]|H]; try discriminate; apply U2, in_or_app; auto. }
  { intros j n Hj. destruct (IX j n Hj) as [(r & _ & _ & ->)|(_ & ->)]; eauto. }
  { intros j n Hj. destruct (@item_arr theta j n parameters Lt Hj) as (r & _ & ->). eauto. }
  rewrite (Rp X (PArr theta) env1 env state ph).
  - cbn [bind]. f_equal. cbn [finish cells]. rewrite finish_rows with (k := 1) by (intros row Hr; apply in_map_iff in Hr as (e & <- & _); reflexivity).
    cbn [ravel]. rewrite concat_singletons.
    assert (LP : length (make_sympy_hessp grad variables) = length variables) by apply map_length.
    apply nth_ext with (d := 0%R) (d' := 0%R); [rewrite !map_length; lia|]. rewrite map_length, LP. intros j Hj.
    destruct (@c50_hessp__p equations variables NV HS EH j Hj) as (e & Ee & Ve). fold grad in Ee.
    rewrite (nth_error_nth (map (numval state ph) (make_sympy_hessp grad variables)) j 0%R (x := numval state ph e)) by (rewrite nth_error_map, Ee; reflexivity).
    assert (Sph : Forall (smooth state ph) equations) by (rewrite Forall_forall in *; intros q Hq; apply smooth_noix with (q := p); [now apply W|auto]).
    rewrite numval_val.
    2:{ unfold make_sympy_hessp, make_sympy_gradient in Ee. rewrite nth_error_map in Ee. destruct (nth_error variables j) as [z|]; [|discriminate]. injection Ee as <-.
        apply smooth_diff, smooth_sum. apply Forall_forall. intros t Ht. apply in_map_iff in Ht as (i & <- & Hi). apply in_seq in Hi. cbn [smooth hess_point]. split; [|exact I].
        assert (Gi : In (nth i grad (SNum 0)) grad) by (apply nth_In; lia). apply in_map_iff in Gi as (z' & <- & _). now apply smooth_diff, SL. }
    rewrite Ve by (exact Sph).
    rewrite map_map. rewrite nth_indep with (d' := rsum (map (fun kd => fst kd * snd kd)%R (combine (map (val state p) []) dir))) by (rewrite map_length; lia).
    rewrite (map_nth (fun row => rsum (map (fun kd => fst kd * snd kd)%R (combine (map (val state p) row) dir))) HS [] j).
    f_equal. assert (Lr : length (nth j HS []) = length variables) by (apply RH, nth_In; lia).
    assert (CR : forall e, In e (nth j HS []) -> indexed_exprs e = []).
    { intros q Hq. apply (CH q). apply in_concat. exists (nth j HS []). split; auto. apply nth_In. lia. }
    clear Ve Ee. generalize dependent (nth j HS []). intros row Lr CR. rewrite <- Lr in Ld |- *. clear -Ld CR. unfold ph. clear ph.
    revert dir Ld CR. induction row as [|a row IH]; intros [|d dir] Ld CR; try discriminate; [reflexivity|]. cbn [length seq map combine fst snd nth].
    rewrite (val_noix state _ p a) by (apply CR; simpl; auto). f_equal. rewrite <- seq_shift, map_map. cbn [nth].
    rewrite <- IH; [|cbn in Ld; lia|intros; apply CR; simpl; auto]. apply map_ext_in. intros i Hi. apply in_seq in Hi. f_equal.
    apply val_noix. apply CR. right. apply nth_In. lia.
  - unfold X. cbn [py_len]. rewrite !app_length, map_length. cbn. f_equal. lia.
  - cbn. now rewrite Lt.
  - exact A.
  - exact B.
  - intros e s He Hs. cbn [cells] in He. rewrite column_cells in He. apply (@hessp_leaves names grad variables e CG LG) in He as (_ & H2 & _). apply H2 in Hs.
    unfold names in Hs. apply in_app_or in Hs as [Hs|Hs]; apply In_nth_error in Hs as (j & Hj).
    + assert (Hj' : nth_error (variables ++ ["hess_point"]) j = Some s) by (rewrite nth_error_app1; [auto|apply nth_error_Some; congruence]).
      destruct (IX j s Hj') as [(r & _ & Er & Ir)|(-> & _)].
      * rewrite (C j s (PNum r) Hj' Ir). do 2 f_equal. symmetry. apply (@state_left variables parameters x theta j s r); auto.
      * exfalso. apply NH, in_or_app. left. eapply nth_error_In; eauto.
    + destruct (@item_arr theta j s parameters Lt Hj) as (r & Er & Ir). rewrite (D j s (PNum r) Hj Ir). do 2 f_equal. symmetry.
      apply (@state_right variables parameters x theta j s r); auto.
  - intros e b l He Hb. cbn [cells] in He. rewrite column_cells in He. apply (@hessp_leaves names grad variables e CG LG) in He as (_ & _ & H3).
    apply H3 in Hb as (-> & i & -> & Li). split.
    + exists i, (PArr dir). split; auto. split.
      * apply (C (length variables)); [rewrite nth_error_app2, Nat.sub_diag by lia; reflexivity|]. unfold X. cbn [py_item].
        rewrite nth_error_app2 by (rewrite map_length; lia). rewrite map_length, Lx, Nat.sub_diag. reflexivity.
      * cbn [py_item]. unfold ph. rewrite (nth_error_nth' dir 0%R) by lia. reflexivity.
    + intros (ds & E & _). discriminate.
Qed.

(** A label with a space *)
Lemma c80_syntax_refuted__p :
  exists variables parameters equations, NoDup (variables ++ parameters) /\
    (forall e, In e equations -> no_reduction e /\ indexed_exprs e = [] /\ forall s, In s (atoms e) -> In s (variables ++ parameters)) /\
    (forall n, In n (variables ++ parameters) -> ~ In n reserved) /\
    forall cse, eliminates cse -> compile_numba_system cse equations variables parameters = Err SyntaxError.
Proof.
  exists ["X__i_north east"], ["a"], [SBin OSub (SSym "X__i_north east") (SSym "a")].
  split; [repeat constructor; cbn; intuition discriminate|]. split.
  { intros e [<-|[]]. cbn. intuition. }
  split.
  { intros n Hn Hr. cbn in Hn, Hr. intuition congruence. }
  intros cse _. unfold compile_numba_system, numba_lambdify. destruct (cse _) as (defs & out). cbn. reflexivity.
Qed.
Lemma c80_len_refuted__p :
  exists variables parameters equations, NoDup (variables ++ parameters) /\
    (forall e, In e equations -> no_reduction e /\ indexed_exprs e = [] /\ forall s, In s (atoms e) -> In s (variables ++ parameters)) /\
    (forall n, In n (variables ++ parameters) -> is_name n = true) /\
    forall cse, eliminates cse -> exists f, compile_numba_system cse equations variables parameters = Ok f /\
      forall x theta, length x = length variables -> length theta = length parameters -> exists ex, f x theta = Err ex.
Proof.
  exists ["len"], ["a"], [SBin OSub (SSym "len") (SSym "a")].
  split; [repeat constructor; cbn; intuition discriminate|]. split.
  { intros e [<-|[]]. cbn. intuition. }
  split.
  { intros n [<-|[<-|[]]]; reflexivity. }
  intros cse EL. specialize (EL [SBin OSub (SSym "len") (SSym "a")]). destruct EL as (_ & _ & Fr & _).
  unfold compile_numba_system, numba_lambdify. cbn [map cells List.concat app].
  destruct (cse [SBin OSub (SSym "len") (SSym "a")]) as (defs & out). cbn [fst snd] in Fr.
  assert (NM : forallb is_name ("len" :: "a" :: map fst defs) = true).
  { apply forallb_forall. intros n [<-|[<-|Hn]]; try reflexivity. apply numbered_name. now apply Fr. }
  rewrite NM. cbn [negb bind]. eexists. split; [reflexivity|]. intros x theta _ _. exists NameError. reflexivity.
Qed.

Lemma first_cse_ok : eliminates first_cse.
Proof.
  intros [|e es]; [apply no_cse_ok|]. unfold first_cse. destruct (mem_str "x0" (flat_map atoms (e :: es))) eqn:M; [apply no_cse_ok|].
  assert (F : ~ In "x0" (flat_map atoms (e :: es))) by (intros H; apply mem_str_In in H; congruence).
  cbn [fst snd map app with_defs]. split; [reflexivity|]. split; [repeat constructor; auto|]. split.
  { intros n [<-|[]]. split; auto. exists "0". split; reflexivity. }
  split.
  { cbn [scoped]. split; [intros s Hs; cbn [flat_map]; apply in_or_app; auto|]. intros q s [<-|Hq] Hs; [cbn in Hs; destruct Hs as [<-|[]]; simpl; auto|].
    right. cbn [flat_map]. apply in_or_app. right. apply in_flat_map. eauto. }
  split.
  { intros q b l [<-|[<-|Hq]] Hb; cbn [flat_map]; apply in_or_app; [auto|destruct Hb|right; apply in_flat_map; eauto]. }
  split.
  { intros H. inversion H; subst. constructor; auto. constructor; cbn; auto. }
  intros v p. cbn [map]. f_equal.
  apply map_ext_in. intros q Hq. apply numval_agree; auto. intros s Hs. unfold set_sym. destruct (String.eqb_spec s "x0"); auto. subst. exfalso. apply F.
    cbn [flat_map]. apply in_or_app. right. apply in_flat_map. eauto.
Qed.
