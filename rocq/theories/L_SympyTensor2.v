(** C85: derivatives of the sympytensor functions; the theorems. *)
From Coq Require Import Reals Lra.
From Verif Require Import Py PyStr NdArray M_Primitives M_Utilities M_Expand M_Equations M_Registry M_Graph M_SymExpr M_Calculus M_Simplify M_Lambdify M_NumbaModel M_SympyTensor.
From Verif Require Import S_Layout S_Markers S_Expand S_Calculus S_Reduce S_Simplify S_Lambdify S_NumbaModel S_SympyTensor.
From Verif Require Import L_Utilities L_Layout L_Markers L_Unpacked L_Expand L_Reduce L_Simplify L_Simplify2 L_Calculus L_Calculus2 L_Lambdify L_NumbaStep L_Lambdify2 L_Graph L_NumbaModel L_Tensor2 L_Jacobian L_Reduce5 L_SympyTensor.
Local Open Scope string_scope.
Local Open Scope list_scope.

(** * Second derivatives of the loss *)
Section Hess.
Variables (nv names : list string) (eqs : list sexpr) (st : string -> R) (p : string -> list idx -> R).
Hypothesis (NV : nv <> []) (W : forall e, In e eqs -> closed_in names e) (SM : Forall (smooth st p) eqs).
Let grad := make_sympy_gradient (squared_loss eqs) nv.
Let HS := map (fun e => map (fun y => diff y e) nv) grad.
Let H := map (map (numval st p)) HS.

Lemma hs_is : make_sympy_jacobian (SysMatrix (map (fun g => [g]) grad)) nv = Ok HS.
Proof.
  assert (E : as_vector (SysMatrix (map (fun g => [g]) grad)) = as_vector (SysList grad)).
  { destruct grad as [|g [|g2 gs]]; [reflexivity|reflexivity|]. cbn. do 3 f_equal. clear. induction gs; cbn; congruence. }
  unfold make_sympy_jacobian. rewrite E. unfold HS, grad. destruct nv as [|y0 vs]; [tauto|]. reflexivity.
Qed.
Lemma lg : length grad = length nv. Proof. apply map_length. Qed.
Lemma grad_closed g : In g grad -> closed_in names g.
Proof. intros Hg. apply in_map_iff in Hg as (y & <- & _). apply closed_diff, closed_loss. exact W. Qed.
Lemma grad_smooth q g : Forall (smooth st q) eqs -> In g grad -> smooth st q g.
Proof. intros S Hg. apply in_map_iff in Hg as (y & <- & _). now apply smooth_diff, smooth_loss. Qed.
Lemma hs_rows row : In row HS -> length row = length nv.
Proof. intros Hr. apply in_map_iff in Hr as (g & <- & _). apply map_length. Qed.
Lemma hs_cells e : In e (List.concat HS) -> closed_in names e /\ smooth st p e.
Proof.
  intros He. apply in_concat in He as (row & Hr & He). apply in_map_iff in Hr as (g & <- & Hg). apply in_map_iff in He as (y & <- & _).
  split; [now apply closed_diff, grad_closed|]. apply smooth_diff. now apply grad_smooth.
Qed.
Lemma h_len : length H = length nv /\ forall j row, nth_error H j = Some row -> length row = length nv.
Proof.
  unfold H. rewrite map_length. unfold HS at 1. rewrite map_length, lg. split; [reflexivity|]. intros j row Hj. rewrite nth_error_map in Hj.
  destruct (nth_error HS j) as [r|] eqn:E; [|discriminate]. injection Hj as <-. rewrite map_length. apply hs_rows. eapply nth_error_In; eauto.
Qed.
Lemma h_nth j k : j < length nv -> k < length nv -> nth k (nth j H []) 0%R = val st p (nth k (nth j HS []) (SNum 0)).
Proof.
  intros Hj Hk. unfold H. change (@nil R) with (map (numval st p) []). rewrite map_nth. rewrite nth_indep with (d' := numval st p (SNum 0)).
  2:{ rewrite map_length, hs_rows; [auto|]. apply nth_In. unfold HS. now rewrite map_length, lg. }
  rewrite map_nth. apply numval_val. destruct (@hs_cells (nth k (nth j HS []) (SNum 0))); auto. apply in_concat. exists (nth j HS []).
  split; [apply nth_In; unfold HS; now rewrite map_length, lg|]. apply nth_In. rewrite hs_rows; [auto|]. apply nth_In. unfold HS. now rewrite map_length, lg.
Qed.
Lemma h_sym j k : j < length nv -> k < length nv -> nth k (nth j H []) 0%R = nth j (nth k H []) 0%R.
Proof.
  intros Hj Hk. rewrite !h_nth by auto. destruct (@c50_hessian__p eqs nv NV) as (H' & E & _ & _ & S). fold grad in E. rewrite hs_is in E. injection E as <-. now apply S.
Qed.
Lemma h_deriv j k g y : nth_error grad j = Some g -> nth_error nv k = Some y ->
  derivable_pt_lim (fun t => numval (set_sym st y t) p g) (st y) (nth k (nth j H []) 0%R).
Proof.
  intros Hg Hy. replace (nth k (nth j H []) 0%R) with (numval st p (diff y g)).
  - apply numval_deriv. apply grad_smooth; [exact SM|]. eapply nth_error_In; eauto.
  - symmetry. apply nth_error_nth. unfold H, HS. rewrite (nth_error_nth _ j [] (x := map (numval st p) (map (fun y => diff y g) nv))).
    + now rewrite !nth_error_map, Hy.
    + now rewrite !nth_error_map, Hg.
Qed.
Lemma h_dir ph dir : length dir = length nv -> (forall i, ph "hess_point" [IPos i] = nth i dir 0%R) ->
  map (numval st ph) (make_sympy_hessp grad nv) = map (fun row => rsum (map (fun kd => fst kd * snd kd)%R (combine row dir))) H.
Proof.
  intros Ld PH. assert (LH : length HS = length nv) by (unfold HS; now rewrite map_length, lg).
  assert (LP : length (make_sympy_hessp grad nv) = length nv) by apply map_length.
  apply nth_ext with (d := 0%R) (d' := 0%R); [unfold H; rewrite !map_length; lia|]. rewrite map_length, LP. intros j Hj.
  destruct (@c50_hessp__p eqs nv NV HS hs_is j Hj) as (e & Ee & Ve). fold grad in Ee.
  rewrite (nth_error_nth (map (numval st ph) (make_sympy_hessp grad nv)) j 0%R (x := numval st ph e)) by (rewrite nth_error_map, Ee; reflexivity).
  assert (Sph : Forall (smooth st ph) eqs) by (rewrite Forall_forall in *; intros q Hq; apply smooth_noix with (q := p); [now apply W|auto]).
  rewrite numval_val.
  2:{ unfold make_sympy_hessp, make_sympy_gradient in Ee. rewrite nth_error_map in Ee. destruct (nth_error nv j) as [z|]; [|discriminate]. injection Ee as <-.
      apply smooth_diff, smooth_sum. apply Forall_forall. intros t Ht. apply in_map_iff in Ht as (i & <- & Hi). apply in_seq in Hi. cbn [smooth hess_point]. split; [|exact I].
      apply grad_smooth; [exact Sph|]. apply nth_In. rewrite lg. lia. }
  rewrite Ve by exact Sph.
  unfold H. rewrite map_map. rewrite nth_indep with (d' := rsum (map (fun kd => fst kd * snd kd)%R (combine (map (numval st p) []) dir))) by (rewrite map_length; lia).
  rewrite (map_nth (fun row => rsum (map (fun kd => fst kd * snd kd)%R (combine (map (numval st p) row) dir))) HS [] j).
  f_equal. assert (IR : In (nth j HS []) HS) by (apply nth_In; lia). assert (Lr := hs_rows _ IR).
  assert (CR : forall e, In e (nth j HS []) -> indexed_exprs e = [] /\ smooth st p e).
  { intros q Hq. destruct (@hs_cells q) as ((_ & A & _) & B); auto. apply in_concat. eauto. }
  clear Ve Ee IR. generalize dependent (nth j HS []). intros row Lr CR. rewrite <- Lr in Ld |- *. clear -Ld CR PH.
  rewrite (map_ext_in _ (fun i => val st ph (nth i row (SNum 0)) * nth i dir 0)%R) by (intros i _; now rewrite PH). clear PH.
  revert dir Ld CR. induction row as [|a row IH]; intros [|d dir] Ld CR; try discriminate; [reflexivity|]. cbn [length seq map combine fst snd nth].
  destruct (CR a (or_introl eq_refl)) as (C1 & C2). rewrite (val_noix st _ p a) by exact C1. rewrite <- (@numval_val st p a) by exact C2. f_equal. rewrite <- seq_shift, map_map. cbn [nth].
  rewrite <- IH; [reflexivity|cbn in Ld; lia|intros; apply CR; simpl; auto].
Qed.
End Hess.

Lemma rows_ok {A} (g : sexpr -> res A) (f : sexpr -> A) rows : (forall e, In e (List.concat rows) -> g e = Ok (f e)) -> map_res (map_res g) rows = Ok (map (map f) rows).
Proof.
  induction rows as [|row rows IH]; cbn [List.concat]; intros H; [reflexivity|]. cbn [map_res map].
  rewrite (@map_res_ok_map _ _ g f row) by (intros e He; apply H, in_or_app; auto). cbn [bind]. rewrite IH by (intros e He; apply H, in_or_app; auto). reflexivity.
Qed.

Lemma flat_points vars d x pts : concat_named d vars = Ok x -> (forall o a, In o vars -> dget (o_name o) d = Some a -> arr_wf a) -> direction vars d pts ->
  length (List.concat (map (@adata R) pts)) = length x.
Proof.
  unfold concat_named. intros H Wf F. apply bind_ok in H as (parts & Ha & H).
  assert (E : length (List.concat (map (@adata R) pts)) = length (List.concat parts)).
  { apply map_res_ok_Forall2 in Ha. clear H x. revert parts Ha. induction F as [|o p vars pts Hp F IH]; intros parts Ha; inversion Ha; subst; [reflexivity|].
    cbn [map List.concat]. rewrite !app_length. f_equal; [|apply IH; auto; intros; eapply Wf; eauto; now right].
    destruct Hp as (W1 & a & Da & Sh). unfold dgetitem in H1. rewrite Da in H1. cbn [bind] in H1. injection H1 as <-. unfold ravel. rewrite W1, Sh. symmetry. apply (Wf o a); auto. now left. }
  rewrite E. destruct parts; [discriminate|]. now injection H as <-.
Qed.

Section Whole.
Variables (sub_into : sexpr -> list string -> bool) (set_order : list sexpr -> list sexpr) (dict_order : list (sexpr * sexpr) -> list (sexpr * sexpr)).
Variables (evaluates : sexpr -> sexpr -> bool) (order : list string -> list string).
Hypothesis (WS : walks_set set_order) (WD : walks_set dict_order).
Variables (c : dict (list string)) (axes : string -> list (list string)) (vars params : list mobj) (equations : list (sexpr * sexpr)).
Variables (uv up : list mobj) (d : dict (arr R)) (v : elements) (w : scalars) (x theta : list R).
Hypothesis (DC : declaration order c vars params uv up) (AR : arguments c vars params d v w x theta).
Let names := map make_indexed_name (uv ++ up).
Let nv := map make_indexed_name uv.
Let onames := map o_name (vars ++ params).
Let zero : string -> list idx -> R := fun _ _ => 0%R.
Hypothesis (VN : vars <> []) (QN : equations <> []).
Hypothesis EQ : forall lr, In lr equations -> flat_reductions c axes (written lr) /\ has_value c v w lr /\
  exists es, equation_symbols sub_into set_order dict_order evaluates c None (uv ++ up) (fst lr) (snd lr) = Ok es.
Hypothesis (OC : forall o, In o (vars ++ params) -> exists lr es, In lr equations /\
  equation_symbols sub_into set_order dict_order evaluates c None (uv ++ up) (fst lr) (snd lr) = Ok es /\ occurs_in c es o).
Hypothesis (HP : ~ In "hess_point" names).

Lemma given_keys d' v' w' x' theta' : arguments c vars params d' v' w' x' theta' -> forall k, In k (dkeys d') <-> In k onames.
Proof.
  intros (H1 & H2 & _) k. split; [apply H2|]. intros Hk. apply in_map_iff in Hk as (o & <- & Ho). destruct (H1 o Ho) as (_ & a & Ha & _). apply dget_Some_key. eauto.
Qed.

Lemma whole2 : exists f ess,
  compile_sympytensor_cge_functions sub_into set_order dict_order evaluates order c None vars params equations = Ok f /\
  Forall2 (fun lr es => equation_symbols sub_into set_order dict_order evaluates c None (uv ++ up) (fst lr) (snd lr) = Ok es) equations ess /\
  (forall e, In e (List.concat ess) -> closed_in names e) /\
  let eqs := List.concat ess in
  let grad := make_sympy_gradient (squared_loss eqs) nv in
  (forall d' v' w' x' theta', arguments c vars params d' v' w' x' theta' -> let st := state_of names (x' ++ theta') in
     sf_system f d' = Ok (map (numval st zero) eqs) /\
     sf_jac f d' = Ok (map (map (numval st zero)) (map (fun e => map (fun y => diff y e) nv) eqs)) /\
     sf_resid f d' = Ok (numval st zero (squared_loss eqs)) /\
     sf_grad f d' = Ok (map (numval st zero) grad) /\
     sf_hess f d' = Ok (map (map (numval st zero)) (map (fun e => map (fun y => diff y e) nv) grad)) /\
     forall pts, direction vars d' pts -> NoDup (onames ++ point_names vars) ->
       sf_hessp f (d' ++ combine (point_names vars) pts) =
         Ok (map (numval st (fun _ l => match l with [IPos i] => nth i (List.concat (map (@adata R) pts)) 0%R | _ => 0%R end)) (make_sympy_hessp grad nv))) /\
  (forall kw, (exists k, In k (dkeys kw) /\ ~ In k onames) \/ (exists n, In n onames /\ ~ In n (dkeys kw)) ->
     sf_system f kw = Err TypeError /\ sf_jac f kw = Err TypeError /\ sf_resid f kw = Err TypeError /\ sf_grad f kw = Err TypeError /\ sf_hess f kw = Err TypeError).
Proof.
  destruct (@compiled sub_into set_order dict_order evaluates order WS WD c axes vars params equations uv up d v w x theta DC AR VN QN EQ) as (ess & Fss & CL & CN & replace & PV & CO & _).
  cbn zeta in CO. fold names nv in CL, PV, CO. 
  assert (NO : NoDup onames) by apply DC.
  assert (OC' : forall o, In o (vars ++ params) -> occurs_in c (List.concat ess) o).
  { intros o Ho. destruct (OC o Ho) as (lr & es & Hl & E & e & ls & He & El & Hs). exists e, ls. split; [|auto]. apply in_concat. exists es. split; [|exact He].
    clear -Fss Hl E. induction Fss as [|a b l l' H F IH]; [easy|]. destruct Hl as [->|Hl]; [left; congruence|right; auto]. }
  eexists. exists ess. split; [now apply CO|]. split; [exact Fss|]. split; [exact CL|]. cbn zeta.
  set (eqs := List.concat ess) in *. set (grad := make_sympy_gradient (squared_loss eqs) nv) in *. set (ps := printed_symbols eqs) in *.
  assert (CP : forall e, In e eqs -> closed_in ps e).
  { intros e He. destruct (CL e He) as (A & B & _). split; [exact A|]. split; [exact B|]. intros s Hs. apply printed_In. eauto. }
  assert (CLo : closed_in ps (squared_loss eqs)) by (now apply closed_loss).
  assert (CG : forall g, In g grad -> closed_in ps g). { intros g Hg. apply in_map_iff in Hg as (y & <- & _). now apply closed_diff. }
  assert (CM : forall es, (forall e, In e es -> closed_in ps e) -> forall e, In e (List.concat (map (fun e => map (fun y => diff y e) nv) es)) -> closed_in ps e).
  { intros es Hes e He. apply in_concat in He as (row & Hr & He). apply in_map_iff in Hr as (g & <- & Hg). apply in_map_iff in He as (y & <- & _). apply closed_diff. auto. }
  cbn [sf_system sf_jac sf_resid sf_grad sf_hess sf_hessp]. unfold matrix_function. split.
  - intros d' v' w' x' theta' A. set (st := state_of names (x' ++ theta')). specialize (PV d' v' w' x' theta' A). fold st in PV.
    assert (GC : forall e, closed_in ps e -> graph_value d' replace [] e = Ok (numval st zero e)).
    { intros e Ce. apply (@graph_closed d' replace [] st zero ps e Ce). intros s Hs. apply PV. now apply Ce. }
    assert (K := given_keys A). rewrite !call_ok by (first [exact NO|exact K]).
    split; [apply map_res_ok_map; auto|]. split; [apply rows_ok; intros e He; apply GC; now apply (CM eqs)|]. split; [now apply GC|].
    split; [apply map_res_ok_map; auto|]. split; [apply rows_ok; intros e He; apply GC; now apply (CM grad)|].
    intros pts DI NP.
    assert (LP : length (point_names vars) = length pts). { unfold point_names. rewrite map_length. clear -DI. induction DI; cbn; congruence. }
    destruct (NoDup_app_inv _ _ NP) as (_ & NP2 & NP3).
    rewrite call_ok; [|exact NP|].
    2:{ intros k. unfold dkeys. rewrite map_app, map_fst_combine by exact LP. rewrite !in_app_iff. change (map fst d') with (dkeys d'). rewrite K. reflexivity. }
    assert (PT : point_vector vars (d' ++ combine (point_names vars) pts) = Ok (List.concat (map (@adata R) pts))).
    { unfold point_vector. assert (E : map_res (fun o => dgetitem (o_name o ++ "_point")%string (d' ++ combine (point_names vars) pts)) vars = Ok pts); [|rewrite E; reflexivity].
      assert (G : forall k o, nth_error vars k = Some o -> exists a, nth_error pts k = Some a /\ dgetitem (o_name o ++ "_point")%string (d' ++ combine (point_names vars) pts) = Ok a).
      { intros k o Hk. assert (Hn : nth_error (point_names vars) k = Some (o_name o ++ "_point")%string) by (unfold point_names; now rewrite nth_error_map, Hk).
        destruct (nth_error pts k) as [a|] eqn:Ea; [|apply nth_error_None in Ea; assert (k < length (point_names vars)) by (apply nth_error_Some; congruence); lia].
        exists a. split; [reflexivity|]. unfold dgetitem. rewrite dget_app. replace (dget (o_name o ++ "_point")%string d') with (@None (arr R)).
        - now rewrite (@dget_combine_nth _ (point_names vars) pts k _ a NP2 Hn Ea).
        - symmetry. apply dget_None. rewrite K. intros Hi. apply (NP3 _ Hi). eapply nth_error_In; eauto. }
      unfold point_names in LP. rewrite map_length in LP. clear -G LP. revert LP G. generalize (d' ++ combine (point_names vars) pts) as dd. intros dd.
      revert pts. induction vars as [|o vs IH]; intros [|a pts] LP G; try discriminate; [reflexivity|]. cbn [map_res].
      destruct (G 0 o eq_refl) as (a' & Ea & ->). injection Ea as <-. cbn [bind]. rewrite (IH pts); [reflexivity|cbn in LP; lia|].
      intros k o' Hk. exact (G (S k) o' Hk). }
    rewrite PT. cbn [bind]. apply map_res_ok_map. intros e He.
    destruct (@hessp_leaves ps grad nv e CG) as (L1 & L2 & L3); [apply map_length|exact He|].
    apply graph_numval; [exact L1| |].
    + intros s Hs. apply L2, PV in Hs. unfold packed_value in *. apply bind_ok in Hs as (p & -> & Hs). cbn [bind]. apply bind_ok in Hs as (a & Ha & Hs).
      unfold dgetitem in *. rewrite dget_app. destruct (dget (fst p) d'); [|discriminate]. injection Ha as ->. exact Hs.
    + intros b l Hb. destruct (L3 b l Hb) as (_ & i & -> & Hi). exists i. split; [reflexivity|]. apply nth_error_nth'.
      assert (FV : concat_named d' vars = Ok x'). { destruct A as (_ & _ & F & _). unfold variable_dict_to_flat_array in F. apply bind_ok in F as (xx & E & F). apply bind_ok in F as (pp & _ & F). injection F as <- _. exact E. }
      rewrite (@flat_points vars d' x' pts FV).
      * assert (L := proj1 (@lens order c vars params d' uv up x' theta' (proj1 A) (proj1 (proj2 (proj2 (proj2 DC)))) (proj1 (proj2 (proj2 (proj2 (proj2 DC))))) (proj1 (proj2 (proj2 (proj2 (proj2 (proj2 DC)))))) (proj1 (proj2 (proj2 A))))). rewrite L. exact Hi.
      * intros o a Ho Ha. destruct (proj1 A o) as (_ & a' & Ha' & Wf & _); [apply in_or_app; auto|]. rewrite Ha in Ha'. injection Ha' as <-. exact Wf.
      * exact DI.
  - intros kw H. assert (CE : forall (A : Type) (f : dict (arr R) -> res A), call onames f kw = Err TypeError).
    { intros A f. unfold call. destruct H as [(k & Hk & Nk)|(n & Hn & Nn)].
      - assert (forallb (fun k => Nat.eqb (count_occ string_dec onames k) 1) (dkeys kw) = false) as ->; [|reflexivity].
        apply not_true_is_false. intros T. rewrite forallb_forall in T. specialize (T k Hk). apply (count_occ_not_In string_dec) in Nk. rewrite Nk in T. discriminate.
      - assert (forallb (fun n => mem_str n (dkeys kw)) onames = false) as ->; [|now rewrite andb_false_r].
        apply not_true_is_false. intros T. rewrite forallb_forall in T. specialize (T n Hn). apply mem_str_In in T. tauto. }
    repeat split; apply CE.
Qed.
End Whole.

Lemma smooth_all si so do_ ev c equations all ess st :
  Forall2 (fun lr es => equation_symbols si so do_ ev c None all (fst lr) (snd lr) = Ok es) equations ess ->
  (forall lr es, In lr equations -> equation_symbols si so do_ ev c None all (fst lr) (snd lr) = Ok es -> Forall (smooth st (fun _ _ => 0%R)) es) ->
  Forall (smooth st (fun _ _ => 0%R)) (List.concat ess).
Proof.
  intros F SM. induction F as [|lr es eqs ess E F IH]; cbn [List.concat]; [constructor|]. apply Forall_app. split; [eapply SM; [now left|exact E]|].
  apply IH. intros lr' es' Hl. apply SM. now right.
Qed.

(** * The theorems *)
Lemma c85_system__p :
  forall sub_into set_order dict_order evaluates order, walks_set set_order -> walks_set dict_order ->
  forall c axes vars params equations uv up d v w x theta,
    declaration order c vars params uv up -> arguments c vars params d v w x theta -> vars <> [] -> equations <> [] ->
    (forall lr, In lr equations -> flat_reductions c axes (written lr) /\ has_value c v w lr /\
       exists es, equation_symbols sub_into set_order dict_order evaluates c None (uv ++ up) (fst lr) (snd lr) = Ok es) ->
    (forall o, In o (vars ++ params) -> exists lr es, In lr equations /\
       equation_symbols sub_into set_order dict_order evaluates c None (uv ++ up) (fst lr) (snd lr) = Ok es /\ occurs_in c es o) ->
    let names := map make_indexed_name (uv ++ up) in
    ~ In "hess_point"%string names ->
    exists f, compile_sympytensor_cge_functions sub_into set_order dict_order evaluates order c None vars params equations = Ok f /\
      (exists blocks, Forall2 (residuals c v w) equations blocks /\
        sf_system f d = Ok (List.concat blocks) /\
        sf_resid f d = Ok (/ 2 * rsum (map (fun r => r * r) (List.concat blocks)))%R) /\
      forall kw, (exists k, In k (dkeys kw) /\ ~ In k (map o_name (vars ++ params))) \/ (exists n, In n (map o_name (vars ++ params)) /\ ~ In n (dkeys kw)) ->
        sf_system f kw = Err TypeError /\ sf_jac f kw = Err TypeError /\ sf_resid f kw = Err TypeError /\ sf_grad f kw = Err TypeError /\ sf_hess f kw = Err TypeError.
Proof.
  intros si so do_ ev order WS WD c axes vars params equations uv up d v w x theta DC AR VN QN EQ OC names HP.
  destruct (@whole2 si so do_ ev order WS WD c axes vars params equations uv up d v w x theta DC AR VN QN EQ OC HP) as (f & ess & CF & Fss & CL & VAL & KW).
  cbn zeta in VAL. exists f. split; [exact CF|].
  destruct DC as (PL & NK & LD & EV & EP & ND & NO). assert (AR' := AR). destruct AR' as (HD & HK & FL & DA).
  assert (DE : forall o, In o (vars ++ params) -> declared c o) by (intros o Ho; apply (HD o Ho)).
  assert (EUs := @unpack_objects_app order vars params (lab_coords c) uv up EV EP).
  assert (BE : belongs c (vars ++ params) v w) by exact (@bel c vars params d v w DA).
  destruct (VAL d v w x theta AR) as (SY & JA & RE & GR & HE & HPV). fold names in SY, JA, RE, GR, HE, HPV.
  set (st := state_of names (x ++ theta)) in *. set (nv := map make_indexed_name uv) in *. set (zero := fun (_ : string) (_ : list idx) => 0%R) in *.
  assert (SV : scalar_view c (vars ++ params) v w (view names st)) by exact (@sview order c vars params d v w uv up x theta HD EV EP ND FL DA).
  split; [|exact KW].
  exists (map (map (numval st zero)) ess). split; [|split].
  - apply Forall2_map_r. revert Fss. apply Forall2_weak. intros lr es Hlr E. destruct (EQ lr Hlr) as (Q1 & Q2 & _).
    destruct (@eq_core si so do_ ev order WS WD c axes None (vars ++ params) (uv ++ up) PL NK DE EUs names zero lr es v w st Q1 E) as (dims & shape & D1 & D2 & D3 & _ & D5); auto; try exact I.
    apply residuals_numval with (dims := dims) (shape := shape); auto. apply D5; auto. exact I.
  - rewrite SY. now rewrite concat_map.
  - rewrite RE. rewrite numval_loss. rewrite <- concat_map, map_map. reflexivity.
Qed.

Lemma c85_jacobian__p :
  forall sub_into set_order dict_order evaluates order, walks_set set_order -> walks_set dict_order ->
  forall c axes vars params equations uv up d v w x theta,
    declaration order c vars params uv up -> arguments c vars params d v w x theta -> vars <> [] -> equations <> [] ->
    (forall lr, In lr equations -> flat_reductions c axes (written lr) /\ has_value c v w lr /\
       exists es, equation_symbols sub_into set_order dict_order evaluates c None (uv ++ up) (fst lr) (snd lr) = Ok es) ->
    (forall o, In o (vars ++ params) -> exists lr es, In lr equations /\
       equation_symbols sub_into set_order dict_order evaluates c None (uv ++ up) (fst lr) (snd lr) = Ok es /\ occurs_in c es o) ->
    let names := map make_indexed_name (uv ++ up) in
    ~ In "hess_point"%string names ->
    exists f, compile_sympytensor_cge_functions sub_into set_order dict_order evaluates order c None vars params equations = Ok f /\
      exists blocks, sf_jac f d = Ok (List.concat blocks) /\
        Forall2 (fun lr block => exists dims shape, equation_dims c (written lr) dims /\ dims_shape c dims shape /\ length block = prodn shape /\
          forall idx ls, labels_of c dims idx ls -> exists row, nth_error block (offset shape idx) = Some row /\ length row = length x /\
            forall j o a idx' ls', nth_error vars j = Some o -> dget (o_name o) d = Some a -> labels_of c (o_dims o) idx' ls' ->
              exists r dv, aget a idx' = Ok r /\ nth_error row (start_of d vars j + offset (ashape a) idx') = Some dv /\
                ((forall es e, equation_symbols sub_into set_order dict_order evaluates c None (uv ++ up) (fst lr) (snd lr) = Ok es ->
                    nth_error es (offset shape idx) = Some e -> smooth (state_of names (x ++ theta)) (fun _ _ => 0%R) e) ->
                 derivable_pt_lim (fun t => number (den c (put_elem o ls' t v) (put_scal o t w) (assign dims ls) (written lr))) r dv)) equations blocks.
Proof.
  intros si so do_ ev order WS WD c axes vars params equations uv up d v w x theta DC AR VN QN EQ OC names HP.
  destruct (@whole2 si so do_ ev order WS WD c axes vars params equations uv up d v w x theta DC AR VN QN EQ OC HP) as (f & ess & CF & Fss & CL & VAL & KW).
  cbn zeta in VAL. exists f. split; [exact CF|].
  destruct DC as (PL & NK & LD & EV & EP & ND & NO). assert (AR' := AR). destruct AR' as (HD & HK & FL & DA).
  assert (DE : forall o, In o (vars ++ params) -> declared c o) by (intros o Ho; apply (HD o Ho)).
  assert (EUs := @unpack_objects_app order vars params (lab_coords c) uv up EV EP).
  assert (BE : belongs c (vars ++ params) v w) by exact (@bel c vars params d v w DA).
  destruct (VAL d v w x theta AR) as (SY & JA & RE & GR & HE & HPV). fold names in SY, JA, RE, GR, HE, HPV.
  set (st := state_of names (x ++ theta)) in *. set (nv := map make_indexed_name uv) in *. set (zero := fun (_ : string) (_ : list idx) => 0%R) in *.
  assert (SV : scalar_view c (vars ++ params) v w (view names st)) by exact (@sview order c vars params d v w uv up x theta HD EV EP ND FL DA).
  set (P := fun e (row : list R) => length row = length nv /\ forall k y, nth_error nv k = Some y -> exists dv, nth_error row k = Some dv /\
     (smooth st zero e -> derivable_pt_lim (fun t => numval (set_sym st y t) zero e) (st y) dv)).
  destruct (@Forall2_blocks _ _ P ess (map (map (numval st zero)) (map (fun e => map (fun y => diff y e) nv) (List.concat ess)))) as (blocks & EB & FB).
  { rewrite map_map. apply Forall2_map_r. clear. induction (List.concat ess) as [|e l IH]; constructor; auto. split; [now rewrite !map_length|].
    intros k y Hk. exists (numval st zero (diff y e)). split; [now rewrite !nth_error_map, Hk|]. intros S. now apply numval_deriv. }
  exists blocks. split; [now rewrite JA, EB|].
  assert (M := Forall2_mix Fss FB). revert M. apply Forall2_weak. intros lr block Hlr (es & E & FP). destruct (EQ lr Hlr) as (Q1 & Q2 & _).
  destruct (@eq_core si so do_ ev order WS WD c axes None (vars ++ params) (uv ++ up) PL NK DE EUs names zero lr es v w st Q1 E) as (dims & shape & D1 & D2 & D3 & _ & D5); auto; try exact I.
  exists dims, shape. split; [exact D1|]. split; [exact D2|]. split; [rewrite <- (Forall2_len FP); exact D3|].
  intros idx ls L. destruct (D5 v w st) with (idx := idx) (ls := ls) as (e & E1 & _); auto; try exact I.
  destruct (@Forall2_nth _ _ P es block _ e FP E1) as (row & R1 & R2 & R3). exists row. split; [exact R1|].
  destruct (@lens order c vars params d uv up x theta HD EV EP ND FL) as (Lx & _). split; [rewrite R2, Lx; reflexivity|].
  intros j o a idx' ls' Hj Ha Hl.
  destruct (@var_at order c vars params d x theta uv up HD EV EP ND FL j o a idx' ls' Hj Ha Hl) as (r & A1 & A2 & A3).
  rewrite <- map_app in A3. fold names st in A3. fold nv in A2. destruct (R3 _ _ A2) as (dv & V1 & V2). exists r, dv. split; [exact A1|]. split; [exact V1|].
  intros SM. specialize (V2 (SM es e E E1)). rewrite A3 in V2. eapply derivable_pt_lim_ext'; [|exact V2]. intros t. cbn beta.
  destruct (D5 (put_elem o ls' t v) (put_scal o t w) (set_sym st (join "_" (o_name o :: ls')) t)) with (idx := idx) (ls := ls) as (e' & E1' & E2'); auto.
  - eapply put_belongs; eauto.
  - eapply put_view; eauto.
  - exact I.
  - eapply put_value; eauto.
  - rewrite E2'. rewrite E1 in E1'. injection E1' as <-. reflexivity.
Qed.

Lemma c85_gradient__p :
  forall sub_into set_order dict_order evaluates order, walks_set set_order -> walks_set dict_order ->
  forall c axes vars params equations uv up d v w x theta,
    declaration order c vars params uv up -> arguments c vars params d v w x theta -> vars <> [] -> equations <> [] ->
    (forall lr, In lr equations -> flat_reductions c axes (written lr) /\ has_value c v w lr /\
       exists es, equation_symbols sub_into set_order dict_order evaluates c None (uv ++ up) (fst lr) (snd lr) = Ok es) ->
    (forall o, In o (vars ++ params) -> exists lr es, In lr equations /\
       equation_symbols sub_into set_order dict_order evaluates c None (uv ++ up) (fst lr) (snd lr) = Ok es /\ occurs_in c es o) ->
    let names := map make_indexed_name (uv ++ up) in
    ~ In "hess_point"%string names ->
    exists f, compile_sympytensor_cge_functions sub_into set_order dict_order evaluates order c None vars params equations = Ok f /\
      exists G, sf_grad f d = Ok G /\ length G = length x /\
        forall j o a idx ls, nth_error vars j = Some o -> dget (o_name o) d = Some a -> labels_of c (o_dims o) idx ls ->
          exists r dv, aget a idx = Ok r /\ nth_error G (start_of d vars j + offset (ashape a) idx) = Some dv /\
            ((forall lr es, In lr equations -> equation_symbols sub_into set_order dict_order evaluates c None (uv ++ up) (fst lr) (snd lr) = Ok es ->
                Forall (smooth (state_of names (x ++ theta)) (fun _ _ => 0%R)) es) ->
             exists blocks, (forall t, Forall2 (residuals c (put_elem o ls t v) (put_scal o t w)) equations (blocks t)) /\
               derivable_pt_lim (fun t => / 2 * rsum (map (fun z => z * z) (List.concat (blocks t))))%R r dv).
Proof.
  intros si so do_ ev order WS WD c axes vars params equations uv up d v w x theta DC AR VN QN EQ OC names HP.
  destruct (@whole2 si so do_ ev order WS WD c axes vars params equations uv up d v w x theta DC AR VN QN EQ OC HP) as (f & ess & CF & Fss & CL & VAL & KW).
  cbn zeta in VAL. exists f. split; [exact CF|].
  destruct DC as (PL & NK & LD & EV & EP & ND & NO). assert (AR' := AR). destruct AR' as (HD & HK & FL & DA).
  assert (DE : forall o, In o (vars ++ params) -> declared c o) by (intros o Ho; apply (HD o Ho)).
  assert (EUs := @unpack_objects_app order vars params (lab_coords c) uv up EV EP).
  assert (BE : belongs c (vars ++ params) v w) by exact (@bel c vars params d v w DA).
  destruct (VAL d v w x theta AR) as (SY & JA & RE & GR & HE & HPV). fold names in SY, JA, RE, GR, HE, HPV.
  set (st := state_of names (x ++ theta)) in *. set (nv := map make_indexed_name uv) in *. set (zero := fun (_ : string) (_ : list idx) => 0%R) in *.
  assert (SV : scalar_view c (vars ++ params) v w (view names st)) by exact (@sview order c vars params d v w uv up x theta HD EV EP ND FL DA).
  eexists. split; [exact GR|]. destruct (@lens order c vars params d uv up x theta HD EV EP ND FL) as (Lx & _). unfold make_sympy_gradient. rewrite !map_length.
  split; [rewrite Lx; unfold nv; now rewrite map_length|].
  intros j o a idx ls Hj Ha Hl.
  destruct (@var_at order c vars params d x theta uv up HD EV EP ND FL j o a idx ls Hj Ha Hl) as (r & A1 & A2 & A3).
  rewrite <- map_app in A3. fold names st in A3. fold nv in A2. exists r, (numval st zero (diff (join "_" (o_name o :: ls)) (squared_loss (List.concat ess)))). split; [exact A1|].
  split; [now rewrite !nth_error_map, A2|].
  intros SM. exists (fun t => map (map (numval (set_sym st (join "_" (o_name o :: ls)) t) zero)) ess). split.
  - intros t. apply Forall2_map_r. revert Fss. apply Forall2_weak. intros lr es Hlr E. destruct (EQ lr Hlr) as (Q1 & Q2 & _).
    destruct (@eq_core si so do_ ev order WS WD c axes None (vars ++ params) (uv ++ up) PL NK DE EUs names zero lr es v w st Q1 E) as (dims & shape & D1 & D2 & D3 & _ & D5); auto; try exact I.
    apply residuals_numval with (dims := dims) (shape := shape); auto. apply D5.
    + eapply put_belongs; eauto.
    + eapply put_view; eauto.
    + exact I.
    + eapply put_value; eauto.
  - rewrite <- A3. eapply derivable_pt_lim_ext'; [|apply numval_deriv].
    + intros t. cbn beta. rewrite numval_loss. rewrite <- concat_map, map_map. reflexivity.
    + apply smooth_loss. apply (@smooth_all si so do_ ev c equations (uv ++ up) ess st Fss). exact SM.
Qed.

Lemma c85_hessian__p :
  forall sub_into set_order dict_order evaluates order, walks_set set_order -> walks_set dict_order ->
  forall c axes vars params equations uv up d v w x theta,
    declaration order c vars params uv up -> arguments c vars params d v w x theta -> vars <> [] -> equations <> [] ->
    (forall lr, In lr equations -> flat_reductions c axes (written lr) /\ has_value c v w lr /\
       exists es, equation_symbols sub_into set_order dict_order evaluates c None (uv ++ up) (fst lr) (snd lr) = Ok es) ->
    (forall o, In o (vars ++ params) -> exists lr es, In lr equations /\
       equation_symbols sub_into set_order dict_order evaluates c None (uv ++ up) (fst lr) (snd lr) = Ok es /\ occurs_in c es o) ->
    let names := map make_indexed_name (uv ++ up) in
    ~ In "hess_point"%string names ->
    exists f, compile_sympytensor_cge_functions sub_into set_order dict_order evaluates order c None vars params equations = Ok f /\
      ((forall lr es, In lr equations -> equation_symbols sub_into set_order dict_order evaluates c None (uv ++ up) (fst lr) (snd lr) = Ok es ->
          Forall (smooth (state_of names (x ++ theta)) (fun _ _ => 0%R)) es) ->
       exists H, sf_hess f d = Ok H /\ length H = length x /\ (forall i row, nth_error H i = Some row -> length row = length x) /\
         (forall i k, i < length x -> k < length x -> nth k (nth i H []) 0%R = nth i (nth k H []) 0%R) /\
         (forall j o a idx ls, nth_error vars j = Some o -> dget (o_name o) d = Some a -> labels_of c (o_dims o) idx ls ->
            forall dt, (forall t, exists x' theta', arguments c vars params (dt t) (put_elem o ls t v) (put_scal o t w) x' theta') ->
            exists r, aget a idx = Ok r /\ forall i, i < length x -> exists g, (forall t, exists G, sf_grad f (dt t) = Ok G /\ nth_error G i = Some (g t)) /\
              derivable_pt_lim g r (nth (start_of d vars j + offset (ashape a) idx) (nth i H []) 0%R)) /\
         (forall pts, direction vars d pts -> NoDup (map o_name (vars ++ params) ++ point_names vars) ->
            sf_hessp f (d ++ combine (point_names vars) pts) =
              Ok (map (fun row => rsum (map (fun kd => fst kd * snd kd)%R (combine row (List.concat (map (@adata R) pts))))) H))).
Proof.
  intros si so do_ ev order WS WD c axes vars params equations uv up d v w x theta DC AR VN QN EQ OC names HP.
  destruct (@whole2 si so do_ ev order WS WD c axes vars params equations uv up d v w x theta DC AR VN QN EQ OC HP) as (f & ess & CF & Fss & CL & VAL & KW).
  cbn zeta in VAL. exists f. split; [exact CF|].
  destruct DC as (PL & NK & LD & EV & EP & ND & NO). assert (AR' := AR). destruct AR' as (HD & HK & FL & DA).
  assert (DE : forall o, In o (vars ++ params) -> declared c o) by (intros o Ho; apply (HD o Ho)).
  assert (EUs := @unpack_objects_app order vars params (lab_coords c) uv up EV EP).
  assert (BE : belongs c (vars ++ params) v w) by exact (@bel c vars params d v w DA).
  destruct (VAL d v w x theta AR) as (SY & JA & RE & GR & HE & HPV). fold names in SY, JA, RE, GR, HE, HPV.
  set (st := state_of names (x ++ theta)) in *. set (nv := map make_indexed_name uv) in *. set (zero := fun (_ : string) (_ : list idx) => 0%R) in *.
  assert (SV : scalar_view c (vars ++ params) v w (view names st)) by exact (@sview order c vars params d v w uv up x theta HD EV EP ND FL DA).
  intros SM. apply (@smooth_all si so do_ ev c equations (uv ++ up) ess st Fss) in SM.
  assert (NV : nv <> []) by exact (@var_nonempty order c vars params d v w uv up x theta PL HD EV EP ND FL DA VN).
  destruct (@lens order c vars params d uv up x theta HD EV EP ND FL) as (Lx & _). fold nv in Lx.
  eexists. split; [exact HE|]. rewrite Lx.
  destruct (@h_len nv (List.concat ess) st zero) as (H1 & H2). split; [exact H1|]. split; [exact H2|].
  split; [intros i k Hi Hk; now apply (@h_sym nv names (List.concat ess) st zero NV CL SM)|]. split.
  - intros j o a idx ls Hj Ha Hl dt HDT.
    destruct (@var_at order c vars params d x theta uv up HD EV EP ND FL j o a idx ls Hj Ha Hl) as (r & A1 & A2 & A3).
    rewrite <- map_app in A3. fold names st in A3. fold nv in A2. exists r. split; [exact A1|]. intros i Hi. rewrite <- (@lg nv (List.concat ess)) in Hi.
    destruct (nth_error (make_sympy_gradient (squared_loss (List.concat ess)) nv) i) as [g|] eqn:Eg; [|apply nth_error_None in Eg; lia].
    exists (fun t => numval (set_sym st (join "_" (o_name o :: ls)) t) zero g). split.
    + intros t. destruct (HDT t) as (x' & theta' & At). destruct (VAL _ _ _ _ _ At) as (_ & _ & _ & GRt & _). eexists. split; [exact GRt|].
      rewrite nth_error_map, Eg. cbn [option_map]. f_equal. apply numval_agree; [|reflexivity]. intros s Hs.
      assert (Hn : In s names). { assert (CG := @grad_closed nv names (List.concat ess) CL g (nth_error_In _ _ Eg)). now apply CG. }
      destruct At as (HDt & _ & FLt & DAt).
      assert (SVt : scalar_view c (vars ++ params) (put_elem o ls t v) (put_scal o t w) (view names (state_of names (x' ++ theta')))) by exact (@sview order c vars params (dt t) _ _ uv up x' theta' HDt EV EP ND FLt DAt).
      assert (SVp : scalar_view c (vars ++ params) (put_elem o ls t v) (put_scal o t w) (view names (set_sym st (join "_" (o_name o :: ls)) t))) by exact (@put_view order c vars params d v w uv up x theta HD EV EP ND FL DA j o a idx ls Hj Ha Hl t).
      destruct (@parent order c vars params uv up d v w x theta (conj PL (conj NK (conj LD (conj EV (conj EP (conj ND NO)))))) AR s Hn) as (o' & ls' & _ & B1 & B2 & B3 & _).
      specialize (SVt o' ls' B1 B2). specialize (SVp o' ls' B1 B2). rewrite <- B3 in SVt, SVp. unfold view in SVt, SVp. rewrite (proj2 (mem_str_In _ _) Hn) in SVt, SVp. rewrite <- SVp in SVt. injection SVt as SVt. exact SVt.
    + rewrite <- A3. now apply (@h_deriv nv (List.concat ess) st zero SM).
  - intros pts DI NP. rewrite (HPV pts DI NP). f_equal. apply (@h_dir nv names (List.concat ess) st zero NV CL SM); [|reflexivity].
    assert (FV : concat_named d vars = Ok x). { unfold variable_dict_to_flat_array in FL. apply bind_ok in FL as (xx & E & F). apply bind_ok in F as (pp & _ & F). injection F as <- _. exact E. }
    rewrite (@flat_points vars d x pts FV); auto.
    intros o a Ho Ha. destruct (HD o) as (_ & a' & Ha' & Wf & _); [apply in_or_app; auto|]. rewrite Ha in Ha'. injection Ha' as <-. exact Wf.
Qed.

Lemma c85_unused__p :
  forall sub_into set_order dict_order evaluates order, walks_set set_order -> walks_set dict_order ->
  forall c axes vars params equations uv up d v w x theta,
    declaration order c vars params uv up -> arguments c vars params d v w x theta -> vars <> [] -> equations <> [] ->
    (forall lr, In lr equations -> flat_reductions c axes (written lr) /\ has_value c v w lr /\
       exists es, equation_symbols sub_into set_order dict_order evaluates c None (uv ++ up) (fst lr) (snd lr) = Ok es) ->
    (exists o, In o (vars ++ params) /\ forall lr es, In lr equations ->
       equation_symbols sub_into set_order dict_order evaluates c None (uv ++ up) (fst lr) (snd lr) = Ok es -> ~ occurs_in c es o) ->
    compile_sympytensor_cge_functions sub_into set_order dict_order evaluates order c None vars params equations = Err ValueError.
Proof.
  intros si so do_ ev order WS WD c axes vars params equations uv up d v w x theta DC AR VN QN EQ (o & Ho & NU).
  destruct (@compiled si so do_ ev order WS WD c axes vars params equations uv up d v w x theta DC AR VN QN EQ) as (ess & Fss & CL & CN & replace & PV & _ & CE).
  cbn zeta in CE. apply CE. exists o. split; [exact Ho|]. intros (e & ls & He & El & Hs). apply in_concat in He as (es & I1 & I2).
  assert (exists lr, In lr equations /\ equation_symbols si so do_ ev c None (uv ++ up) (fst lr) (snd lr) = Ok es) as (lr & I3 & I4).
  { clear -Fss I1. induction Fss as [|a b l l' H F IH]; [easy|]. destruct I1 as [<-|I1]; [exists a; split; [now left|exact H]|]. destruct (IH I1) as (lr & A & B). exists lr. split; [now right|exact B]. }
  apply (NU lr es I3 I4). exists e, ls. auto.
Qed.

(** With a numeraire the columns of the Jacobian are not the given elements *)
Lemma c85_numeraire_refuted__p :
  ~ (forall sub_into set_order dict_order evaluates order c n vars params equations d f J x theta,
       walks_set set_order -> walks_set dict_order -> In n vars ->
       compile_sympytensor_cge_functions sub_into set_order dict_order evaluates order c (Some n) vars params equations = Ok f ->
       variable_dict_to_flat_array d (packed_variables (Some n) vars) params = Ok (x, theta) -> sf_jac f d = Ok J ->
       forall row, In row J -> length row = length x).
Proof.
  intros H.
  pose (P := exobj KVar "P" ["i"]). pose (Y := exobj KVar "Y" []). pose (T := exobj KPar "T" []).
  pose (eqs := [(SIx "P" [IVar "i"], SBin OMul (SSym "T") (SSym "Y")); (SRed RSum (SIx "P" [IVar "i"]) [("i", (0, 1))], SSym "Y")]).
  assert (J : exists f r1 r2 r3 l,
    compile_sympytensor_cge_functions sympy_rule (uniq sexpr_eqb) (uniq pair_eqb) sexpr_eqb (fun l => l) [("i", ["food"; "steel"])] (Some Y) [P; Y] [T] eqs = Ok f /\
    sf_jac f [("P", mkArr [2] [2; 3]%R); ("T", mkArr [] [5]%R)] = Ok ([r1; r2; r3] :: l)) by (do 5 eexists; split; reflexivity).
  destruct J as (f & r1 & r2 & r3 & l & E & J).
  specialize (H sympy_rule (uniq sexpr_eqb) (uniq pair_eqb) sexpr_eqb (fun l => l) [("i", ["food"; "steel"])] Y [P; Y] [T] eqs [("P", mkArr [2] [2; 3]%R); ("T", mkArr [] [5]%R)] f _ [2; 3]%R [5]%R
    (@uniq_walks _ _ sexpr_eqb_eq) (@uniq_walks _ _ pair_eqb_eq) (or_intror (or_introl eq_refl)) E eq_refl J [r1; r2; r3] (or_introl eq_refl)). discriminate H.
Qed.
