(** Proofs for C93: minimize with the numba and pytensor backends. *)
From Coq Require Import Reals Lra.
From Verif Require Import L_Euler.
From Verif Require Import Py PyStr NdArray M_Primitives M_Utilities M_Wrappers M_Simulate M_SimResult M_Build M_PyExpr M_Expand M_SymExpr M_Calculus M_Simplify M_Lambdify M_NumbaModel M_Euler M_Tensor M_ArrayModel M_Solve.
From Verif Require Import S_Layout S_PyExpr S_Meaning S_Tensor S_Reduce S_Simplify S_NumbaModel S_Lambdify S_SympyTensor S_Solve S_Solved.
From Verif Require Import L_Utilities L_Wrappers L_SimResult L_Solve L_Tensor L_Tensor2 L_Tensor4 L_Solved L_Solved2.
Local Open Scope string_scope.
Local Open Scope list_scope.

Lemma c93_minimize_numba__p :
  forall sub_into set_order dict_order evals cse order, walks_set set_order -> walks_set dict_order -> eliminates cse ->
  forall c axes vars params equations uv up f,
    declaration order c vars params uv up -> vars <> [] -> params <> [] -> equations <> [] ->
    (forall o, In o (vars ++ params) -> S_Simplify.declared c o /\ ~ In "step"%string (o_dims o)) ->
    (forall n, In n (map make_indexed_name (uv ++ up)) -> is_name n = true /\ ~ In n reserved) ->
    (forall lr, In lr equations -> flat_reductions c axes (written lr) /\
       exists es, equation_symbols sub_into set_order dict_order evals c None (uv ++ up) (fst lr) (snd lr) = Ok es) ->
    no_point vars params ->
    compile_numba_cge_functions sub_into set_order dict_order evals cse order c None vars params equations = Ok f ->
  forall (Sys Jac Hess Hessp : Type) isnan vadd vmul table root f_euler (m : model R Sys Jac outval outval Hess Hessp) hess hessp requested
         initial fv fd fp o x0 th0 theta start use_jac use_hess use_hessp,
    (* the compiled model *)
    m_coords m = lab_coords c -> m_variables m = vars -> m_parameters m = params -> m_backend m = "numba"%string -> m_mode m = recorded_mode requested ->
    in_compiled "minimize"%string (m_compiled m) = true ->
    m_resid m = Pos (nf_resid f) -> m_grad m = Pos (nf_grad f) -> m_hess m = Pos hess -> m_hessp m = Pos3 hessp ->
    (* the call *)
    prepared isnan vadd vmul f_euler m initial fv fd fp o x0 th0 theta start -> optimizer_mode o = "minimize"%string ->
    simulate_minimize_passes table (kw_jac o) (kw_hess o) (kw_hessp o) (kw_method o) = Ok (use_jac, use_hess, use_hessp) ->
  exists P eu, mp_x0 P = start /\ mp_theta P = theta /\ gives_residuals c vars params equations (fun r => OScalar (half_squares r)) (mp_f P) /\
    (forall x th, sized (lab_coords c) vars x -> sized (lab_coords c) params th -> call_flat (mp_f P) x th = nf_resid f x th) /\
    (if use_jac then exists j, mp_jac P = Some j /\ forall x th, sized (lab_coords c) vars x -> sized (lab_coords c) params th -> call_flat j x th = nf_grad f x th
     else mp_jac P = None) /\
    (if use_hess then exists j, mp_hess P = Some j /\ forall x th, sized (lab_coords c) vars x -> sized (lab_coords c) params th -> call_flat j x th = hess x th
     else mp_hess P = None) /\
    (if use_hessp then exists j, mp_hessp P = Some j /\ forall x p th, sized (lab_coords c) vars x -> sized (lab_coords c) vars p -> sized (lab_coords c) params th ->
         call_flat3 j x p th = hessp x p th
     else mp_hessp P = None) /\
    forall minimize ans, minimize P = Ok ans -> sized (lab_coords c) vars (a_x ans) ->
      exists ds_v ds_p, simulate isnan vadd vmul table root minimize f_euler m (SDict initial) fv fd fp o = Ok (MkOutcome eu (Some (ds_v, ds_p)) (negb (a_success ans))) /\
        result_means c vars params equations (fun r => OScalar (half_squares r)) (mp_f P) ds_v ds_p (a_x ans) theta.
Proof.
  intros sub_into set_order dict_order evals cse order Ws Wd Wc c axes vars params equations uv up f De Nv Np Ne Do Nm Eq Hpt Ef Sys Jac Hess Hessp isnan vadd vmul table root f_euler m hess hessp
    requested initial fv fd fp o x0 th0 theta start use_jac use_hess use_hessp Mc Mv Mp Mb Mm Mr Ms Mg Mh Mq Pr Om Fl.
  pose proof (declaration_declared De Nv Np Do) as D.
  destruct (@numba_residuals sub_into set_order dict_order evals cse order c axes vars params equations uv up f Ws Wd Wc De Nv Ne Nm Eq Ef) as (_ & Rs).
  assert (Es : evaluates (lab_coords c) vars params (m_resid m) (nf_resid f)) by (rewrite Ms; intros x th _ _; reflexivity).
  assert (Eg : evaluates (lab_coords c) vars params (m_grad m) (nf_grad f)) by (rewrite Mg; intros x th _ _; reflexivity).
  assert (Eh : evaluates (lab_coords c) vars params (m_hess m) hess) by (rewrite Mh; intros x th _ _; reflexivity).
  assert (Eq3 : evaluates3 (lab_coords c) vars params (m_hessp m) hessp) by (rewrite Mq; intros x p th _ _ _; reflexivity).
  assert (Bs : made_by (m_backend m) (m_resid m)) by (now rewrite Ms). assert (Bg : made_by (m_backend m) (m_grad m)) by (now rewrite Mg).
  assert (Bh : made_by (m_backend m) (m_hess m)) by (now rewrite Mh). assert (Bq : made_by3 (m_backend m) (m_hessp m)) by (now rewrite Mq).
  exact (@solved_minimize c vars params equations Sys Jac _ _ _ _ (fun r => OScalar (half_squares r)) isnan vadd vmul table root f_euler m requested initial fv fd fp o x0 th0 theta start use_jac use_hess use_hessp _ _ _ _
    D (fun o Ho => proj1 (Do o Ho)) (proj1 (proj2 (proj2 De))) Mc Mv Mp Pr Om Mm Mr Fl Bs Es Bg (fun _ => Eg) Bh (fun _ => Eh) Bq (fun _ => conj Eq3 Hpt) Rs).
Qed.

(** ** pytensor *)
Lemma wrapped_evaluates {V W} (g : list V -> list V -> res W) c vars params : S_Solve.declared c vars params ->
  evaluates c vars params (Kw (wrap_scipy_func_for_pytensor g vars params)) g.
Proof.
  intros (Nv & Np & _) d x th (A & B & _). unfold wrap_scipy_func_for_pytensor, variable_dict_to_flat_array.
  rewrite (holds_flat Nv A), (holds_flat Np B). reflexivity.
Qed.

Lemma wrapped_evaluates3 {V W} (g : list V -> list V -> list V -> res W) c vars params : S_Solve.declared c vars params -> no_point vars params ->
  evaluates3 c vars params (Kw3 (wrap_scipy_func_for_pytensor_hessp g vars params)) g.
Proof.
  intros (Nv & Np & Nd & _) Pt d x p th A B C K. unfold wrap_scipy_func_for_pytensor_hessp. destruct C as (as_ & F & ->).
  assert (Hnv : NoDup (map o_name vars)) by (rewrite map_app in Nd; apply NoDup_app_inv in Nd; tauto).
  destruct (@pop_all_ok V (map (fun o => point_name (o_name o)) vars) as_ d) as (rest & E2 & Hr).
  { rewrite <- map_map. apply NoDup_map_inj; auto. apply point_name_inj. }
  { clear - F. induction F as [|o a os as_ (E & _) F IH]; [constructor|]. cbn [map]. constructor; [exact E|exact IH]. }
  rewrite E2. cbn [bind fst snd].
  assert (Ne : map (@adata V) as_ <> []) by (destruct F; [congruence|discriminate]).
  replace (match map (@adata V) as_ with [] => Err ValueError | ps => Ok (List.concat ps) end) with (Ok (List.concat (map (@adata V) as_))) by (destruct (map (@adata V) as_); [congruence|reflexivity]).
  cbn [bind].
  assert (T : forall objs y, (forall o, In o objs -> In o (vars ++ params)) -> S_Solve.holds c o_name d objs y -> S_Solve.holds c o_name rest objs y).
  { intros objs y Sub (bs & Fb & ->). exists bs. split; [|reflexivity]. clear - Fb Hr Sub Pt. induction Fb as [|o a os bs (E & Ft) Fb IH]; [constructor|]. constructor.
    - split; [|exact Ft]. rewrite Hr; [exact E|]. intros I. apply in_map_iff in I as (v & Ev & Iv). apply (Pt o v); [apply Sub; now left|exact Iv|]. symmetry. exact Ev.
    - apply IH. intros o' Ho. apply Sub. now right. }
  unfold variable_dict_to_flat_array. rewrite (holds_flat Nv (T vars x (fun o Ho => in_or_app _ _ _ (or_introl Ho)) A)), (holds_flat Np (T params th (fun o Ho => in_or_app _ _ _ (or_intror Ho)) B)).
  reflexivity.
Qed.

Lemma holds_ragged c (d : dict (arr R)) objs x : S_Solve.holds c o_name d objs x ->
  exists shapes arrays, map_res (object_shape c) objs = Ok shapes /\ ragged x 0 shapes = Ok arrays /\ Forall2 (fun o a => dget (o_name o) d = Some a) objs arrays.
Proof.
  intros (as_ & F & ->). exists (map (@ashape R) as_), as_.
  assert (Sh : Forall2 (has_shape c) objs (map (@ashape R) as_)) by (clear - F; induction F as [|o a os as_ (_ & _ & S) F IH]; constructor; auto).
  split; [clear - Sh; induction Sh as [|o s os ss H Sh IH]; [reflexivity|]; cbn [map_res]; rewrite (proj1 (object_shape_ok H)), IH; reflexivity|]. split.
  - rewrite ragged_chop0. 2:{ clear - F. induction F as [|o a os as_ (_ & W & _) F IH]; [reflexivity|]. cbn [map List.concat]. unfold total in *. cbn [map list_sum fold_right]. rewrite app_length, IH. f_equal. exact W. }
    f_equal. clear - F. induction F as [|o a os as_ (_ & W & _) F IH]; [reflexivity|]. cbn [map List.concat chop]. unfold arr_wf in W.
    rewrite firstn_app, W, Nat.sub_diag, firstn_O, app_nil_r. 
    rewrite <- W at 1. rewrite firstn_all. rewrite skipn_app, W, Nat.sub_diag. cbn [skipn]. rewrite <- W at 1. rewrite skipn_all. cbn [app]. rewrite IH. destruct a; reflexivity.
  - clear - F. induction F as [|o a os as_ (E & _) F IH]; constructor; auto.
Qed.

Lemma sys_state number_op c vars params equations names (d : dict (arr R)) x th : S_Solve.declared c vars params -> state_is c vars params d x th ->
  f_sys_wrapped number_op c vars params equations names x th = pytensor_system number_op c (vars ++ params) equations names d.
Proof.
  intros (_ & _ & Nd & _) (A & B & _). unfold f_sys_wrapped.
  destruct (holds_ragged A) as (sv & av & Ev & Rv & Fv). destruct (holds_ragged B) as (sp & ap & Ep & Rp & Fp). rewrite Ev, Ep. cbn [bind]. rewrite Rv, Rp. cbn [bind].
  unfold f_system, pytensor_system. replace (tensor_inputs c (vars ++ params) (combine (map o_name (vars ++ params)) (av ++ ap))) with (tensor_inputs c (vars ++ params) d); [reflexivity|].
  pose proof (Forall2_app Fv Fp) as F. clear - F Nd. revert F Nd. generalize (vars ++ params) (av ++ ap). intros objs as_ F Nd. unfold tensor_inputs.
  assert (G : forall o, In o objs -> dget (o_name o) d = dget (o_name o) (combine (map o_name objs) as_)).
  { clear - F Nd. induction F as [|o a os as_ E F IH]; intros q Hq; [destruct Hq|]. cbn [map] in Nd. inversion Nd as [|? ? Ni Nd']; subst. cbn [map combine dget]. destruct Hq as [->|Hq].
    - now rewrite String.eqb_refl.
    - assert (Ne : o_name q <> o_name o) by (intros E'; apply Ni; rewrite <- E'; now apply in_map). apply String.eqb_neq in Ne. rewrite Ne. now apply IH. }
  clear F Nd. revert G. generalize (combine (map o_name objs) as_). intros e G. induction objs as [|o objs IH]; [reflexivity|]. cbn [map_res].
  unfold dgetitem at 1 3. rewrite (G o (or_introl eq_refl)). rewrite IH by (intros q Hq; apply G; now right). reflexivity.
Qed.

Lemma c93_minimize_pytensor__p :
  forall number_op partial c vars params equations names dims, real_arithmetic number_op -> S_Solve.declared c vars params ->
    Forall2 (shared_notation (vars ++ params)) equations dims ->
    length names = list_sum (map (fun ds => prodn (map (size c) ds)) dims) -> no_point vars params ->
  let f := compile_pytensor_cge_functions number_op partial c vars params equations names in
  forall (Sys Jac : Type) isnan vadd vmul table root f_euler (m : model R Sys Jac R (arr R) (arr R) (list R)) requested
         initial fv fd fp o x0 th0 theta start use_jac use_hess use_hessp,
    (* the compiled model *)
    m_coords m = c -> m_variables m = vars -> m_parameters m = params -> m_backend m = "pytensor"%string -> m_mode m = recorded_mode requested ->
    in_compiled "minimize"%string (m_compiled m) = true ->
    m_resid m = Kw (pf_resid f) -> m_grad m = Kw (pf_grad f) -> m_hess m = Kw (pf_hess f) -> m_hessp m = Kw3 (pf_hessp f) ->
    (* the call *)
    prepared isnan vadd vmul f_euler m initial fv fd fp o x0 th0 theta start -> optimizer_mode o = "minimize"%string ->
    simulate_minimize_passes table (kw_jac o) (kw_hess o) (kw_hessp o) (kw_method o) = Ok (use_jac, use_hess, use_hessp) ->
  exists P eu, mp_x0 P = start /\ mp_theta P = theta /\
    (forall d x th, state_is c vars params d x th ->
       call_flat (mp_f P) x th = let* y := pytensor_system number_op c (vars ++ params) equations names d in Ok (half_squares y)) /\
    (if use_jac then exists j, mp_jac P = Some j /\ forall d x th, state_is c vars params d x th -> call_flat j x th = pf_grad f d else mp_jac P = None) /\
    (if use_hess then exists j, mp_hess P = Some j /\ forall d x th, state_is c vars params d x th -> call_flat j x th = pf_hess f d else mp_hess P = None) /\
    (if use_hessp then exists j, mp_hessp P = Some j /\ forall d x p th, S_Solve.holds c o_name d vars x -> S_Solve.holds c o_name d params th ->
         S_Solve.holds c (fun o => o_name o ++ "_point")%string d vars p ->
         (forall k, In k (dkeys d) <-> In k (map o_name (vars ++ params) ++ map (fun o => o_name o ++ "_point")%string vars)) -> call_flat3 j x p th = pf_hessp f d
     else mp_hessp P = None) /\
    forall minimize ans, minimize P = Ok ans -> sized c vars (a_x ans) ->
      exists ds_v ds_p, simulate isnan vadd vmul table root minimize f_euler m (SDict initial) fv fd fp o = Ok (MkOutcome eu (Some (ds_v, ds_p)) (negb (a_success ans))) /\
        let rho := returned_values vars params ds_v ds_p 1 in
        (Forall2 (fun s ds => defined_on c ds (fun ix => meaning rho ix (normalize_eq s))) equations dims ->
         exists l, call_flat (mp_f P) (a_x ans) theta = Ok l /\
           (l = 0%R <-> Forall2 (fun s ds => forall ix, (forall d, In d ds -> ix d < size c d) -> S_Meaning.holds rho ix s) equations dims)).
Proof.
  intros number_op partial c vars params equations names dims Ra D Sn Ln Hpt f Sys Jac isnan vadd vmul table root f_euler m requested initial fv fd fp o x0 th0 theta start use_jac use_hess use_hessp
    Mc Mv Mp Mb Mm Mr Ms Mg Mh Mq (St & (final & xf & Ef & Hxf & Hth) & Uo & Sf) Om Fl. subst c vars params.
  set (c := m_coords m) in *. set (vars := m_variables m) in *. set (params := m_parameters m) in *.
  set (loss := f_loss_wrapped number_op c vars params equations names). set (grad := pytensor_gradient number_op partial c vars params equations names).
  set (hess := pytensor_jacobian partial c vars (gradient_vector number_op partial c vars params equations names)).
  set (hessp := pytensor_hessp number_op partial c vars params equations names).
  assert (Es : evaluates c vars params (m_resid m) loss) by (rewrite Ms; now apply wrapped_evaluates).
  assert (Eg : evaluates c vars params (m_grad m) grad) by (rewrite Mg; now apply wrapped_evaluates).
  assert (Eh : evaluates c vars params (m_hess m) hess) by (rewrite Mh; now apply wrapped_evaluates).
  assert (Eq3 : evaluates3 c vars params (m_hessp m) hessp) by (rewrite Mq; now apply wrapped_evaluates3).
  assert (Bs : made_by (m_backend m) (m_resid m)) by (rewrite Ms; now left). assert (Bg : made_by (m_backend m) (m_grad m)) by (rewrite Mg; now left).
  assert (Bh : made_by (m_backend m) (m_hess m)) by (rewrite Mh; now left). assert (Bq : made_by3 (m_backend m) (m_hessp m)) by (rewrite Mq; now left).
  destruct (@c92_minimize__p R Sys Jac _ _ _ _ isnan vadd vmul table root f_euler m requested initial final x0 th0 xf theta start fv fd fp o use_jac use_hess use_hessp loss grad hess hessp
    D St Ef Hxf Hth Uo Om Sf Mm Mr Fl Bs Es Bg (fun _ => Eg) Bh (fun _ => Eh) Bq (fun _ => conj Eq3 Hpt)) as (P & eu & E1 & E2 & Ss & Sj & Sh & Sp & _ & Rt).
  exists P, eu. split; [exact E1|]. split; [exact E2|].
  assert (On : forall d x th, state_is c vars params d x th -> call_flat (mp_f P) x th = let* y := pytensor_system number_op c (vars ++ params) equations names d in Ok (half_squares y)).
  { intros d x th S. pose proof S as (A & B & _). rewrite Ss by (eapply holds_sized; eauto). unfold loss, f_loss_wrapped. now rewrite (sys_state number_op equations names D S). }
  split; [exact On|].
  assert (Wr : forall (W : Type) (g : list R -> list R -> res W) j, solver_sees c vars params j g ->
    forall d x th, state_is c vars params d x th -> call_flat j x th = wrap_scipy_func_for_pytensor g vars params d).
  { intros W g j Sg d x th S. pose proof S as (A & B & _). rewrite Sg by (eapply holds_sized; eauto). symmetry. exact (@wrapped_evaluates R W g c vars params D d x th S). }
  split; [destruct use_jac; [destruct Sj as (j & Ej & Sj); exists j; split; [exact Ej|exact (Wr _ _ _ Sj)]|exact Sj]|].
  split; [destruct use_hess; [destruct Sh as (j & Ej & Sh); exists j; split; [exact Ej|exact (Wr _ _ _ Sh)]|exact Sh]|].
  split.
  { destruct use_hessp; [|exact Sp]. destruct Sp as (j & Ej & Sp). exists j. split; [exact Ej|]. intros d x p th A B C K.
    rewrite Sp by (eapply holds_sized; eauto). symmetry. exact (@wrapped_evaluates3 R _ hessp c vars params D Hpt d x p th A B C K). }
  intros minimize ans Er Sz. destruct (proj2 (Rt minimize) ans Er Sz) as (ds_v & ds_p & Esim & _ & _ & V1 & P1). exists ds_v, ds_p. split; [exact Esim|].
  intros rho Df. destruct (final_state D V1 P1) as (Sd & _). set (d := dupdate (state_at ds_v 1) (state_at ds_p 1)) in *.
  pose proof (state_values D V1 P1) as Ev. fold d in Ev. change (array_values (vars ++ params) d = rho) in Ev.
  destruct (@c82_solutions__p number_op c (vars ++ params) d equations names dims Ra (state_given D Sd)) as (r & Er' & Z); [|exact Ln|].
  { rewrite Ev. clear - Sn Df. induction Sn; inversion Df; subst; constructor; auto. }
  rewrite Ev in Z. exists (half_squares r). split; [rewrite (On d _ _ Sd), Er'; reflexivity|]. rewrite <- Z. apply c93_loss__p.
Qed.
