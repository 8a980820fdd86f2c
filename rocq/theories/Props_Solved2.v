(** C93: minimize with the numba and pytensor backends. *)
From Coq Require Import Reals Lra.
From Verif Require Import Py PyStr NdArray M_Primitives M_Utilities M_Wrappers M_Simulate M_SimResult M_Build M_PyExpr M_Expand M_SymExpr M_Calculus M_Simplify M_Lambdify M_NumbaModel M_Tensor M_ArrayModel M_Solve.
From Verif Require Import S_Layout S_PyExpr S_Meaning S_Calculus S_Reduce S_Simplify S_Lambdify S_NumbaModel S_SympyTensor S_Tensor S_Solve S_Solved.
From Verif Require Import L_PyExpr L_Reduce L_Reduce5 L_Lambdify L_Lambdify2 L_Solve L_Tensor L_Production6 L_Solved L_Solved2 L_Solved3 Props_NumbaModel Props_SympyTensor Props_Solved.
Local Open Scope string_scope.
Local Open Scope list_scope.

Theorem c93_minimize_numba :
  forall sub_into set_order dict_order evals cse order, walks_set set_order -> walks_set dict_order -> eliminates cse ->
  forall c axes vars params equations uv up f,
    declaration order c vars params uv up -> vars <> [] -> params <> [] -> equations <> [] ->
    (forall o, In o (vars ++ params) -> S_Simplify.declared c o /\ ~ In "step"%string (o_dims o)) ->
    (forall n, In n (map make_indexed_name (uv ++ up)) -> is_name n = true /\ ~ In n reserved) ->
    (forall lr, In lr equations -> flat_reductions c axes (written lr) /\
       exists es, equation_symbols sub_into set_order dict_order evals c None (uv ++ up) (fst lr) (snd lr) = Ok es) ->
    no_point vars params ->
    compile_numba_cge_functions sub_into set_order dict_order evals cse order c None vars params equations = Ok f ->
  forall (Sys Jac Hess Hessp : Type) isnan vadd vmul table root f_euler (m : model R Sys Jac outval outval Hess Hessp) hess hessp requested
         initial fv fd fp o x0 th0 theta start use_jac use_hess use_hessp,
    (* the compiled model *)
    m_coords m = lab_coords c -> m_variables m = vars -> m_parameters m = params -> m_backend m = "numba"%string -> m_mode m = recorded_mode requested ->
    in_compiled "minimize"%string (m_compiled m) = true ->
    m_resid m = Pos (nf_resid f) -> m_grad m = Pos (nf_grad f) -> m_hess m = Pos hess -> m_hessp m = Pos3 hessp ->
    (* the call *)
    prepared isnan vadd vmul f_euler m initial fv fd fp o x0 th0 theta start -> optimizer_mode o = "minimize"%string ->
    simulate_minimize_passes table (kw_jac o) (kw_hess o) (kw_hessp o) (kw_method o) = Ok (use_jac, use_hess, use_hessp) ->
  exists P eu, mp_x0 P = start /\ mp_theta P = theta /\ gives_residuals c vars params equations (fun r => OScalar (half_squares r)) (mp_f P) /\
    (forall x th, sized (lab_coords c) vars x -> sized (lab_coords c) params th -> call_flat (mp_f P) x th = nf_resid f x th) /\
    (if use_jac then exists j, mp_jac P = Some j /\ forall x th, sized (lab_coords c) vars x -> sized (lab_coords c) params th -> call_flat j x th = nf_grad f x th
     else mp_jac P = None) /\
    (if use_hess then exists j, mp_hess P = Some j /\ forall x th, sized (lab_coords c) vars x -> sized (lab_coords c) params th -> call_flat j x th = hess x th
     else mp_hess P = None) /\
    (if use_hessp then exists j, mp_hessp P = Some j /\ forall x p th, sized (lab_coords c) vars x -> sized (lab_coords c) vars p -> sized (lab_coords c) params th ->
         call_flat3 j x p th = hessp x p th
     else mp_hessp P = None) /\
    forall minimize ans, minimize P = Ok ans -> sized (lab_coords c) vars (a_x ans) ->
      exists ds_v ds_p, simulate isnan vadd vmul table root minimize f_euler m (SDict initial) fv fd fp o = Ok (MkOutcome eu (Some (ds_v, ds_p)) (negb (a_success ans))) /\
        result_means c vars params equations (fun r => OScalar (half_squares r)) (mp_f P) ds_v ds_p (a_x ans) theta.
Proof. exact @c93_minimize_numba__p. Qed.
Print Assumptions c93_minimize_numba.
(** The model of c93_numba_ex; the Hessian and its product are not asked for by
    name, so any functions will do. *)
Example so_numba_loss : exists f l, em_compile = Ok f /\ nf_resid f [1; 1; 2]%R [/ 2]%R = Ok (OScalar l) /\ l = 0%R.
Proof. do 2 eexists. split; [reflexivity|]. split; [reflexivity|]. lists. Qed.
Example c93_minimize_numba_ex : exists f, em_compile = Ok f /\
  let m := MkModel (lab_coords em_c) em_vars em_params "numba" (recorded_mode ModeNone) (Some [FStr "minimize"]) (NoFn (W := outval)) (NoFn (W := outval)) (Pos (nf_resid f)) (Pos (nf_grad f))
             (Pos (fun _ _ => Ok (OMat []))) (Pos3 (fun _ _ _ => Ok (OVec []))) in
  exists v w,
  simulate so_nan so_plus so_plus so_table (fun _ => Err ValueError) (fun _ => Ok so_answer) so_euler m (SDict em_d) so_scenario None None (so_options "minimize")
    = Ok (MkOutcome None (Some (so_v, so_p)) false) /\
  returned em_c em_vars em_params so_v so_p 1 v w /\ forall lr, In lr em_eqs -> satisfied em_c v w lr.
Proof.
  destruct so_numba_loss as (f & l0 & Ef & El & Z0). exists f. split; [exact Ef|]. intros m. destruct st_equations as (Nv & Ne & _ & Oc & Hp). destruct em_data as (_ & _ & _ & _ & Nm & _).
  assert (Np : no_point em_vars em_params).
  { intros o q [<-|[<-|[<-|[]]]] [<-|[<-|[]]]; discriminate. }
  destruct (@c93_minimize_numba sympy_rule (uniq sexpr_eqb) (uniq pair_eqb) sexpr_eqb first_cse (fun l => l) (proj1 em_contract) (proj1 (proj2 em_contract)) (proj2 (proj2 em_contract)) em_c (fun _ => [["food"; "steel"]])
    em_vars em_params em_eqs em_uv em_up f st_declaration Nv ltac:(discriminate) Ne so_objects Nm so_equations Np Ef
    outval outval outval outval so_nan so_plus so_plus so_table (fun _ => Err ValueError) so_euler m (fun _ _ => Ok (OMat [])) (fun _ _ _ => Ok (OVec [])) ModeNone
    em_d so_scenario None None (so_options "minimize") [2; 3; 4]%R [5]%R [/ 2]%R [2; 3; 4]%R true false true
    eq_refl eq_refl eq_refl eq_refl eq_refl eq_refl eq_refl eq_refl eq_refl eq_refl (so_prepared m "minimize" eq_refl eq_refl eq_refl) eq_refl eq_refl) as (P & eu & _ & _ & _ & Fl & _ & _ & _ & Rt).
  destruct (Rt (fun _ => Ok so_answer) so_answer eq_refl so_sized) as (ds_v & ds_p & E & (v & w & Re & M)).
  assert (E' : Ok (MkOutcome None (Some (so_v, so_p)) false) = Ok (MkOutcome eu (Some (ds_v, ds_p)) (negb (a_success so_answer)))) by (rewrite <- E; reflexivity).
  injection E' as _ <- <-. exists v, w. split; [reflexivity|]. split; [exact Re|]. destruct (M (so_value Re)) as (r & Cr & _ & Z). apply Z.
  assert (St : sized (lab_coords em_c) em_params [/ 2]%R) by (exists [[]]; split; [repeat constructor|reflexivity]).
  rewrite (Fl _ _ so_sized St) in Cr. change (a_x so_answer) with [1; 1; 2]%R in Cr. rewrite El in Cr. injection Cr as Cr. apply L_Solved.c93_loss__p. now rewrite <- Cr.
Qed.

Theorem c93_minimize_pytensor :
  forall number_op partial c vars params equations names dims, real_arithmetic number_op -> S_Solve.declared c vars params ->
    Forall2 (shared_notation (vars ++ params)) equations dims ->
    length names = list_sum (map (fun ds => prodn (map (size c) ds)) dims) -> no_point vars params ->
  let f := compile_pytensor_cge_functions number_op partial c vars params equations names in
  forall (Sys Jac : Type) isnan vadd vmul table root f_euler (m : model R Sys Jac R (arr R) (arr R) (list R)) requested
         initial fv fd fp o x0 th0 theta start use_jac use_hess use_hessp,
    (* the compiled model *)
    m_coords m = c -> m_variables m = vars -> m_parameters m = params -> m_backend m = "pytensor"%string -> m_mode m = recorded_mode requested ->
    in_compiled "minimize"%string (m_compiled m) = true ->
    m_resid m = Kw (pf_resid f) -> m_grad m = Kw (pf_grad f) -> m_hess m = Kw (pf_hess f) -> m_hessp m = Kw3 (pf_hessp f) ->
    (* the call *)
    prepared isnan vadd vmul f_euler m initial fv fd fp o x0 th0 theta start -> optimizer_mode o = "minimize"%string ->
    simulate_minimize_passes table (kw_jac o) (kw_hess o) (kw_hessp o) (kw_method o) = Ok (use_jac, use_hess, use_hessp) ->
  exists P eu, mp_x0 P = start /\ mp_theta P = theta /\
    (forall d x th, state_is c vars params d x th ->
       call_flat (mp_f P) x th = let* y := pytensor_system number_op c (vars ++ params) equations names d in Ok (half_squares y)) /\
    (if use_jac then exists j, mp_jac P = Some j /\ forall d x th, state_is c vars params d x th -> call_flat j x th = pf_grad f d else mp_jac P = None) /\
    (if use_hess then exists j, mp_hess P = Some j /\ forall d x th, state_is c vars params d x th -> call_flat j x th = pf_hess f d else mp_hess P = None) /\
    (if use_hessp then exists j, mp_hessp P = Some j /\ forall d x p th, S_Solve.holds c o_name d vars x -> S_Solve.holds c o_name d params th ->
         S_Solve.holds c (fun o => o_name o ++ "_point")%string d vars p ->
         (forall k, In k (dkeys d) <-> In k (map o_name (vars ++ params) ++ map (fun o => o_name o ++ "_point")%string vars)) -> call_flat3 j x p th = pf_hessp f d
     else mp_hessp P = None) /\
    forall minimize ans, minimize P = Ok ans -> sized c vars (a_x ans) ->
      exists ds_v ds_p, simulate isnan vadd vmul table root minimize f_euler m (SDict initial) fv fd fp o = Ok (MkOutcome eu (Some (ds_v, ds_p)) (negb (a_success ans))) /\
        let rho := returned_values vars params ds_v ds_p 1 in
        (Forall2 (fun s ds => defined_on c ds (fun ix => meaning rho ix (normalize_eq s))) equations dims ->
         exists l, call_flat (mp_f P) (a_x ans) theta = Ok l /\
           (l = 0%R <-> Forall2 (fun s ds => forall ix, (forall d, In d ds -> ix d < size c d) -> S_Meaning.holds rho ix s) equations dims)).
Proof. exact @c93_minimize_pytensor__p. Qed.
Print Assumptions c93_minimize_pytensor.
(** The model of c93_pytensor_ex *)
Definition sq_model number_op partial : model R unit unit R (arr R) (arr R) (list R) :=
  let f := compile_pytensor_cge_functions number_op partial sp_c sp_vars sp_params ["X = T"] ["e_a"; "e_b"] in
  MkModel sp_c sp_vars sp_params "pytensor" (recorded_mode ModeNone) (Some [FStr "minimize"])
    NoFn NoFn (Kw (pf_resid f)) (Kw (pf_grad f)) (Kw (pf_hess f)) (Kw3 (pf_hessp f)).
Definition sq_options : options := MkOptions false true "minimize" 3 None None None None.
Example c93_minimize_pytensor_ex number_op partial : real_arithmetic number_op ->
  simulate so_nan so_plus so_plus so_table (fun _ => Err ValueError) (fun _ => Ok (MkAnswer [7; 7]%R true)) so_euler (sq_model number_op partial) (SDict sp_d) (Some [("T", mkArr [] [7]%R)]) None None sq_options
    = Ok (MkOutcome None (Some (sp_v, sp_p)) false) /\
  forall ix, ix "i" < 2 -> S_Meaning.holds (returned_values sp_vars sp_params sp_v sp_p 1) ix "X = T".
Proof.
  intros Ra.
  assert (D : S_Solve.declared sp_c sp_vars sp_params).
  { split; [discriminate|]. split; [discriminate|]. split; [repeat constructor; cbn; intuition discriminate|]. intros o [<-|[<-|[]]]; cbn.
    - split; [constructor; [tauto|constructor]|]. split; [intros [H|[]]; discriminate|]. intros d [<-|[]]. now left.
    - split; [constructor|]. split; tauto. }
  assert (N : Forall2 (shared_notation (sp_vars ++ sp_params)) ["X = T"] [["i"]]).
  { constructor; [|constructor]. exists "X ", " T", (EWord "X"), (EWord "T"). split; [reflexivity|]. split; [apply only_axis_none; reflexivity|]. split; [reflexivity|].
    split; [apply parse_sound; reflexivity|]. split; [apply parse_sound; reflexivity|]. split; [constructor|]. split; [constructor|]. split; [repeat constructor; cbn; tauto|]. split.
    - intros w M _. inversion M as [|? ? ? M1|? ? ? M1|]; subst; inversion M1; subst; (split; [cbn; intuition discriminate|]);
        [exists (exobj KVar "X" ["i"])|exists (exobj KPar "T" [])]; (split; [cbn; tauto|]); (split; [reflexivity|]); [now exists []|exists ["i"]; reflexivity].
    - right. exists (exobj KVar "X" ["i"]). split; [cbn; tauto|]. split; [apply mn_left; constructor|]. split; reflexivity. }
  assert (Pr : prepared so_nan so_plus so_plus so_euler (sq_model number_op partial) sp_d (Some [("T", mkArr [] [7]%R)]) None None sq_options [1; 1]%R [1]%R [7]%R [1; 1]%R).
  { destruct (@sp_holds sp_d 1 1 1 eq_refl eq_refl) as (H1 & H2). split; [|split; [|split; reflexivity]].
    - split; [exact H1|]. split; [exact H2|]. intros k. cbn. tauto.
    - eexists. exists [1; 1]%R. split; [reflexivity|]. now apply sp_holds. }
  assert (Z : sized sp_c sp_vars [7; 7]%R) by (exists [[2]]; split; [constructor; [repeat constructor; eexists; split; reflexivity|constructor]|reflexivity]).
  assert (Np : no_point sp_vars sp_params) by (intros o q [<-|[<-|[]]] [<-|[]]; discriminate).
  destruct (@c93_minimize_pytensor number_op partial sp_c sp_vars sp_params ["X = T"] ["e_a"; "e_b"] [["i"]] Ra D N eq_refl Np unit unit so_nan so_plus so_plus so_table (fun _ => Err ValueError) so_euler
    (sq_model number_op partial) ModeNone sp_d (Some [("T", mkArr [] [7]%R)]) None None sq_options [1; 1]%R [1]%R [7]%R [1; 1]%R true false true eq_refl eq_refl eq_refl eq_refl eq_refl eq_refl eq_refl eq_refl eq_refl eq_refl
    Pr eq_refl eq_refl) as (P & eu & _ & _ & On & _ & _ & _ & Rt).
  destruct (Rt (fun _ => Ok (MkAnswer [7; 7]%R true)) (MkAnswer [7; 7]%R true) eq_refl Z) as (ds_v & ds_p & E & M).
  assert (E' : Ok (MkOutcome None (Some (sp_v, sp_p)) false) = Ok (MkOutcome eu (Some (ds_v, ds_p)) (negb true))) by (etransitivity; [|exact E]; reflexivity).
  injection E' as _ <- <-. split; [reflexivity|]. destruct M as (l & Cl & Zl).
  { constructor; [|constructor]. intros ix W. pose proof (W "i" ltac:(cbn; auto)) as Wi. cbn in Wi. unfold meaning.
    replace (parse (normalize_eq "X = T")) with (Some (EBin Sub (EWord "X") (EWord "T"))) by reflexivity. unfold returned_values. cbn -[IZR]. destruct (ix "i") as [|[|]]; [discriminate|discriminate|lia]. }
  assert (F : l = 0%R).
  { destruct (@sp_holds [("X", mkArr [2] [7; 7]%R); ("T", mkArr [] [7]%R)] 7 7 7 eq_refl eq_refl) as (A & B).
    assert (S : state_is sp_c sp_vars sp_params [("X", mkArr [2] [7; 7]%R); ("T", mkArr [] [7]%R)] [7; 7]%R [7]%R) by (split; [exact A|split; [exact B|intros k; cbn; tauto]]).
    pose proof (On _ _ _ S) as Q. cbn [a_x] in Cl. rewrite Cl in Q.
    assert (Q' : pytensor_system number_op sp_c (sp_vars ++ sp_params) ["X = T"] ["e_a"; "e_b"] [("X", mkArr [2] [7; 7]%R); ("T", mkArr [] [7]%R)] = Ok [number_op Sub 7 7; number_op Sub 7 7]%R) by reflexivity.
    rewrite Q' in Q. cbn [bind] in Q. injection Q as ->. rewrite (Ra Sub 7%R 7%R (7 - 7)%R eq_refl). unfold half_squares. cbn -[IZR]. lra. }
  apply Zl in F. inversion F as [|? ? ? ? F1 _]; subst. intros ix Hi. apply F1. intros d [<-|[]]. exact Hi.
Qed.
