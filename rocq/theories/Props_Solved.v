(** C93: a solved simulation satisfies the written equations. *)
From Coq Require Import Reals Lra.
From Verif Require Import Py PyStr NdArray M_Primitives M_Utilities M_Wrappers M_Simulate M_SimResult M_Build M_PyExpr M_Expand M_SymExpr M_Calculus M_Simplify M_Lambdify M_NumbaModel M_SympyTensor M_Tensor M_Solve.
From Verif Require Import S_Layout S_PyExpr S_Meaning S_Calculus S_Reduce S_Simplify S_Lambdify S_NumbaModel S_SympyTensor S_Tensor S_Solve S_Solved.
From Verif Require Import L_PyExpr L_Reduce L_Reduce5 L_Lambdify L_Lambdify2 L_Solve L_Tensor L_Production6 L_Solved L_Solved2 Props_NumbaModel Props_SympyTensor.
Local Open Scope string_scope.
Local Open Scope list_scope.

(** The model of C81 and C85: P[i] = T * Y and Sum(P[i], (i, 0, 1)) = Y. T is
    lowered from 5 to 1/2; then P = (1, 1) and Y = 2 is a solution. *)
Definition so_options (mode : string) : options := MkOptions false true mode 3 None None None None.
Definition so_scenario : option (dict (arr R)) := Some [("T", mkArr [] [/ 2]%R)].
Definition so_plus (a b : arr R) : res (arr R) := Err TypeError.
Definition so_nan (r : R) : bool := false.
Definition so_euler (d : dict (arr R)) (theta : list R) (n : nat) : res (list (arr R)) := Err TypeError.
Definition so_table : dict mode_kwargs := [("trust-ncg", MkMode true true true)].
Definition so_model : model R (list R) (list (list R)) R (list R) (list (list R)) (list R) :=
  MkModel (lab_coords em_c) em_vars em_params "sympytensor" (recorded_mode ModeNone) (Some [FStr "root"; FStr "minimize"])
    (Kw (sf_system st_f)) (Kw (sf_jac st_f)) (Kw (sf_resid st_f)) (Kw (sf_grad st_f)) (Kw (sf_hess st_f)) (Kw3 (sf_hessp st_f)).
Definition so_v : dataset R := [("P", (["step"; "i"], mkArr [2; 2] [2; 3; 1; 1]%R)); ("Y", (["step"], mkArr [2] [4; 2]%R))].
Definition so_p : dataset R := [("T", (["step"], mkArr [2] [5; / 2]%R))].
Definition so_answer : answer R := MkAnswer [1; 1; 2]%R true.

Definition so_holds : forall d p q y t, dget "P" d = Some (mkArr [2] [p; q]) -> dget "Y" d = Some (mkArr [] [y]) -> dget "T" d = Some (mkArr [] [t]) ->
  S_Solve.holds (lab_coords em_c) o_name d em_vars [p; q; y : R] /\ S_Solve.holds (lab_coords em_c) o_name d em_params [t].
Proof.
  intros d p q y t A B C. split.
  - exists [mkArr [2] [p; q]; mkArr [] [y]]. split; [|reflexivity]. constructor; [split; [exact A|split; [reflexivity|]]|constructor; [split; [exact B|split; [reflexivity|constructor]]|constructor]].
    repeat constructor. eexists. split; reflexivity.
  - exists [mkArr [] [t]]. split; [|reflexivity]. constructor; [split; [exact C|split; [reflexivity|constructor]]|constructor].
Qed.
Definition so_sized : sized (lab_coords em_c) em_vars (a_x so_answer).
Proof. destruct (@so_holds [("P", mkArr [2] [1; 1]%R); ("Y", mkArr [] [2]%R); ("T", mkArr [] [2]%R)] 1 1 2 2 eq_refl eq_refl eq_refl) as (A & _). eapply holds_sized; eauto. Qed.
Definition so_prepared {Sys Jac Loss Grad Hess Hessp} (m : model R Sys Jac Loss Grad Hess Hessp) mode : m_coords m = lab_coords em_c -> m_variables m = em_vars -> m_parameters m = em_params ->
  prepared so_nan so_plus so_plus so_euler m em_d so_scenario None None (so_options mode) [2; 3; 4]%R [5]%R [/ 2]%R [2; 3; 4]%R.
Proof.
  intros A B C. unfold prepared. rewrite A, B, C. destruct (@so_holds em_d 2 3 4 5 eq_refl eq_refl eq_refl) as (H1 & H2). split; [|split; [|split; reflexivity]].
  - split; [exact H1|]. split; [exact H2|]. intros k. cbn. tauto.
  - eexists. exists [2; 3; 4]%R. split; [reflexivity|]. now apply so_holds.
Qed.
Definition so_objects : forall o, In o (em_vars ++ em_params) -> S_Simplify.declared em_c o /\ ~ In "step" (o_dims o).
Proof.
  intros o [<-|[<-|[<-|[]]]]; (split; [split; [repeat constructor; cbn; tauto|]; repeat split; cbn; tauto|cbn; intuition discriminate]).
Qed.
Definition so_equations : forall lr, In lr em_eqs -> flat_reductions em_c (fun _ => [["food"; "steel"]]) (written lr) /\
  exists es, equation_symbols sympy_rule (uniq sexpr_eqb) (uniq pair_eqb) sexpr_eqb em_c None (em_uv ++ em_up) (fst lr) (snd lr) = Ok es.
Proof. intros lr Hl. destruct (proj1 (proj2 (proj2 st_equations)) lr Hl) as (A & _ & B). auto. Qed.
(** Every equation has a value at the returned data. *)
Definition so_value v w : returned em_c em_vars em_params so_v so_p 1 v w -> forall lr, In lr em_eqs -> has_value em_c v w lr.
Proof.
  intros (Rv & Rw). assert (F : v "P" ["food"] = Some 1%R).
  { apply Rv. exists (exobj KVar "P" ["i"]), (mkArr [2; 2] [2; 3; 1; 1]%R), [0]. split; [left; cbn; auto|]. split; [reflexivity|]. split; [discriminate|]. split; [|reflexivity].
    split; [reflexivity|]. repeat constructor. eexists; split; reflexivity. }
  assert (S : v "P" ["steel"] = Some 1%R).
  { apply Rv. exists (exobj KVar "P" ["i"]), (mkArr [2; 2] [2; 3; 1; 1]%R), [1]. split; [left; cbn; auto|]. split; [reflexivity|]. split; [discriminate|]. split; [|reflexivity].
    split; [reflexivity|]. repeat constructor. eexists; split; reflexivity. }
  assert (Y : w "Y" = Some 2%R) by (apply Rw; exists (exobj KVar "Y" []), (mkArr [2] [4; 2]%R); split; [left; cbn; auto|repeat split]).
  assert (T : w "T" = Some (/ 2)%R) by (apply Rw; exists (exobj KPar "T" []), (mkArr [2] [5; / 2]%R); split; [right; cbn; auto|repeat split]).
  intros lr [<-|[<-|[]]] dims ls (N & (f & D) & O) E.
  - assert (I : In "i" dims). { apply O. split; [cbn; tauto|]. apply OfL. cbn. apply OfIx. cbn. tauto. }
    subst dims. cbn in I, E |- *. destruct (f "i"); [|destruct I]. inversion E as [|? l ? ls' (all & E1 & E2) F']; subst. inversion F'; subst.
    cbn in E1. injection E1 as <-. destruct E2 as [<-|[<-|[]]]; cbn; rewrite ?F, ?S, Y, T; discriminate.
  - cbn. rewrite F, S, Y. discriminate.
Qed.

Theorem c93_sympytensor :
  forall sub_into set_order dict_order evals order, walks_set set_order -> walks_set dict_order ->
  forall c axes vars params equations uv up f,
    declaration order c vars params uv up -> vars <> [] -> params <> [] -> equations <> [] ->
    (forall o, In o (vars ++ params) -> S_Simplify.declared c o /\ ~ In "step"%string (o_dims o)) ->
    (forall lr, In lr equations -> flat_reductions c axes (written lr) /\
       exists es, equation_symbols sub_into set_order dict_order evals c None (uv ++ up) (fst lr) (snd lr) = Ok es) ->
    (forall o, In o (vars ++ params) -> exists lr es, In lr equations /\
       equation_symbols sub_into set_order dict_order evals c None (uv ++ up) (fst lr) (snd lr) = Ok es /\ occurs_in c es o) ->
    ~ In "hess_point"%string (map make_indexed_name (uv ++ up)) ->
    compile_sympytensor_cge_functions sub_into set_order dict_order evals order c None vars params equations = Ok f ->
  forall (Loss Grad Hess Hessp : Type) isnan vadd vmul table minimize f_euler (m : model R (list R) (list (list R)) Loss Grad Hess Hessp)
         initial fv fd fp o x0 th0 theta start,
    (* the compiled model *)
    m_coords m = lab_coords c -> m_variables m = vars -> m_parameters m = params -> m_backend m = "sympytensor"%string ->
    in_compiled "root"%string (m_compiled m) = true -> m_system m = Kw (sf_system f) -> m_jac m = Kw (sf_jac f) ->
    (* the call *)
    prepared isnan vadd vmul f_euler m initial fv fd fp o x0 th0 theta start -> optimizer_mode o = "root"%string ->
  exists P eu, rp_x0 P = start /\ rp_theta P = theta /\ gives_residuals c vars params equations (fun r => r) (rp_f P) /\
    (wants_jac o -> exists j, rp_jac P = Some j /\ forall d x th, state_is (lab_coords c) vars params d x th -> call_flat j x th = sf_jac f d) /\
    forall root ans, root P = Ok ans -> sized (lab_coords c) vars (a_x ans) ->
      exists ds_v ds_p, simulate isnan vadd vmul table root minimize f_euler m (SDict initial) fv fd fp o = Ok (MkOutcome eu (Some (ds_v, ds_p)) (negb (a_success ans))) /\
        equilibrium_errors m (ds_v, ds_p) 1 = call_flat (rp_f P) (a_x ans) theta /\
        result_means c vars params equations (fun r => r) (rp_f P) ds_v ds_p (a_x ans) theta.
Proof. exact @c93_sympytensor__p. Qed.
Print Assumptions c93_sympytensor.
Example c93_sympytensor_ex : exists v w,
  simulate so_nan so_plus so_plus so_table (fun _ => Ok so_answer) (fun _ => Err ValueError) so_euler so_model (SDict em_d) so_scenario None None (so_options "root")
    = Ok (MkOutcome None (Some (so_v, so_p)) false) /\
  returned em_c em_vars em_params so_v so_p 1 v w /\ forall lr, In lr em_eqs -> satisfied em_c v w lr.
Proof.
  destruct st_equations as (Nv & Ne & _ & Oc & Hp).
  destruct (@c93_sympytensor sympy_rule (uniq sexpr_eqb) (uniq pair_eqb) sexpr_eqb (fun l => l) (proj1 em_contract) (proj1 (proj2 em_contract)) em_c (fun _ => [["food"; "steel"]])
    em_vars em_params em_eqs em_uv em_up st_f st_declaration Nv ltac:(discriminate) Ne so_objects so_equations Oc Hp st_compiled
    R (list R) (list (list R)) (list R) so_nan so_plus so_plus so_table (fun _ => Err ValueError) so_euler so_model em_d so_scenario None None (so_options "root") [2; 3; 4]%R [5]%R [/ 2]%R [2; 3; 4]%R
    eq_refl eq_refl eq_refl eq_refl eq_refl eq_refl eq_refl (so_prepared so_model "root" eq_refl eq_refl eq_refl) eq_refl) as (P & eu & _ & _ & _ & _ & Rt).
  destruct (Rt (fun _ => Ok so_answer) so_answer eq_refl so_sized) as (ds_v & ds_p & E & Q & (v & w & Re & M)).
  assert (E' : Ok (MkOutcome None (Some (so_v, so_p)) false) = Ok (MkOutcome eu (Some (ds_v, ds_p)) (negb (a_success so_answer)))) by (rewrite <- E; reflexivity).
  injection E' as _ <- <-. exists v, w. split; [reflexivity|]. split; [exact Re|]. destruct (M (so_value Re)) as (r & Cr & _ & Z). apply Z.
  rewrite Cr in Q. injection Q as <-. intros z Hz. cbn in Hz. repeat destruct Hz as [<-|Hz]; try destruct Hz; lra.
Qed.

Theorem c93_numba :
  forall sub_into set_order dict_order evals cse order, walks_set set_order -> walks_set dict_order -> eliminates cse ->
  forall c axes vars params equations uv up f,
    declaration order c vars params uv up -> vars <> [] -> params <> [] -> equations <> [] ->
    (forall o, In o (vars ++ params) -> S_Simplify.declared c o /\ ~ In "step"%string (o_dims o)) ->
    (forall n, In n (map make_indexed_name (uv ++ up)) -> is_name n = true /\ ~ In n reserved) ->
    (forall lr, In lr equations -> flat_reductions c axes (written lr) /\
       exists es, equation_symbols sub_into set_order dict_order evals c None (uv ++ up) (fst lr) (snd lr) = Ok es) ->
    compile_numba_cge_functions sub_into set_order dict_order evals cse order c None vars params equations = Ok f ->
  forall (Loss Grad Hess Hessp : Type) isnan vadd vmul table minimize f_euler (m : model R outval outval Loss Grad Hess Hessp)
         initial fv fd fp o x0 th0 theta start,
    (* the compiled model *)
    m_coords m = lab_coords c -> m_variables m = vars -> m_parameters m = params -> m_backend m = "numba"%string ->
    in_compiled "root"%string (m_compiled m) = true -> m_system m = Pos (nf_system f) -> m_jac m = Pos (nf_jac f) ->
    (* the call *)
    prepared isnan vadd vmul f_euler m initial fv fd fp o x0 th0 theta start -> optimizer_mode o = "root"%string ->
  exists P eu, rp_x0 P = start /\ rp_theta P = theta /\ gives_residuals c vars params equations OVec (rp_f P) /\
    (wants_jac o -> exists j, rp_jac P = Some j /\ forall x th, sized (lab_coords c) vars x -> sized (lab_coords c) params th -> call_flat j x th = nf_jac f x th) /\
    forall root ans, root P = Ok ans -> sized (lab_coords c) vars (a_x ans) ->
      exists ds_v ds_p, simulate isnan vadd vmul table root minimize f_euler m (SDict initial) fv fd fp o = Ok (MkOutcome eu (Some (ds_v, ds_p)) (negb (a_success ans))) /\
        equilibrium_errors m (ds_v, ds_p) 1 = call_flat (rp_f P) (a_x ans) theta /\
        result_means c vars params equations OVec (rp_f P) ds_v ds_p (a_x ans) theta.
Proof. exact @c93_numba__p. Qed.
Print Assumptions c93_numba.
(** The same model compiled with numba *)
Example so_numba : exists f r, em_compile = Ok f /\ nf_system f [1; 1; 2]%R [/ 2]%R = Ok (OVec r) /\ r = [0; 0; 0]%R.
Proof. do 2 eexists. split; [reflexivity|]. split; [reflexivity|]. lists. Qed.
Example c93_numba_ex : exists f, em_compile = Ok f /\
  let m := MkModel (lab_coords em_c) em_vars em_params "numba" ModeNone (Some [FStr "root"]) (Pos (nf_system f)) (Pos (nf_jac f)) (Pos (nf_resid f)) (Pos (nf_grad f)) (NoFn (W := outval)) (NoFn3 (W := outval)) in
  exists v w,
  simulate so_nan so_plus so_plus so_table (fun _ => Ok so_answer) (fun _ => Err ValueError) so_euler m (SDict em_d) so_scenario None None (so_options "root")
    = Ok (MkOutcome None (Some (so_v, so_p)) false) /\
  returned em_c em_vars em_params so_v so_p 1 v w /\ forall lr, In lr em_eqs -> satisfied em_c v w lr.
Proof.
  destruct so_numba as (f & r0 & Ef & Er & Z0). exists f. split; [exact Ef|]. intros m. destruct st_equations as (Nv & Ne & _ & Oc & Hp). destruct em_data as (_ & _ & _ & _ & Nm & _).
  destruct (@c93_numba sympy_rule (uniq sexpr_eqb) (uniq pair_eqb) sexpr_eqb first_cse (fun l => l) (proj1 em_contract) (proj1 (proj2 em_contract)) (proj2 (proj2 em_contract)) em_c (fun _ => [["food"; "steel"]])
    em_vars em_params em_eqs em_uv em_up f st_declaration Nv ltac:(discriminate) Ne so_objects Nm so_equations Ef
    outval outval outval outval so_nan so_plus so_plus so_table (fun _ => Err ValueError) so_euler m em_d so_scenario None None (so_options "root") [2; 3; 4]%R [5]%R [/ 2]%R [2; 3; 4]%R
    eq_refl eq_refl eq_refl eq_refl eq_refl eq_refl eq_refl (so_prepared m "root" eq_refl eq_refl eq_refl) eq_refl) as (P & eu & _ & _ & _ & _ & Rt).
  destruct (Rt (fun _ => Ok so_answer) so_answer eq_refl so_sized) as (ds_v & ds_p & E & Q & (v & w & Re & M)).
  assert (E' : Ok (MkOutcome None (Some (so_v, so_p)) false) = Ok (MkOutcome eu (Some (ds_v, ds_p)) (negb (a_success so_answer)))) by (rewrite <- E; reflexivity).
  injection E' as _ <- <-. exists v, w. split; [reflexivity|]. split; [exact Re|]. destruct (M (so_value Re)) as (r & Cr & _ & Z). apply Z.
  assert (Q' : equilibrium_errors m (so_v, so_p) 1 = Ok (OVec r0)) by (rewrite <- Er; reflexivity). rewrite Q', Cr in Q. injection Q as <-.
  rewrite Z0. intros z Hz. repeat destruct Hz as [<-|Hz]; try destruct Hz; lra.
Qed.

Theorem c93_minimize :
  forall sub_into set_order dict_order evals order, walks_set set_order -> walks_set dict_order ->
  forall c axes vars params equations uv up f,
    declaration order c vars params uv up -> vars <> [] -> params <> [] -> equations <> [] ->
    (forall o, In o (vars ++ params) -> S_Simplify.declared c o /\ ~ In "step"%string (o_dims o)) ->
    (forall lr, In lr equations -> flat_reductions c axes (written lr) /\
       exists es, equation_symbols sub_into set_order dict_order evals c None (uv ++ up) (fst lr) (snd lr) = Ok es) ->
    (forall o, In o (vars ++ params) -> exists lr es, In lr equations /\
       equation_symbols sub_into set_order dict_order evals c None (uv ++ up) (fst lr) (snd lr) = Ok es /\ occurs_in c es o) ->
    ~ In "hess_point"%string (map make_indexed_name (uv ++ up)) -> no_point vars params ->
    compile_sympytensor_cge_functions sub_into set_order dict_order evals order c None vars params equations = Ok f ->
  forall (Sys Jac : Type) isnan vadd vmul table root f_euler (m : model R Sys Jac R (list R) (list (list R)) (list R)) requested
         initial fv fd fp o x0 th0 theta start use_jac use_hess use_hessp,
    (* the compiled model *)
    m_coords m = lab_coords c -> m_variables m = vars -> m_parameters m = params -> m_backend m = "sympytensor"%string -> m_mode m = recorded_mode requested ->
    in_compiled "minimize"%string (m_compiled m) = true ->
    m_resid m = Kw (sf_resid f) -> m_grad m = Kw (sf_grad f) -> m_hess m = Kw (sf_hess f) -> m_hessp m = Kw3 (sf_hessp f) ->
    (* the call *)
    prepared isnan vadd vmul f_euler m initial fv fd fp o x0 th0 theta start -> optimizer_mode o = "minimize"%string ->
    simulate_minimize_passes table (kw_jac o) (kw_hess o) (kw_hessp o) (kw_method o) = Ok (use_jac, use_hess, use_hessp) ->
  exists P eu, mp_x0 P = start /\ mp_theta P = theta /\ gives_residuals c vars params equations half_squares (mp_f P) /\
    (forall d x th, state_is (lab_coords c) vars params d x th -> call_flat (mp_f P) x th = sf_resid f d) /\
    (if use_jac then exists j, mp_jac P = Some j /\ forall d x th, state_is (lab_coords c) vars params d x th -> call_flat j x th = sf_grad f d else mp_jac P = None) /\
    (if use_hess then exists j, mp_hess P = Some j /\ forall d x th, state_is (lab_coords c) vars params d x th -> call_flat j x th = sf_hess f d else mp_hess P = None) /\
    (if use_hessp then exists j, mp_hessp P = Some j /\ forall d x p th, S_Solve.holds (lab_coords c) o_name d vars x -> S_Solve.holds (lab_coords c) o_name d params th ->
         S_Solve.holds (lab_coords c) (fun o => o_name o ++ "_point")%string d vars p ->
         (forall k, In k (dkeys d) <-> In k (map o_name (vars ++ params) ++ point_names vars)) -> call_flat3 j x p th = sf_hessp f d
     else mp_hessp P = None) /\
    forall minimize ans, minimize P = Ok ans -> sized (lab_coords c) vars (a_x ans) ->
      exists ds_v ds_p, simulate isnan vadd vmul table root minimize f_euler m (SDict initial) fv fd fp o = Ok (MkOutcome eu (Some (ds_v, ds_p)) (negb (a_success ans))) /\
        result_means c vars params equations half_squares (mp_f P) ds_v ds_p (a_x ans) theta.
Proof. exact @c93_minimize__p. Qed.
Print Assumptions c93_minimize.
Example c93_minimize_ex : exists v w,
  simulate so_nan so_plus so_plus so_table (fun _ => Err ValueError) (fun _ => Ok so_answer) so_euler so_model (SDict em_d) so_scenario None None (so_options "minimize")
    = Ok (MkOutcome None (Some (so_v, so_p)) false) /\
  returned em_c em_vars em_params so_v so_p 1 v w /\ forall lr, In lr em_eqs -> satisfied em_c v w lr.
Proof.
  destruct st_equations as (Nv & Ne & _ & Oc & Hp).
  assert (Np : no_point em_vars em_params).
  { intros o q [<-|[<-|[<-|[]]]] [<-|[<-|[]]]; discriminate. }
  destruct (@c93_minimize sympy_rule (uniq sexpr_eqb) (uniq pair_eqb) sexpr_eqb (fun l => l) (proj1 em_contract) (proj1 (proj2 em_contract)) em_c (fun _ => [["food"; "steel"]])
    em_vars em_params em_eqs em_uv em_up st_f st_declaration Nv ltac:(discriminate) Ne so_objects so_equations Oc Hp Np st_compiled
    (list R) (list (list R)) so_nan so_plus so_plus so_table (fun _ => Err ValueError) so_euler so_model ModeNone em_d so_scenario None None (so_options "minimize") [2; 3; 4]%R [5]%R [/ 2]%R [2; 3; 4]%R
    true false true eq_refl eq_refl eq_refl eq_refl eq_refl eq_refl eq_refl eq_refl eq_refl eq_refl (so_prepared so_model "minimize" eq_refl eq_refl eq_refl) eq_refl eq_refl) as (P & eu & _ & _ & _ & Fl & _ & _ & _ & Rt).
  destruct (Rt (fun _ => Ok so_answer) so_answer eq_refl so_sized) as (ds_v & ds_p & E & (v & w & Re & M)).
  assert (E' : Ok (MkOutcome None (Some (so_v, so_p)) false) = Ok (MkOutcome eu (Some (ds_v, ds_p)) (negb (a_success so_answer)))) by (rewrite <- E; reflexivity).
  injection E' as _ <- <-. exists v, w. split; [reflexivity|]. split; [exact Re|]. destruct (M (so_value Re)) as (r & Cr & _ & Z). apply Z.
  destruct (@so_holds [("P", mkArr [2] [1; 1]%R); ("Y", mkArr [] [2]%R); ("T", mkArr [] [/ 2]%R)] 1 1 2 (/ 2) eq_refl eq_refl eq_refl) as (A & B).
  assert (S : state_is (lab_coords em_c) em_vars em_params [("P", mkArr [2] [1; 1]%R); ("Y", mkArr [] [2]%R); ("T", mkArr [] [/ 2]%R)] [1; 1; 2]%R [/ 2]%R)
    by (split; [exact A|split; [exact B|intros k; cbn; tauto]]).
  pose proof (Fl _ _ _ S) as Q. change (a_x so_answer) with [1; 1; 2]%R in Cr. rewrite Cr in Q. apply L_Solved.c93_loss__p.
  assert (Q' : exists l, sf_resid st_f [("P", mkArr [2] [1; 1]%R); ("Y", mkArr [] [2]%R); ("T", mkArr [] [/ 2]%R)] = Ok l /\ l = 0%R).
  { eexists. split; [reflexivity|]. cbn. repeat match goal with |- context [py_pow ?x (IZR ?n)] => change (py_pow x (IZR n)) with (rpow x (IZR n)); rewrite rpow_IZR end.
    cbn [powerRZ]. change (Pos.to_nat 2) with 2%nat. cbn [pow]. lra. }
  destruct Q' as (l & El & ->). rewrite El in Q. now injection Q as ->.
Qed.

Theorem c93_loss :
  forall r, half_squares r = 0%R <-> forall z, In z r -> z = 0%R.
Proof. exact @c93_loss__p. Qed.
Print Assumptions c93_loss.
Example c93_loss_ex : half_squares [3; 4]%R = (25 / 2)%R /\ half_squares [0; 0]%R = 0%R.
Proof. unfold half_squares. cbn. split; lra. Qed.

Theorem c93_pytensor :
  forall number_op c vars params equations names dims, real_arithmetic number_op -> S_Solve.declared c vars params ->
    Forall2 (shared_notation (vars ++ params)) equations dims ->
    length names = list_sum (map (fun ds => prodn (map (size c) ds)) dims) ->
  forall (Jac Loss Grad Hess Hessp : Type) isnan vadd vmul table minimize f_euler (m : model R (list R) Jac Loss Grad Hess Hessp) jac
         initial fv fd fp o x0 th0 theta start,
    (* the compiled model *)
    m_coords m = c -> m_variables m = vars -> m_parameters m = params -> m_backend m = "pytensor"%string ->
    m_system m = Kw (pytensor_system number_op c (vars ++ params) equations names) -> made_by (m_backend m) (m_jac m) ->
    (wants_jac o -> evaluates c vars params (m_jac m) jac /\ in_compiled "root"%string (m_compiled m) = true) ->
    (* the call *)
    prepared isnan vadd vmul f_euler m initial fv fd fp o x0 th0 theta start -> optimizer_mode o = "root"%string ->
  exists P eu, rp_x0 P = start /\ rp_theta P = theta /\
    (forall d x th, state_is c vars params d x th -> call_flat (rp_f P) x th = pytensor_system number_op c (vars ++ params) equations names d) /\
    forall root ans, root P = Ok ans -> sized c vars (a_x ans) ->
      exists ds_v ds_p, simulate isnan vadd vmul table root minimize f_euler m (SDict initial) fv fd fp o = Ok (MkOutcome eu (Some (ds_v, ds_p)) (negb (a_success ans))) /\
        equilibrium_errors m (ds_v, ds_p) 1 = call_flat (rp_f P) (a_x ans) theta /\
        let rho := returned_values vars params ds_v ds_p 1 in
        (Forall2 (fun s ds => defined_on c ds (fun ix => meaning rho ix (normalize_eq s))) equations dims ->
         exists r, call_flat (rp_f P) (a_x ans) theta = Ok r /\
           (all_zero r <-> Forall2 (fun s ds => forall ix, (forall d, In d ds -> ix d < size c d) -> S_Meaning.holds rho ix s) equations dims)).
Proof. exact @c93_pytensor__p. Qed.
Print Assumptions c93_pytensor.
(** X[i] = T, with T raised from 1 to 7; without the Jacobian *)
Definition sp_c : coords := [("i", [LStr "a"; LStr "b"])].
Definition sp_vars : list mobj := [exobj KVar "X" ["i"]].
Definition sp_params : list mobj := [exobj KPar "T" []].
Definition sp_d : dict (arr R) := [("X", mkArr [2] [1; 1]%R); ("T", mkArr [] [1]%R)].
Definition sp_model number_op : model R (list R) unit unit unit unit unit :=
  MkModel sp_c sp_vars sp_params "pytensor" (recorded_mode ModeNone) (Some [FStr "root"])
    (Kw (pytensor_system number_op sp_c (sp_vars ++ sp_params) ["X = T"] ["e_a"; "e_b"])) NoFn NoFn NoFn NoFn NoFn3.
Definition sp_options : options := MkOptions false true "root" 3 (Some (Some false)) None None None.
Definition sp_v : dataset R := [("X", (["step"; "i"], mkArr [2; 2] [1; 1; 7; 7]%R))].
Definition sp_p : dataset R := [("T", (["step"], mkArr [2] [1; 7]%R))].
Definition sp_holds : forall d p q t, dget "X" d = Some (mkArr [2] [p; q]) -> dget "T" d = Some (mkArr [] [t]) ->
  S_Solve.holds sp_c o_name d sp_vars [p; q : R] /\ S_Solve.holds sp_c o_name d sp_params [t].
Proof.
  intros d p q t A C. split.
  - exists [mkArr [2] [p; q]]. split; [|reflexivity]. constructor; [split; [exact A|split; [reflexivity|]]|constructor]. repeat constructor. eexists. split; reflexivity.
  - exists [mkArr [] [t]]. split; [|reflexivity]. constructor; [split; [exact C|split; [reflexivity|constructor]]|constructor].
Qed.
Example c93_pytensor_ex number_op : real_arithmetic number_op ->
  simulate so_nan so_plus so_plus so_table (fun _ => Ok (MkAnswer [7; 7]%R true)) (fun _ => Err ValueError) so_euler (sp_model number_op) (SDict sp_d) (Some [("T", mkArr [] [7]%R)]) None None sp_options
    = Ok (MkOutcome None (Some (sp_v, sp_p)) false) /\
  forall ix, ix "i" < 2 -> S_Meaning.holds (returned_values sp_vars sp_params sp_v sp_p 1) ix "X = T".
Proof.
  intros Ra.
  assert (D : S_Solve.declared sp_c sp_vars sp_params).
  { split; [discriminate|]. split; [discriminate|]. split; [repeat constructor; cbn; intuition discriminate|]. intros o [<-|[<-|[]]]; cbn.
    - split; [constructor; [tauto|constructor]|]. split; [intros [H|[]]; discriminate|]. intros d [<-|[]]. now left.
    - split; [constructor|]. split; tauto. }
  assert (N : Forall2 (shared_notation (sp_vars ++ sp_params)) ["X = T"] [["i"]]).
  { constructor; [|constructor]. exists "X ", " T", (EWord "X"), (EWord "T"). split; [reflexivity|]. split; [apply only_axis_none; reflexivity|]. split; [reflexivity|].
    split; [apply parse_sound; reflexivity|]. split; [apply parse_sound; reflexivity|]. split; [constructor|]. split; [constructor|]. split; [repeat constructor; cbn; tauto|]. split.
    - intros w M _. inversion M as [|? ? ? M1|? ? ? M1|]; subst; inversion M1; subst; (split; [cbn; intuition discriminate|]);
        [exists (exobj KVar "X" ["i"])|exists (exobj KPar "T" [])]; (split; [cbn; tauto|]); (split; [reflexivity|]); [now exists []|exists ["i"]; reflexivity].
    - right. exists (exobj KVar "X" ["i"]). split; [cbn; tauto|]. split; [apply mn_left; constructor|]. split; reflexivity. }
  assert (Pr : prepared so_nan so_plus so_plus so_euler (sp_model number_op) sp_d (Some [("T", mkArr [] [7]%R)]) None None sp_options [1; 1]%R [1]%R [7]%R [1; 1]%R).
  { destruct (@sp_holds sp_d 1 1 1 eq_refl eq_refl) as (H1 & H2). split; [|split; [|split; reflexivity]].
    - split; [exact H1|]. split; [exact H2|]. intros k. cbn. tauto.
    - eexists. exists [1; 1]%R. split; [reflexivity|]. now apply sp_holds. }
  assert (Z : sized sp_c sp_vars [7; 7]%R) by (exists [[2]]; split; [constructor; [repeat constructor; eexists; split; reflexivity|constructor]|reflexivity]).
  destruct (@c93_pytensor number_op sp_c sp_vars sp_params ["X = T"] ["e_a"; "e_b"] [["i"]] Ra D N eq_refl unit unit unit unit unit so_nan so_plus so_plus so_table (fun _ => Err ValueError) so_euler
    (sp_model number_op) (fun _ _ => Err ValueError) sp_d (Some [("T", mkArr [] [7]%R)]) None None sp_options [1; 1]%R [1]%R [7]%R [1; 1]%R eq_refl eq_refl eq_refl eq_refl eq_refl I
    ltac:(intros [W|W]; discriminate) Pr eq_refl) as (P & eu & _ & _ & _ & Rt).
  destruct (Rt (fun _ => Ok (MkAnswer [7; 7]%R true)) (MkAnswer [7; 7]%R true) eq_refl Z) as (ds_v & ds_p & E & Q & M).
  assert (E' : Ok (MkOutcome None (Some (sp_v, sp_p)) false) = Ok (MkOutcome eu (Some (ds_v, ds_p)) (negb true))) by (etransitivity; [|exact E]; reflexivity).
  injection E' as _ <- <-. split; [reflexivity|]. destruct M as (r & Cr & Zr).
  { constructor; [|constructor]. intros ix W. pose proof (W "i" ltac:(cbn; auto)) as Wi. cbn in Wi. unfold meaning.
    replace (parse (normalize_eq "X = T")) with (Some (EBin Sub (EWord "X") (EWord "T"))) by reflexivity. unfold returned_values. cbn -[IZR]. destruct (ix "i") as [|[|]]; [discriminate|discriminate|lia]. }
  rewrite Cr in Q. assert (F : all_zero r).
  { assert (Q' : equilibrium_errors (sp_model number_op) (sp_v, sp_p) 1 = Ok [number_op Sub 7 7; number_op Sub 7 7]%R) by reflexivity. rewrite Q' in Q. injection Q as <-.
    rewrite (Ra Sub 7%R 7%R (7 - 7)%R eq_refl). intros z Hz. repeat destruct Hz as [<-|Hz]; try destruct Hz; lra. }
  apply Zr in F. inversion F as [|? ? ? ? F1 _]; subst. intros ix Hi. apply F1. intros d [<-|[]]. exact Hi.
Qed.
