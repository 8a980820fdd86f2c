(** C86: calibrate. *)
From Coq Require Import Reals Lra.
From Verif Require Import Py PyStr NdArray M_Primitives M_Utilities M_Simulate M_SymExpr M_Calculus M_Lambdify M_Recursive M_Build M_Calibrate.
From Verif Require Import M_Expand S_Reduce S_Recursive S_Calibrate L_Recursive L_Recursive2 L_Calibrate S_Layout.
Local Open Scope string_scope.
Local Open Scope list_scope.

(** y = x + x, x = k, z = x with variables x, y, z and parameter k *)
Definition ca_model : calibration_model :=
  MkCal (Some [FStr "minimize"]) true ["double"; "start"; "copy"] exr_eqs ["x"; "y"; "z"] ["k"]
        (Vectors (loss_of exr_eqs ["x"; "y"; "z"] ["k"])) (Vectors (system_of exr_eqs ["x"; "y"; "z"] ["k"])).
Definition ca_data : dict sexpr := [("k", SNum 1)].
Definition ca_run : res result := calibrate_model same same affine_solve ca_model (Some ca_data) 100.
Definition ca_ok : exists r, ca_run = Ok r.
Proof. unfold ca_run, calibrate_model. eexists. cbv -[Rplus Rminus Rmult Rdiv Rinv IZR Ropp Rlt_dec pow Rlt]. reflexivity. Qed.
Definition ca_sets : NoDup (dkeys ca_data) /\ NoDup (cm_variables ca_model ++ cm_parameters ca_model).
Proof. split; repeat constructor; cbn; intuition discriminate. Qed.
Definition ca_solver e x r : (forall s, In s (atoms e) <-> s = x) -> In r (affine_solve e x) -> constant r.
Proof. intros _. apply affine_numbers. Qed.

Theorem c86_result :
  forall simplify evalf solve, good_simplify simplify ->
    (forall e, constant e -> constant (evalf e)) ->
    (forall e x r, (forall s, In s (atoms e) <-> s = x) -> In r (solve e x) -> constant r) ->
  forall m data max_iter r,
    NoDup (dkeys data) -> NoDup (cm_variables m ++ cm_parameters m) ->
    calibrate_model simplify evalf solve m (Some data) max_iter = Ok r ->
    dkeys (initial_dict r) = cm_variables m ++ cm_parameters m /\
    dkeys (fitted_dict r) = cm_variables m ++ cm_parameters m /\
    (forall k c v, dget k data = Some c ->
       dget k (initial_dict r) = Some (Some (value v c)) /\ dget k (fitted_dict r) = Some (Some (value v c))) /\
    (forall k, In k (cm_variables m ++ cm_parameters m) -> dget k data = None -> dget k (initial_dict r) = Some None).
Proof. exact @c86_result__p. Qed.
Print Assumptions c86_result.
Example c86_result_ex : exists r, ca_run = Ok r /\ dkeys (fitted_dict r) = ["x"; "y"; "z"; "k"] /\
  dget "k" (fitted_dict r) = Some (Some 1%R) /\ dget "x" (initial_dict r) = Some None.
Proof.
  destruct ca_ok as (r & H). exists r. split; [exact H|]. destruct ca_sets as (S1 & S2).
  destruct (@c86_result same same affine_solve (proj1 same_good) (fun e C => C) ca_solver ca_model ca_data 100 r S1 S2 H) as (_ & K & D & I).
  split; [exact K|]. split; [apply (D "k" (SNum 1) (fun _ => 0%R) eq_refl)|]. apply I; [cbn; tauto|reflexivity].
Qed.

Theorem c86_success :
  forall simplify evalf solve m data max_iter r f,
    NoDup (dkeys data) -> NoDup (cm_variables m ++ cm_parameters m) ->
    cm_resid m = Vectors f -> measures f (cm_equations m) (cm_variables m) (cm_parameters m) ->
    calibrate_model simplify evalf solve m (Some data) max_iter = Ok r ->
    (r_success r = true <->
       determined (fitted_dict r) (cm_equations m) /\
       forall v, reads v (fitted_dict r) -> (half_squares v (cm_equations m) < 1 / 1000000)%R) /\
    (r_success r = true -> forall v e, reads v (fitted_dict r) -> In e (cm_equations m) -> (value v e ^ 2 < 2 / 1000000)%R).
Proof. exact @c86_success__p. Qed.
Print Assumptions c86_success.
Example c86_success_ex : exists r, ca_run = Ok r /\ (r_success r = true <->
  determined (fitted_dict r) exr_eqs /\ forall v, reads v (fitted_dict r) -> (half_squares v exr_eqs < 1 / 1000000)%R).
Proof.
  destruct ca_ok as (r & H). exists r. split; [exact H|]. destruct ca_sets as (S1 & S2).
  exact (proj1 (@c86_success same same affine_solve ca_model ca_data 100 r _ S1 S2 eq_refl (loss_measures _ _ _) H)).
Qed.

Theorem c86_benchmark :
  forall simplify evalf solve, good_simplify simplify -> good_evalf evalf ->
  forall m data max_iter r v0,
    NoDup (dkeys data) -> NoDup (cm_variables m ++ cm_parameters m) ->
    agrees v0 data -> (forall e, In e (cm_equations m) -> holds v0 e) ->
    (forall e x, reduced simplify v0 (cm_equations m) e -> (forall s, In s (atoms e) <-> s = x) ->
       exists q rest, solve e x = q :: rest /\ constant q /\ value v0 q = v0 x) ->
    calibrate_model simplify evalf solve m (Some data) max_iter = Ok r ->
    reads v0 (fitted_dict r) /\
    forall f, cm_resid m = Vectors f -> measures f (cm_equations m) (cm_variables m) (cm_parameters m) ->
      determined (fitted_dict r) (cm_equations m) -> r_success r = true.
Proof. exact @c86_benchmark__p. Qed.
Print Assumptions c86_benchmark.
Example c86_benchmark_ex : exists r, ca_run = Ok r /\ r_success r = true /\ reads exr_v (fitted_dict r) /\ determined (fitted_dict r) exr_eqs.
Proof.
  destruct ca_ok as (r & H). exists r. split; [exact H|]. destruct ca_sets as (S1 & S2).
  assert (Y : determined (fitted_dict r) exr_eqs).
  { unfold ca_run, calibrate_model in H. cbv -[Rplus Rminus Rmult Rdiv Rinv IZR Ropp Rlt_dec pow Rlt] in H. injection H as <-.
    intros e s [<-|[<-|[<-|[]]]] Hs; cbn in Hs; repeat destruct Hs as [<-|Hs]; try (destruct Hs); cbv -[Rplus Rminus Rmult Rdiv Rinv IZR Ropp Rlt_dec pow Rlt]; eexists; reflexivity. }
  destruct (@c86_benchmark same same affine_solve (proj1 same_good) (proj2 same_good) ca_model ca_data 100 r exr_v S1 S2) as (V & B); auto.
  - intros s c G. cbn in G. destruct (String.eqb_spec s "k"); [injection G as <-; subst; reflexivity|discriminate].
  - intros e [<-|[<-|[<-|[]]]]; unfold holds, exr_v; cbn; lra.
  - intros e x G. apply exr_solver. now apply exr_reduced.
  - split; [|auto]. exact (B _ eq_refl (loss_measures _ _ _) Y).
Qed.

Theorem c86_unknown_name :
  forall simplify evalf solve m data max_iter k c,
    falsy (cm_compiled m) = false -> cm_sympy m = true -> In (k, c) data -> ~ In k (cm_variables m ++ cm_parameters m) ->
    calibrate_model simplify evalf solve m (Some data) max_iter = Err ValueError.
Proof. exact @c86_unknown_name__p. Qed.
Print Assumptions c86_unknown_name.
Example c86_unknown_name_ex : calibrate_model same same affine_solve ca_model (Some [("k", SNum 1); ("P", SNum 2)]) 100 = Err ValueError.
Proof. apply (@c86_unknown_name same same affine_solve ca_model _ 100 "P" (SNum 2)); [reflexivity|reflexivity|cbn; tauto|cbn; intuition discriminate]. Qed.

Theorem c86_needs :
  forall simplify evalf solve m data max_iter r,
    calibrate_model simplify evalf solve m data max_iter = Ok r ->
    cm_sympy m = true /\ falsy (cm_compiled m) = false /\ data <> None /\
    ((exists f, cm_resid m = Vectors f) \/
     exists n k f, cm_resid m = ByObject [[n]; [k]] f /\ n = length (cm_variables m) /\ k = length (cm_parameters m)).
Proof. exact @c86_needs__p. Qed.
Print Assumptions c86_needs.
Example c86_needs_ex : exists r, ca_run = Ok r /\ exists f, cm_resid ca_model = Vectors f.
Proof.
  destruct ca_ok as (r & H). exists r. split; [exact H|].
  destruct (@c86_needs same same affine_solve ca_model _ 100 r H) as (_ & _ & _ & [F|(n & k & f & E & _)]); [exact F|discriminate].
Qed.

Theorem c86_backend_refuted :
  forall simplify evalf solve m data max_iter,
    (exists shapes f, cm_resid m = ByObject shapes f /\ (length shapes <> 2 \/ In [] shapes)) \/ cm_resid m = Keywords \/ cm_resid m = NotCompiled ->
    forall r, calibrate_model simplify evalf solve m data max_iter <> Ok r.
Proof. exact @c86_backend_refuted__p. Qed.
Print Assumptions c86_backend_refuted.
(** The pytensor function of the same model takes x, y, z and k *)
Example c86_backend_refuted_ex :
  calibrate_model same same affine_solve
    (MkCal (Some [FStr "minimize"]) true ["double"; "start"; "copy"] exr_eqs ["x"; "y"; "z"] ["k"] (ByObject [[]; []; []; []] (fun _ => Ok (Some 0%R))) NotCompiled)
    (Some ca_data) 100 = Err TypeError.
Proof. unfold calibrate_model. cbv -[Rplus Rminus Rmult Rdiv Rinv IZR Ropp Rlt_dec pow Rlt]. reflexivity. Qed.

Theorem c86_nan_refuted :
  forall simplify evalf solve, good_simplify simplify ->
  exists m data f, cm_resid m = Vectors f /\ measures f (cm_equations m) (cm_variables m) (cm_parameters m) /\
    forall max_iter, exists r, calibrate_model simplify evalf solve m (Some data) (S max_iter) = Ok r /\ r_success r = true /\
      dget "t" (fitted_dict r) = Some None.
Proof. exact @c86_nan_refuted__p. Qed.
Print Assumptions c86_nan_refuted.
Example c86_nan_refuted_ex : exists m data r, calibrate_model same same affine_solve m (Some data) 100 = Ok r /\ r_success r = true /\ dget "t" (fitted_dict r) = Some None.
Proof.
  destruct (@c86_nan_refuted same same affine_solve (proj1 same_good)) as (m & data & f & _ & _ & H). destruct (H 99) as (r & H'). exists m, data, r. exact H'.
Qed.

Theorem c86_residuals :
  forall simplify evalf solve m data max_iter r f,
    NoDup (dkeys data) -> NoDup (cm_variables m ++ cm_parameters m) -> length (cm_equation_names m) = length (cm_equations m) ->
    cm_system m = Vectors f -> computes f (cm_equations m) (cm_variables m) (cm_parameters m) ->
    calibrate_model simplify evalf solve m (Some data) max_iter = Ok r ->
    determined (fitted_dict r) (cm_equations m) ->
    exists pairs, print_residuals m r = Ok pairs /\ map fst pairs = cm_equation_names m /\
      forall v, reads v (fitted_dict r) -> map snd pairs = map (fun e => Some (value v e)) (cm_equations m).
Proof. exact @c86_residuals__p. Qed.
Print Assumptions c86_residuals.
Example c86_residuals_ex : exists r, ca_run = Ok r /\ determined (fitted_dict r) exr_eqs /\ exists pairs, print_residuals ca_model r = Ok pairs /\
  map fst pairs = ["double"; "start"; "copy"].
Proof.
  destruct c86_benchmark_ex as (r & H & _ & _ & Y). exists r. split; [exact H|]. split; [exact Y|]. destruct ca_sets as (S1 & S2).
  destruct (@c86_residuals same same affine_solve ca_model ca_data 100 r _ S1 S2 eq_refl eq_refl (@system_computes _ _ _) H Y) as (pairs & P & N & _).
  exists pairs. auto.
Qed.

Theorem c86_simulate :
  forall vars params r,
    NoDup (r_variables r ++ r_parameters r) -> length (r_fitted r) = length (r_variables r ++ r_parameters r) ->
    ((forall n, In n (map o_name (vars ++ params)) <-> In n (r_variables r ++ r_parameters r)) ->
       exists d, simulate_from vars params r = Ok d /\ dkeys d = r_variables r ++ r_parameters r /\
         forall n x, dget n (fitted_dict r) = Some x -> dget n d = Some (mkArr [] [x])) /\
    (~ (forall n, In n (map o_name (vars ++ params)) <-> In n (r_variables r ++ r_parameters r)) ->
       simulate_from vars params r = Err ValueError).
Proof. exact @c86_simulate__p. Qed.
Print Assumptions c86_simulate.
(** All objects are scalars: the fitted values are the initial state of a simulation *)

Example c86_simulate_ex : exists r d, ca_run = Ok r /\ simulate_from [exobj KVar "x" []; exobj KVar "y" []; exobj KVar "z" []] [exobj KPar "k" []] r = Ok d.
Proof.
  destruct ca_ok as (r & H). exists r. destruct ca_sets as (S1 & S2). destruct (cal_inv S1 H) as (cal & err & _ & _ & _ & F & _ & _ & Ev & Ep & _).
  apply forall2_length in F. rewrite <- Ev, <- Ep in F, S2.
  destruct (@c86_simulate [exobj KVar "x" []; exobj KVar "y" []; exobj KVar "z" []] [exobj KPar "k" []] r S2 (eq_sym F)) as (A & _).
  destruct A as (d & A & _); [rewrite Ev, Ep; reflexivity|]. exists d. auto.
Qed.

Theorem c86_dims_refuted :
  forall order c vars params gv gp o r,
    unpack_group order vars c = Ok gv -> unpack_group order params c = Ok gp -> NoDup (dkeys gv ++ dkeys gp) ->
    In o (vars ++ params) -> ~ In (o_name o) (dkeys gv ++ dkeys gp) ->
    r_variables r = dkeys gv -> r_parameters r = dkeys gp -> length (r_fitted r) = length (dkeys gv ++ dkeys gp) ->
    simulate_from vars params r = Err ValueError.
Proof. exact @c86_dims_refuted__p. Qed.
Print Assumptions c86_dims_refuted.
(** A price over two goods: the fitted values are P_food and P_steel, the initial state of a simulation needs P *)
Example c86_dims_refuted_ex :
  simulate_from [exobj KVar "P" ["i"]] [] (MkResult ["P_food"; "P_steel"] [] [None; None] [Some 1%R; Some 2%R] true) = Err ValueError.
Proof.
  apply (@c86_dims_refuted (fun l => l) [("i", [LStr "food"; LStr "steel"])] [exobj KVar "P" ["i"]] []
    (match unpack_group (fun l => l) [exobj KVar "P" ["i"]] [("i", [LStr "food"; LStr "steel"])] with Ok g => g | Err _ => [] end) [] (exobj KVar "P" ["i"]));
    try reflexivity; [repeat constructor; cbn; intuition discriminate|now left|cbn; intuition discriminate].
Qed.
