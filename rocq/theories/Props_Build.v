(** C69, C70, C72: compile requests. *)
From Verif Require Import Py PyStr M_Build S_Build L_Build.
Local Open Scope string_scope.
Local Open Scope list_scope.

(** ** C69 *)
Theorem c69_exact :
  forall (backend : string) (jax : bool) (r : request), In backend ["pytensor"; "numba"; "sympytensor"] ->
  exists c, compile_model backend jax r false false = Ok c /\
    (f_jac (c_functions c) = true <-> asks r "root") /\
    (f_resid (c_functions c) = true <-> asks r "minimize") /\
    (f_grad (c_functions c) = true <-> asks r "minimize") /\
    (f_hess (c_functions c) = true <-> asks r "minimize") /\
    (f_hessp (c_functions c) = true <-> asks r "minimize") /\
    (f_euler (c_functions c) <> None <-> asks r "euler").
Proof. exact @c69_exact__p. Qed.
Print Assumptions c69_exact.
Example c69_exact_ex : exists c, compile_model "sympytensor" false (RMany [FStr "euler"; FStr "root"]) false false = Ok c /\
  f_jac (c_functions c) = true /\ f_resid (c_functions c) = false /\ f_euler (c_functions c) <> None.
Proof.
  destruct (@c69_exact "sympytensor" false (RMany [FStr "euler"; FStr "root"]) ltac:(simpl; auto)) as (c & H & J & R & _ & _ & _ & E).
  exists c. split; [exact H|]. split; [apply J; simpl; auto|]. split; [|apply E; simpl; auto].
  destruct (f_resid (c_functions c)) eqn:X; [|reflexivity]. exfalso. destruct (proj1 R eq_refl) as [H0|[H0|[]]]; discriminate.
Qed.

Theorem c69_unknown_backend :
  forall (backend : string) (jax : bool) (r : request) (use_scan use_rk4 : bool), ~ In backend ["pytensor"; "numba"; "sympytensor"] ->
  compile_model backend jax r use_scan use_rk4 = Err KeyError.
Proof. exact @c69_unknown_backend__p. Qed.
Print Assumptions c69_unknown_backend.
Example c69_unknown_backend_ex : compile_model "theano" false (ROne (FStr "all")) false false = Err KeyError.
Proof. apply c69_unknown_backend. simpl. intuition discriminate. Qed.

Theorem c69_backend :
  forall (equations : list string),
  let reduces := exists eq, In eq equations /\ (occurs "Sum(" eq \/ occurs "Prod(" eq) in
  let broadcasts := exists eq, In eq equations /\ (occurs "[:, None]" eq \/ occurs "[None, :]" eq) in
  (choose_backend None (EqList equations) = Ok "pytensor" <-> ~ reduces /\ broadcasts) /\
  (choose_backend None (EqList equations) = Ok "sympytensor" <-> reduces \/ ~ broadcasts) /\
  (forall b, choose_backend (Some b) (EqList equations) = Ok b).
Proof. exact @c69_backend__p. Qed.
Print Assumptions c69_backend.
Example c69_backend_ex : choose_backend None (EqList ["Y = X[:, None] * Z"; "C = Y"]) = Ok "pytensor" /\
  choose_backend None (EqList ["Y = X[:, None] * Z"; "C = Sum(Y[i], (i, 0, 2))"]) = Ok "sympytensor".
Proof.
  split.
  - apply (proj1 (c69_backend _)). split.
    + intros (eq & [<-|[<-|[]]] & [H|H]); apply contains_spec in H; vm_compute in H; discriminate.
    + exists "Y = X[:, None] * Z". split; [now left|]. left. exists "Y = X", " * Z". reflexivity.
  - apply (proj1 (proj2 (c69_backend _))). left. exists "C = Sum(Y[i], (i, 0, 2))". split; [now right; left|].
    left. exists "C = ", "Y[i], (i, 0, 2))". reflexivity.
Qed.

(** The product of sympy is not recognised as a reduction. *)
Theorem c69_product_refuted :
  exists equations, In "Y = Product(X[i], (i, 0, 2)) + Z[:, None]" equations /\ choose_backend None (EqList equations) = Ok "pytensor".
Proof. exact @c69_product_refuted__p. Qed.
Print Assumptions c69_product_refuted.
(** A dict of equations, which the signature admits, is not accepted without a backend. *)
Theorem c69_dict_refuted :
  forall k eq d, choose_backend None (EqDict ((k, eq) :: d)) = Err AttributeError.
Proof. exact @c69_dict_refuted__p. Qed.
Print Assumptions c69_dict_refuted.
(** A list holding "all", which the type of the argument admits, compiles nothing. *)
Theorem c69_all_list_refuted :
  forall backend jax, In backend ["pytensor"; "numba"; "sympytensor"] -> exists c,
  compile_model backend jax (RMany [FStr "all"]) false false = Ok c /\
  f_jac (c_functions c) = false /\ f_resid (c_functions c) = false /\ f_euler (c_functions c) = None.
Proof. exact @c69_all_list_refuted__p. Qed.
Print Assumptions c69_all_list_refuted.

(** ** C70 *)

(** simulate and calibrate call a method that does not exist. *)
Theorem c70_uncompiled_refuted :
  forall (c : compiled), c_compiled c = None \/ c_compiled c = Some [] ->
  (forall use_euler use_optimizer mode use_jac, simulate c use_euler use_optimizer mode use_jac = Err AttributeError) /\
  calibrate c = Err AttributeError.
Proof. exact @c70_uncompiled_refuted__p. Qed.
Print Assumptions c70_uncompiled_refuted.
Example c70_uncompiled_refuted_ex : simulate uncompiled true true "root" true = Err AttributeError.
Proof. apply c70_uncompiled_refuted. now right. Qed.
Theorem c70_none_request_refuted :
  forall backend jax, In backend ["pytensor"; "numba"; "sympytensor"] -> exists c,
  compile_model backend jax RNone false false = Ok c /\ simulate c true false "root" true = Err AttributeError.
Proof. exact @c70_none_request_refuted__p. Qed.
Print Assumptions c70_none_request_refuted.
Example c70_none_request_refuted_ex : exists c, compile_model "numba" false RNone false false = Ok c /\ simulate c true false "root" true = Err AttributeError.
Proof. apply c70_none_request_refuted. simpl. auto. Qed.
(** Asked to compile nothing (False), the model counts as compiled: simulate and calibrate call None. *)
Theorem c70_false_request_refuted :
  forall backend jax use_optimizer mode use_jac, In backend ["pytensor"; "numba"; "sympytensor"] -> exists c,
  compile_model backend jax (ROne (FBool false)) false false = Ok c /\ f_euler (c_functions c) = None /\ f_resid (c_functions c) = false /\
  simulate c true use_optimizer mode use_jac = Err TypeError /\ calibrate c = Err TypeError.
Proof. exact @c70_false_request_refuted__p. Qed.
Print Assumptions c70_false_request_refuted.
Example c70_false_request_refuted_ex : exists c, compile_model "pytensor" true (ROne (FBool false)) false false = Ok c /\ calibrate c = Err TypeError.
Proof.
  destruct (c70_false_request_refuted true true "root" true (or_introl eq_refl)) as (c & E & _ & _ & _ & H).
  exists c. now split.
Qed.
(** Without the Euler function simulate calls None. *)
Theorem c70_missing_euler_refuted :
  forall (backend : string) (jax : bool) (r : request) use_optimizer mode use_jac, In backend ["pytensor"; "numba"; "sympytensor"] ->
  (exists name, asks r name) -> ~ asks r "euler" ->
  exists c, compile_model backend jax r false false = Ok c /\ simulate c true use_optimizer mode use_jac = Err TypeError.
Proof. exact @c70_missing_euler_refuted__p. Qed.
Print Assumptions c70_missing_euler_refuted.
Example c70_missing_euler_refuted_ex : exists c, compile_model "numba" false (ROne (FStr "root")) false false = Ok c /\ simulate c true true "root" true = Err TypeError.
Proof.
  apply c70_missing_euler_refuted; [simpl; auto| |].
  - exists "root". right. split; [discriminate|reflexivity].
  - intros [(H & _)|(_ & H)]; discriminate.
Qed.

Theorem c70_compiled :
  forall (backend : string) (jax : bool) (r : request) (use_euler use_optimizer : bool) (mode : string) (use_jac : bool) (c : compiled),
  compile_model backend jax r false false = Ok c -> (exists name, asks r name) ->
  (use_euler = true -> asks r "euler") -> (use_optimizer = true -> In mode ["root"; "minimize"]) ->
  (* everything needed was requested: simulate finds its functions *)
  ((use_optimizer = true -> mode = "root" -> use_jac = true -> asks r "root") ->
   (use_optimizer = true -> mode = "minimize" -> asks r "minimize") -> simulate c use_euler use_optimizer mode use_jac = Ok tt) /\
  (* the optimizer's functions are missing: an error says so *)
  (use_optimizer = true -> (mode = "root" /\ use_jac = true /\ ~ asks r "root") \/ (mode = "minimize" /\ ~ asks r "minimize") ->
   simulate c use_euler use_optimizer mode use_jac = Err ValueError) /\
  (asks r "minimize" -> calibrate c = Ok tt) /\
  (~ asks r "minimize" -> calibrate c = Err TypeError).
Proof. exact @c70_compiled__p. Qed.
Print Assumptions c70_compiled.
Example c70_compiled_ex : exists c, compile_model "pytensor" true (ROne (FBool true)) false false = Ok c /\
  simulate c true true "minimize" true = Ok tt /\ calibrate c = Ok tt.
Proof.
  eexists. split; [reflexivity|].
  assert (A : forall nm, In nm ["root"; "minimize"; "euler"] -> asks (ROne (FBool true)) nm) by (intros nm H; split; [reflexivity|exact H]).
  split.
  - apply (@c70_compiled "pytensor" true (ROne (FBool true)) true true "minimize" true _ eq_refl); intros; try (apply A; simpl; auto; fail).
    + exists "root". apply A. simpl; auto.
    + simpl; auto.
  - apply (@c70_compiled "pytensor" true (ROne (FBool true)) true true "minimize" true _ eq_refl); intros; try (apply A; simpl; auto; fail).
    + exists "root". apply A. simpl; auto.
    + simpl; auto.
Qed.

(** ** C72 *)
Theorem c72_rk4 :
  forall (backend : string) (jax use_scan : bool) (r : request) (c : compiled), backend <> "numba" ->
  compile_model backend jax r use_scan true = Ok c -> asks r "euler" -> f_euler (c_functions c) = Some RK4.
Proof. exact @c72_rk4__p. Qed.
Print Assumptions c72_rk4.
Example c72_rk4_ex : exists c, compile_model "pytensor" true (ROne (FStr "euler")) false true = Ok c /\ f_euler (c_functions c) = Some RK4.
Proof.
  eexists. split; [reflexivity|]. apply (@c72_rk4 "pytensor" true false (ROne (FStr "euler"))); [discriminate|reflexivity|].
  right. split; [discriminate|reflexivity].
Qed.
(** numba compiles the plain Euler scheme when RK4 is asked for. *)
Theorem c72_numba_refuted :
  forall (jax use_scan : bool) (r : request), asks r "euler" ->
  exists c, compile_model "numba" jax r use_scan true = Ok c /\ f_euler (c_functions c) = Some Euler.
Proof. exact @c72_numba_refuted__p. Qed.
Print Assumptions c72_numba_refuted.
Example c72_numba_refuted_ex : exists c, compile_model "numba" false (ROne (FStr "euler")) false true = Ok c /\ f_euler (c_functions c) = Some Euler.
Proof. apply c72_numba_refuted. right. split; [discriminate|reflexivity]. Qed.
(** The scanned Euler function cannot be compiled by either pytensor backend. *)
Theorem c72_scan_refuted :
  forall (backend : string) (r : request) (use_rk4 : bool), In backend ["pytensor"; "sympytensor"] -> asks r "euler" ->
  exists e, compile_model backend false r true use_rk4 = Err e.
Proof. exact @c72_scan_refuted__p. Qed.
Print Assumptions c72_scan_refuted.
Example c72_scan_refuted_ex : exists e, compile_model "sympytensor" false (ROne (FStr "euler")) true false = Err e.
Proof. apply c72_scan_refuted; [simpl; auto|]. right. split; [discriminate|reflexivity]. Qed.
