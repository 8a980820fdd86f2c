(** C107: the Ops made from a model compute the residuals and the Jacobian at
    the arrays they are applied to. *)
From Coq Require Import Reals Lra Lia.
From Verif Require Import Py PyStr NdArray M_Primitives M_PyExpr M_Tensor M_ArrayModel M_Ops.
From Verif Require Import S_Layout S_Meaning S_Production S_Tensor S_ArrayModel S_Ops L_ArrayModel2 L_ArrayModel3 L_Ops.
Local Open Scope nat_scope.
Local Open Scope string_scope.
Local Open Scope list_scope.

(** Applied to arrays of the variables and then the parameters, the first Op
    returns the residuals and the second their derivatives. *)
Theorem c107_ops :
  forall number_op partial c vars params equations names rs theta res x xs thetas,
    array_model number_op c vars params equations names rs theta res -> exact_partial partial ->
    array_data c vars xs x -> array_data c params thetas theta -> all_defined c (vars ++ params) rs (x ++ theta) -> 0 < n_residuals c rs ->
    exists f_model f_jac, compile_cge_model_to_pytensor_Op number_op partial c vars params equations names = Ok (f_model, f_jac) /\
      f_model (xs ++ thetas) = Ok (res x) /\
      exists jac, f_jac (xs ++ thetas) = Ok jac /\ ashape jac = [n_residuals c rs; length x] /\
        forall k d, k < length x -> residual_partials c vars params rs theta res x k d ->
        forall r, r < n_residuals c rs -> aget jac [r; k] = Ok (d r).
Proof. exact @c107_ops__p. Qed.
Print Assumptions c107_ops.
(** The equation X[i] * w = A[i] at X = (2, 3), w = 5 and A = (4, 5). *)
Example c107_ops_ex number_op partial names : real_arithmetic number_op -> exact_partial partial -> length names = 2 ->
  exists f_model f_jac jac, compile_cge_model_to_pytensor_Op number_op partial am_c am_vars am_params [am_eq] names = Ok (f_model, f_jac) /\
    f_model [mkArr [2] [2; 3]%R; mkArr [] [5]%R; mkArr [2] [4; 5]%R] = Ok [6; 10]%R /\
    f_jac [mkArr [2] [2; 3]%R; mkArr [] [5]%R; mkArr [2] [4; 5]%R] = Ok jac /\
    aget jac [0; 0] = Ok 5%R /\ aget jac [0; 1] = Ok 0%R /\ aget jac [1; 2] = Ok 3%R.
Proof.
  intros Ar EP L.
  destruct (@c107_ops _ partial _ _ _ _ _ _ _ _ [2; 3; 5]%R [mkArr [2] [2; 3]%R; mkArr [] [5]%R] [mkArr [2] [4; 5]%R] (am_model names Ar L) EP) as (fm & fj & E & Em & jac & Ej & _ & H).
  - split; [repeat constructor|reflexivity].
  - split; [repeat constructor|reflexivity].
  - apply am_defined.
  - cbn. lia.
  - exists fm, fj, jac. cbn [app] in Em, Ej. split; [exact E|]. split; [rewrite Em; f_equal; cbn -[IZR]; repeat first [reflexivity|f_equal; [lra|]|f_equal; lra]|]. split; [exact Ej|].
    assert (X : forall k r, k < 3 -> r < 2 -> aget jac [r; k] = Ok (am_d 2 3 5 k r)) by (intros k r K Hr; apply (H k (am_d 2 3 5 k) K (am_partials 2 3 5 K) r Hr)).
    repeat split; rewrite X by lia; reflexivity.
Qed.

(** Another number of arrays, or an array of another shape, is refused. *)
Theorem c107_refused :
  forall number_op partial c vars params equations names f_model f_jac args,
    well_declared c (vars ++ params) ->
    compile_cge_model_to_pytensor_Op number_op partial c vars params equations names = Ok (f_model, f_jac) ->
    (length args <> length (vars ++ params) -> f_model args = Err ValueError /\ f_jac args = Err ValueError) /\
    (forall k a o, length args = length (vars ++ params) -> nth_error args k = Some a -> nth_error (vars ++ params) k = Some o -> ~ fits c o a ->
      f_model args = Err TypeError /\ f_jac args = Err TypeError).
Proof. exact @c107_refused__p. Qed.
Print Assumptions c107_refused.
Example c107_refused_ex number_op partial names f_model f_jac :
  compile_cge_model_to_pytensor_Op number_op partial am_c am_vars am_params [am_eq] names = Ok (f_model, f_jac) ->
  f_model [mkArr [2] [2; 3]%R; mkArr [] [5]%R] = Err ValueError /\ f_jac [mkArr [3] [2; 3; 4]%R; mkArr [] [5]%R; mkArr [2] [4; 5]%R] = Err TypeError.
Proof.
  intros E. assert (W : well_declared am_c (am_vars ++ am_params)).
  { split; [repeat constructor; cbn; intuition discriminate|]. intros o d I Hd. cbn in I. repeat destruct I as [<-|I]; cbn in Hd; cbn; tauto. }
  split.
  - apply (proj1 (@c107_refused _ _ _ _ _ _ _ _ _ [mkArr [2] [2; 3]%R; mkArr [] [5]%R] W E)). discriminate.
  - eapply (proj2 (@c107_refused _ _ _ _ _ _ _ _ _ [mkArr [3] [2; 3; 4]%R; mkArr [] [5]%R; mkArr [2] [4; 5]%R] W E) 0); [reflexivity|reflexivity|reflexivity|discriminate].
Qed.

(** Renamed clones have the type of the original and the name with the suffix;
    different tensors stay different ... *)
Theorem c107_clones :
  forall xs suffix,
    let clones := map (fun x => clone_and_rename x suffix) xs in
    map t_shape clones = map t_shape xs /\ map t_name clones = map (fun x => (t_name x ++ suffix)%string) xs /\
    (NoDup (map t_name xs) -> NoDup (map t_name clones)).
Proof. exact @c107_clones__p. Qed.
Print Assumptions c107_clones.
Example c107_clones_ex :
  map (fun x => clone_and_rename x "_initial") [MkTensor "alpha" [2]; MkTensor "phi" []] = [MkTensor "alpha_initial" [2]; MkTensor "phi_initial" []] /\
  NoDup (map t_name [MkTensor "alpha" [2]; MkTensor "phi" []]).
Proof. split; [reflexivity|]. repeat constructor; cbn; intuition discriminate. Qed.
(** ... but a clone can have the name of another tensor. *)
Theorem c107_clash_refuted :
  exists xs suffix, NoDup (map t_name xs) /\ ~ NoDup (map t_name (xs ++ map (fun x => clone_and_rename x suffix) xs)).
Proof. exact @c107_clash_refuted__p. Qed.
Print Assumptions c107_clash_refuted.
