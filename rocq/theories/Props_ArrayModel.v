(** C84: the functions compiled by the jax and pytensor backends return the
    residuals of the written equations, half the sum of their squares, and the
    derivatives of these. *)
From Coq Require Import Reals Lra Lia.
From Verif Require Import Py PyStr NdArray M_Primitives M_PyExpr M_Wrappers M_Tensor M_ArrayModel.
From Verif Require Import S_Layout S_Meaning S_Production S_Jacobian S_Tensor S_ArrayModel L_ArrayModel2 L_ArrayModel3.
Local Open Scope nat_scope.
Local Open Scope string_scope.
Local Open Scope list_scope.

(** Equations in the notation that all backends share say what they mean. *)
Theorem c84_shared :
  forall c objs equations dims, NoDup (map o_name objs) -> Forall2 (shared_notation objs) equations dims ->
    equations_say c objs equations (combine dims (map (fun s rho ix => meaning rho ix (normalize_eq s)) equations)).
Proof. exact @c84_shared__p. Qed.
Print Assumptions c84_shared.
(** The equation X[i] * w = A[i] of two labels, with A = (4, 5). *)
Example c84_shared_ex number_op names : real_arithmetic number_op -> length names = 2 ->
  array_model number_op am_c am_vars am_params [am_eq] names am_rs [4; 5]%R am_res.
Proof. apply am_model. Qed.
(** Functions that differentiate exactly exist. *)
Example c84_exact_ex : exists partial along, exact_partial partial /\ exact_along along.
Proof. exact exact_exist. Qed.

(** jax: row r and column k of the Jacobian is the derivative of residual number
    r in element number k of the variables. *)
Theorem c84_jacobian :
  forall number_op partial along c vars params equations names rs theta res x,
    array_model number_op c vars params equations names rs theta res -> exact_partial partial ->
    length x = elements_of c vars -> all_defined c (vars ++ params) rs (x ++ theta) ->
    let f := compile_jax_cge_functions number_op partial along c vars params equations names in
    exists rows, wrap_pytensor_func_for_scipy (jf_jac f) vars params c x theta = Ok rows /\
      length rows = n_residuals c rs /\ Forall (fun row => length row = length x) rows /\
      forall k d, k < length x -> residual_partials c vars params rs theta res x k d ->
      forall r, r < n_residuals c rs -> nth k (nth r rows []) 0%R = d r.
Proof. exact @c84_jacobian__p. Qed.
Print Assumptions c84_jacobian.
Example c84_jacobian_ex number_op partial along names : real_arithmetic number_op -> exact_partial partial -> length names = 2 ->
  exists rows, wrap_pytensor_func_for_scipy (jf_jac (compile_jax_cge_functions number_op partial along am_c am_vars am_params [am_eq] names))
                 am_vars am_params am_c [2; 3; 5]%R [4; 5]%R = Ok rows /\ length rows = 2 /\
    nth 0 (nth 0 rows []) 0%R = 5%R /\ nth 1 (nth 0 rows []) 0%R = 0%R /\ nth 2 (nth 0 rows []) 0%R = 2%R /\ nth 2 (nth 1 rows []) 0%R = 3%R.
Proof.
  intros Ar EP L. destruct (@c84_jacobian _ partial along _ _ _ _ _ _ _ _ [2; 3; 5]%R (am_model names Ar L) EP eq_refl (am_defined 2 3 5)) as (rows & E & Lr & _ & H).
  exists rows. split; [exact E|]. split; [exact Lr|]. assert (X : forall k r, k < 3 -> r < 2 -> nth k (nth r rows []) 0%R = am_d 2 3 5 k r) by (intros k r K R; apply (H k (am_d 2 3 5 k) K (am_partials 2 3 5 K) r R)).
  repeat split; rewrite X by lia; reflexivity.
Qed.

(** jax: the loss is half the sum of the squares of the residuals, and the
    gradient its derivative. *)
Theorem c84_gradient :
  forall number_op partial along c vars params equations names rs theta res x,
    array_model number_op c vars params equations names rs theta res -> exact_partial partial ->
    length x = elements_of c vars -> all_defined c (vars ++ params) rs (x ++ theta) ->
    let f := compile_jax_cge_functions number_op partial along c vars params equations names in
    wrap_pytensor_func_for_scipy (jf_resid f) vars params c x theta =
      Ok (/ 2 * sum_to (n_residuals c rs) (fun r => nth r (res x) 0 * nth r (res x) 0))%R /\
    exists grad, wrap_pytensor_func_for_scipy (jf_grad f) vars params c x theta = Ok grad /\ length grad = length x /\
      forall k d, k < length x -> residual_partials c vars params rs theta res x k d ->
        nth k grad 0%R = sum_to (n_residuals c rs) (fun r => nth r (res x) 0 * d r)%R.
Proof. exact @c84_gradient__p. Qed.
Print Assumptions c84_gradient.
(** The residuals are 6 and 10. *)
Example c84_gradient_ex number_op partial along names : real_arithmetic number_op -> exact_partial partial -> length names = 2 ->
  let f := compile_jax_cge_functions number_op partial along am_c am_vars am_params [am_eq] names in
  wrap_pytensor_func_for_scipy (jf_resid f) am_vars am_params am_c [2; 3; 5]%R [4; 5]%R = Ok 68%R /\
  wrap_pytensor_func_for_scipy (jf_grad f) am_vars am_params am_c [2; 3; 5]%R [4; 5]%R = Ok [30; 50; 42]%R.
Proof.
  intros Ar EP L f. destruct (@c84_gradient _ partial along _ _ _ _ _ _ _ _ [2; 3; 5]%R (am_model names Ar L) EP eq_refl (am_defined 2 3 5)) as (E & grad & G & Lg & H).
  split; [unfold f; rewrite E; f_equal; cbn -[IZR]; lra|]. unfold f. rewrite G. f_equal. destruct grad as [|g0 [|g1 [|g2 [|]]]]; try discriminate.
  pose proof (H 0 _ ltac:(cbn; lia) (@am_partials 2 3 5 0 ltac:(lia))) as H0. pose proof (H 1 _ ltac:(cbn; lia) (@am_partials 2 3 5 1 ltac:(lia))) as H1. pose proof (H 2 _ ltac:(cbn; lia) (@am_partials 2 3 5 2 ltac:(lia))) as H2.
  cbn -[IZR] in H0, H1, H2. replace g0 with 30%R by lra. replace g1 with 50%R by lra. replace g2 with 42%R by lra. reflexivity.
Qed.

(** jax: the Hessian of the loss, by the product rule: [J r] is the derivative of
    residual r in element b, [K t r] its derivative in element a when element b
    is t, and [H r] its second derivative. *)
Theorem c84_hessian :
  forall number_op partial along c vars params equations names rs theta res x,
    array_model number_op c vars params equations names rs theta res -> exact_partial partial ->
    length x = elements_of c vars -> all_defined c (vars ++ params) rs (x ++ theta) ->
    let f := compile_jax_cge_functions number_op partial along c vars params equations names in
    exists hess, wrap_pytensor_func_for_scipy (jf_hess f) vars params c x theta = Ok hess /\
      length hess = length x /\ Forall (fun row => length row = length x) hess /\
      forall a b K J H, a < length x -> b < length x ->
        near (nth b x 0%R) (fun t => residual_partials c vars params rs theta res (put b t x) a (K t)) ->
        residual_partials c vars params rs theta res x b J ->
        (forall r, r < n_residuals c rs -> derivable_pt_lim (fun t => K t r) (nth b x 0%R) (H r)) ->
        nth b (nth a hess []) 0%R = sum_to (n_residuals c rs) (fun r => J r * K (nth b x 0) r + nth r (res x) 0 * H r)%R.
Proof. exact @c84_hessian__p. Qed.
Print Assumptions c84_hessian.
Example c84_hessian_ex number_op partial along names : real_arithmetic number_op -> exact_partial partial -> length names = 2 ->
  exists hess, wrap_pytensor_func_for_scipy (jf_hess (compile_jax_cge_functions number_op partial along am_c am_vars am_params [am_eq] names))
                 am_vars am_params am_c [2; 3; 5]%R [4; 5]%R = Ok hess /\ length hess = 3 /\
    nth 2 (nth 0 hess []) 0%R = 16%R /\ nth 2 (nth 2 hess []) 0%R = 13%R.
Proof.
  intros Ar EP L. destruct (@c84_hessian _ partial along _ _ _ _ _ _ _ _ [2; 3; 5]%R (am_model names Ar L) EP eq_refl (am_defined 2 3 5)) as (hess & E & Lh & _ & H).
  exists hess. split; [exact E|]. split; [exact Lh|]. split.
  - rewrite (H 0 2 (fun t => am_d 2 3 t 0) (am_d 2 3 5 2) (fun r => nth r [1; 0] 0)%R); [cbn -[IZR]; lra|cbn; lia|cbn; lia| | |].
    + apply near_true. intros t. apply am_partials. lia.
    + apply am_partials. lia.
    + intros r Hr. change (n_residuals am_c am_rs) with 2 in Hr. apply derivable_line. intros t. destruct r as [|[|]]; [| |lia]; cbn -[IZR]; ring.
  - rewrite (H 2 2 (fun t => am_d 2 3 t 2) (am_d 2 3 5 2) (fun r => 0)%R); [cbn -[IZR]; lra|cbn; lia|cbn; lia| | |].
    + apply near_true. intros t. apply am_partials. lia.
    + apply am_partials. lia.
    + intros r Hr. change (n_residuals am_c am_rs) with 2 in Hr. apply derivable_line. intros t. destruct r as [|[|]]; [| |lia]; cbn -[IZR]; ring.
Qed.

(** jax: the product of the Hessian with a direction: the derivative of the
    gradient when the variables move along p. *)
Theorem c84_hessp :
  forall number_op partial along c vars params equations names rs theta res x p,
    array_model number_op c vars params equations names rs theta res -> exact_partial partial -> exact_along along ->
    length x = elements_of c vars -> all_defined c (vars ++ params) rs (x ++ theta) -> length p = length x ->
    (forall o v, In o (vars ++ params) -> In v vars -> o_name o <> (o_name v ++ "_point")%string) ->
    let f := compile_jax_cge_functions number_op partial along c vars params equations names in
    exists hp, wrap_pytensor_func_for_scipy_p (jf_hessp f) vars params c x p theta = Ok hp /\ length hp = length x /\
      forall a K J H, a < length x ->
        near 0%R (fun h => residual_partials c vars params rs theta res (move x p h) a (K h)) ->
        (forall r, r < n_residuals c rs -> derivable_pt_lim (fun h => nth r (res (move x p h)) 0%R) 0%R (J r)) ->
        (forall r, r < n_residuals c rs -> derivable_pt_lim (fun h => K h r) 0%R (H r)) ->
        nth a hp 0%R = sum_to (n_residuals c rs) (fun r => J r * K 0 r + nth r (res x) 0 * H r)%R.
Proof. exact @c84_hessp__p. Qed.
Print Assumptions c84_hessp.
(** Moving w alone: the last column of the Hessian. *)
Example c84_hessp_ex number_op partial along names : real_arithmetic number_op -> exact_partial partial -> exact_along along -> length names = 2 ->
  exists hp, wrap_pytensor_func_for_scipy_p (jf_hessp (compile_jax_cge_functions number_op partial along am_c am_vars am_params [am_eq] names))
                 am_vars am_params am_c [2; 3; 5]%R [0; 0; 1]%R [4; 5]%R = Ok hp /\ length hp = 3 /\ nth 0 hp 0%R = 16%R.
Proof.
  intros Ar EP EA L. destruct (@c84_hessp _ partial along _ _ _ _ _ _ _ _ [2; 3; 5]%R [0; 0; 1]%R (am_model names Ar L) EP EA eq_refl (am_defined 2 3 5) eq_refl) as (hp & E & Lh & H).
  { intros o v [<-|[<-|[<-|[]]]] [<-|[<-|[]]]; discriminate. }
  exists hp. split; [exact E|]. split; [exact Lh|].
  assert (Mv : forall h, move [2; 3; 5]%R [0; 0; 1]%R h = [2; 3; 5 + h]%R) by (intros h; unfold move; cbn -[IZR]; repeat first [reflexivity|f_equal; [ring|]|f_equal; ring]).
  rewrite (H 0 (fun h => am_d 2 3 (5 + h) 0) (am_d 2 3 5 2) (fun r => nth r [1; 0] 0)%R); [cbn -[IZR]; lra|cbn; lia| | |].
  - apply near_true. intros t. rewrite Mv. apply am_partials. lia.
  - intros r Hr. change (n_residuals am_c am_rs) with 2 in Hr. apply derivable_line. intros t. rewrite !Mv. destruct r as [|[|]]; [| |lia]; cbn -[IZR]; ring.
  - intros r Hr. change (n_residuals am_c am_rs) with 2 in Hr. apply derivable_line. intros t. destruct r as [|[|]]; [| |lia]; cbn -[IZR]; ring.
Qed.

(** pytensor: the same Jacobian, ... *)
Theorem c84_pytensor_jacobian :
  forall number_op partial c vars params equations names rs theta res x,
    array_model number_op c vars params equations names rs theta res -> exact_partial partial ->
    length x = elements_of c vars -> all_defined c (vars ++ params) rs (x ++ theta) -> 0 < n_residuals c rs ->
    let f := compile_pytensor_cge_functions number_op partial c vars params equations names in
    exists jac, wrap_pytensor_func_for_scipy (pf_jac f) vars params c x theta = Ok jac /\ ashape jac = [n_residuals c rs; length x] /\
      forall k d, k < length x -> residual_partials c vars params rs theta res x k d ->
      forall r, r < n_residuals c rs -> aget jac [r; k] = Ok (d r).
Proof. exact @c84_pytensor_jacobian__p. Qed.
Print Assumptions c84_pytensor_jacobian.
Example c84_pytensor_jacobian_ex number_op partial names : real_arithmetic number_op -> exact_partial partial -> length names = 2 ->
  exists jac, wrap_pytensor_func_for_scipy (pf_jac (compile_pytensor_cge_functions number_op partial am_c am_vars am_params [am_eq] names))
                 am_vars am_params am_c [2; 3; 5]%R [4; 5]%R = Ok jac /\ ashape jac = [2; 3] /\ aget jac [0; 2] = Ok 2%R /\ aget jac [1; 0] = Ok 0%R.
Proof.
  intros Ar EP L. destruct (@c84_pytensor_jacobian _ partial _ _ _ _ _ _ _ _ [2; 3; 5]%R (am_model names Ar L) EP eq_refl (am_defined 2 3 5)) as (jac & E & Sj & H); [cbn; lia|].
  exists jac. split; [exact E|]. split; [exact Sj|]. assert (X : forall k r, k < 3 -> r < 2 -> aget jac [r; k] = Ok (am_d 2 3 5 k r)) by (intros k r K R; apply (H k (am_d 2 3 5 k) K (am_partials 2 3 5 K) r R)).
  split; rewrite X by lia; reflexivity.
Qed.

(** ... the same loss and gradient ... *)
Theorem c84_pytensor_gradient :
  forall number_op partial c vars params equations names rs theta res x,
    array_model number_op c vars params equations names rs theta res -> exact_partial partial ->
    length x = elements_of c vars -> all_defined c (vars ++ params) rs (x ++ theta) ->
    let f := compile_pytensor_cge_functions number_op partial c vars params equations names in
    wrap_pytensor_func_for_scipy (pf_resid f) vars params c x theta =
      Ok (/ 2 * sum_to (n_residuals c rs) (fun r => nth r (res x) 0 * nth r (res x) 0))%R /\
    exists grad, wrap_pytensor_func_for_scipy (pf_grad f) vars params c x theta = Ok (mkArr [length x] grad) /\ length grad = length x /\
      forall k d, k < length x -> residual_partials c vars params rs theta res x k d ->
        nth k grad 0%R = sum_to (n_residuals c rs) (fun r => nth r (res x) 0 * d r)%R.
Proof. exact @c84_pytensor_gradient__p. Qed.
Print Assumptions c84_pytensor_gradient.
Example c84_pytensor_gradient_ex number_op partial names : real_arithmetic number_op -> exact_partial partial -> length names = 2 ->
  wrap_pytensor_func_for_scipy (pf_grad (compile_pytensor_cge_functions number_op partial am_c am_vars am_params [am_eq] names))
    am_vars am_params am_c [2; 3; 5]%R [4; 5]%R = Ok (mkArr [3] [30; 50; 42]%R).
Proof.
  intros Ar EP L. destruct (@c84_pytensor_gradient _ partial _ _ _ _ _ _ _ _ [2; 3; 5]%R (am_model names Ar L) EP eq_refl (am_defined 2 3 5)) as (_ & grad & G & Lg & H).
  rewrite G. f_equal. destruct grad as [|g0 [|g1 [|g2 [|]]]]; try discriminate.
  pose proof (H 0 _ ltac:(cbn; lia) (@am_partials 2 3 5 0 ltac:(lia))) as H0. pose proof (H 1 _ ltac:(cbn; lia) (@am_partials 2 3 5 1 ltac:(lia))) as H1. pose proof (H 2 _ ltac:(cbn; lia) (@am_partials 2 3 5 2 ltac:(lia))) as H2.
  cbn -[IZR] in H0, H1, H2. replace g0 with 30%R by lra. replace g1 with 50%R by lra. replace g2 with 42%R by lra. reflexivity.
Qed.

(** ... the same Hessian, and its product (transposed) with any direction. *)
Theorem c84_pytensor_hessian :
  forall number_op partial c vars params equations names rs theta res x,
    array_model number_op c vars params equations names rs theta res -> exact_partial partial ->
    length x = elements_of c vars -> all_defined c (vars ++ params) rs (x ++ theta) -> 0 < length x ->
    let f := compile_pytensor_cge_functions number_op partial c vars params equations names in
    exists hess, wrap_pytensor_func_for_scipy (pf_hess f) vars params c x theta = Ok hess /\ ashape hess = [length x; length x] /\
      (forall a b K J H, a < length x -> b < length x ->
        near (nth b x 0%R) (fun t => residual_partials c vars params rs theta res (put b t x) a (K t)) ->
        residual_partials c vars params rs theta res x b J ->
        (forall r, r < n_residuals c rs -> derivable_pt_lim (fun t => K t r) (nth b x 0%R) (H r)) ->
        aget hess [a; b] = Ok (sum_to (n_residuals c rs) (fun r => J r * K (nth b x 0) r + nth r (res x) 0 * H r)%R)) /\
      (forall p, length p = length x -> (forall o v, In o (vars ++ params) -> In v vars -> o_name o <> (o_name v ++ "_point")%string) ->
        exists hp, wrap_pytensor_func_for_scipy_p (pf_hessp f) vars params c x p theta = Ok hp /\ length hp = length x /\
          forall b, b < length x -> nth b hp 0%R = sum_to (length x) (fun a => elem hess [a; b] * nth a p 0)%R).
Proof. exact @c84_pytensor_hessian__p. Qed.
Print Assumptions c84_pytensor_hessian.
Example c84_pytensor_hessian_ex number_op partial names : real_arithmetic number_op -> exact_partial partial -> length names = 2 ->
  let f := compile_pytensor_cge_functions number_op partial am_c am_vars am_params [am_eq] names in
  exists hess hp, wrap_pytensor_func_for_scipy (pf_hess f) am_vars am_params am_c [2; 3; 5]%R [4; 5]%R = Ok hess /\ aget hess [0; 2] = Ok 16%R /\
    wrap_pytensor_func_for_scipy_p (pf_hessp f) am_vars am_params am_c [2; 3; 5]%R [1; 0; 0]%R [4; 5]%R = Ok hp /\ nth 2 hp 0%R = 16%R.
Proof.
  intros Ar EP L f. destruct (@c84_pytensor_hessian _ partial _ _ _ _ _ _ _ _ [2; 3; 5]%R (am_model names Ar L) EP eq_refl (am_defined 2 3 5)) as (hess & E & Sh & H & P); [cbn; lia|].
  destruct (P [1; 0; 0]%R eq_refl) as (hp & Ep & _ & Hp). { intros o v [<-|[<-|[<-|[]]]] [<-|[<-|[]]]; discriminate. }
  assert (X : aget hess [0; 2] = Ok 16%R).
  { rewrite (H 0 2 (fun t => am_d 2 3 t 0) (am_d 2 3 5 2) (fun r => nth r [1; 0] 0)%R); [f_equal; cbn -[IZR]; lra|cbn; lia|cbn; lia| | |].
    + apply near_true. intros t. apply am_partials. lia.
    + apply am_partials. lia.
    + intros r Hr. change (n_residuals am_c am_rs) with 2 in Hr. apply derivable_line. intros t. destruct r as [|[|]]; [| |lia]; cbn -[IZR]; ring. }
  exists hess, hp. split; [exact E|]. split; [exact X|]. split; [exact Ep|]. rewrite Hp by (cbn; lia). cbn [length sum_to]. unfold elem at 1. rewrite X. cbn [nth]. ring.
Qed.
