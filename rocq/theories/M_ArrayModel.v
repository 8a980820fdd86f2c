(** The functions that the jax and pytensor backends compile from the array
    equations, with their derivatives (/repo/cge_modeling/compile/jax.py:29-64,
    118-203, compile/pytensor.py:109-225, 272-330).

    The differentiation rules of jax and pytensor are not modelled: [partial f x k]
    stands for the derivative of [f] at [x] in coordinate [k] that jax.jacobian,
    jax.grad, jax.jacfwd, pytensor.grad and pytensor.gradient.jacobian return, and
    [along f x p] for the derivative in direction [p] that jax.jvp returns. jax.jit
    and the graph rewrites are taken not to change values. *)
From Coq Require Import Reals.
From Verif Require Import Py PyStr NdArray M_Primitives M_PyExpr M_Utilities M_Wrappers M_Euler M_Jacobian M_Tensor.
Local Open Scope list_scope.

(** The value of a call inside a differentiated function (compile/jax.py:62, 131, 136, 142) *)
Definition vector (r : res (list R)) : list R := match r with Ok l => l | Err _ => [] end.
(** compile/jax.py:131 *)
Definition number_value (r : res R) : R := match r with Ok x => x | Err _ => 0%R end.

Section Backends.
Variable number_op : binop -> R -> R -> R.
Variable partial : (list R -> R) -> list R -> nat -> R.
Variable along : (list R -> R) -> list R -> list R -> R.

Section Model.
Variables (c : coords) (variables parameters : list mobj) (equations names : list string).

(** compile/jax.py:29-49 graph_to_jax_function of the system: a function of the
    arrays of the variables and the parameters, in this order *)
Definition f_system (arrays : list (arr R)) : res (list R) :=
  pytensor_system number_op c (variables ++ parameters) equations names (combine (map o_name (variables ++ parameters)) arrays).

(** compile/jax.py:56-60 f_sys_wrapped *)
Definition f_sys_wrapped (x theta : list R) : res (list R) :=
  let* x_shapes := map_res (object_shape c) variables in
  let* theta_shapes := map_res (object_shape c) parameters in
  let* xs := ragged x 0 x_shapes in
  let* thetas := ragged theta 0 theta_shapes in
  f_system (xs ++ thetas).

(** jax.jacobian and jax.jacfwd of a function of two vectors, in the first
    (compile/jax.py:62, 136): one row per output *)
Definition jacobian (f : list R -> list R -> res (list R)) (x theta : list R) : res (list (list R)) :=
  let* y := f x theta in
  Ok (map (fun r => map (partial (fun x' => nth r (vector (f x' theta)) 0%R) x) (seq 0 (length x))) (seq 0 (length y))).

(** compile/jax.py:119-129 f_loss_wrapped; x**2 is x * x *)
Definition f_loss_wrapped (x theta : list R) : res R :=
  let* y := f_sys_wrapped x theta in Ok (/ 2 * fold_right Rplus 0 (map (fun r => r * r) y))%R.

(** compile/jax.py:131-134 f_grad_jax; jnp.stack of a vector is the vector *)
Definition f_grad_jax (x theta : list R) : res (list R) :=
  let* _ := f_loss_wrapped x theta in
  Ok (map (partial (fun x' => number_value (f_loss_wrapped x' theta)) x) (seq 0 (length x))).

(** compile/jax.py:136-139 f_hess_jax *)
Definition f_hess_jax (x theta : list R) : res (list (list R)) := jacobian f_grad_jax x theta.

(** compile/jax.py:141-143 f_hessp_jax; jax.jvp refuses tangents of another shape *)
Definition f_hessp_jax (x p theta : list R) : res (list R) :=
  let* g := f_grad_jax x theta in
  if Nat.eqb (length p) (length x)
  then Ok (map (fun a => along (fun x' => nth a (vector (f_grad_jax x' theta)) 0%R) x p) (seq 0 (length g)))
  else Err TypeError.

(** compile/jax.py:148-203 compile_jax_cge_functions: the functions of keyword
    arguments asked for by "root" and "minimize" *)
Record jax_functions := MkJax {
  jf_jac : dict (arr R) -> res (list (list R));
  jf_resid : dict (arr R) -> res R;
  jf_grad : dict (arr R) -> res (list R);
  jf_hess : dict (arr R) -> res (list (list R));
  jf_hessp : dict (arr R) -> res (list R) }.
(** compile/jax.py:148-203 *)
Definition compile_jax_cge_functions : jax_functions :=
  MkJax (wrap_scipy_func_for_pytensor (jacobian f_sys_wrapped) variables parameters)
        (wrap_scipy_func_for_pytensor f_loss_wrapped variables parameters)
        (wrap_scipy_func_for_pytensor f_grad_jax variables parameters)
        (wrap_scipy_func_for_pytensor f_hess_jax variables parameters)
        (wrap_scipy_func_for_pytensor_hessp f_hessp_jax variables parameters).

(** ** The pytensor backend

    The compiled functions take the arrays themselves. Simplified: they are
    written as functions of the two vectors of their elements, as in the scipy
    wrapper; np.concatenate then needs at least one variable and one parameter. *)

(** the number of the element [idx] of the [j]-th array among all elements
    (the order in which pytensor.gradient.jacobian and ravel list them,
    compile/pytensor_tools.py:254-256) *)
Definition coordinate (shapes : list (list nat)) (j : nat) (idx : list nat) : nat :=
  list_sum (map prodn (firstn j shapes)) + offset (nth j shapes []) idx.

(** pytensor.gradient.jacobian of the outputs of [f] in the arrays of the
    variables (compile/pytensor_tools.py:254) *)
Definition array_partial (f : list R -> list R -> res (list R)) (shapes : list (list nat)) (x theta : list R) (e j : nat) (idx : list nat) : R :=
  partial (fun x' => nth e (vector (f x' theta)) 0%R) x (coordinate shapes j idx).

(** compile/pytensor.py:130-150 compile_pytensor_jacobian_function, and with the
    gradient in place of the system 192-209 compile_pytensor_hess_function *)
Definition pytensor_jacobian (f : list R -> list R -> res (list R)) (x theta : list R) : res (arr R) :=
  let* shapes := map_res (object_shape c) variables in
  let* y := f x theta in
  make_jacobian (array_partial f shapes x theta) (length y) shapes.

(** compile/pytensor.py:170-189 compile_pytensor_gradient_function *)
Definition pytensor_gradient (x theta : list R) : res (arr R) :=
  let* shapes := map_res (object_shape c) variables in
  let* _ := f_loss_wrapped x theta in
  make_gradient (fun j idx => partial (fun x' => number_value (f_loss_wrapped x' theta)) x (coordinate shapes j idx)) shapes
                (list_sum (map prodn shapes)).

(** The gradient as the vector that is differentiated again (compile/pytensor.py:178, 192-225) *)
Definition gradient_vector (x theta : list R) : res (list R) :=
  let* g := pytensor_gradient x theta in Ok (adata g).

(** compile/pytensor.py:212-225 compile_pytensor_hessp_function, with the values
    of the inputs <name>_point (make_jvp, 75-106) *)
Definition pytensor_hessp (x p theta : list R) : res (list R) :=
  let* shapes := map_res (object_shape c) variables in
  let* points := ragged p 0 shapes in
  let* g := gradient_vector x theta in
  make_jvp (array_partial gradient_vector shapes x theta) (length g) shapes None points.

(** compile/pytensor.py:272-358 compile_pytensor_cge_functions: the functions of
    keyword arguments asked for by "root" and "minimize" *)
Record pytensor_functions := MkPytensor {
  pf_jac : dict (arr R) -> res (arr R);
  pf_resid : dict (arr R) -> res R;
  pf_grad : dict (arr R) -> res (arr R);
  pf_hess : dict (arr R) -> res (arr R);
  pf_hessp : dict (arr R) -> res (list R) }.
(** compile/pytensor.py:272-358 *)
Definition compile_pytensor_cge_functions : pytensor_functions :=
  MkPytensor (wrap_scipy_func_for_pytensor (pytensor_jacobian f_sys_wrapped) variables parameters)
             (wrap_scipy_func_for_pytensor f_loss_wrapped variables parameters)
             (wrap_scipy_func_for_pytensor pytensor_gradient variables parameters)
             (wrap_scipy_func_for_pytensor (pytensor_jacobian gradient_vector) variables parameters)
             (wrap_scipy_func_for_pytensor_hessp pytensor_hessp variables parameters).
End Model.
End Backends.
