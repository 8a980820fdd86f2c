(** The pytensor Ops made from a model, and renamed clones of tensors
    (/repo/cge_modeling/compile/pytensor.py:361-395, compile/pytensor_tools.py:40-61). *)
From Coq Require Import Reals.
From Verif Require Import Py PyStr NdArray M_Primitives M_PyExpr M_Euler M_Jacobian M_Tensor M_ArrayModel.
Local Open Scope string_scope.
Local Open Scope list_scope.

(** An OpFromGraph with inputs of these static shapes applied to constant arrays
    (compile/pytensor.py:392-393; pytensor's make_node): ValueError for another
    number of arguments, TypeError for an array of another shape. Applications to
    symbolic arguments are not modelled. *)
Definition op_call {W} (shapes : list (list nat)) (f : list (arr R) -> res W) (args : list (arr R)) : res W :=
  if negb (Nat.eqb (length args) (length shapes)) then Err ValueError
  else if forallb (fun sa => if list_eq_dec Nat.eq_dec (fst sa) (ashape (snd sa)) then true else false) (combine shapes args) then f args
  else Err TypeError.

(** The elements of arrays, one after the other (compile/pytensor_tools.py:254-256) *)
Definition elements (arrays : list (arr R)) : list R := List.concat (map adata arrays).

Section Ops.
Variable number_op : binop -> R -> R -> R.
Variable partial : (list R -> R) -> list R -> nat -> R.
Variables (c : coords) (variables parameters : list mobj) (equations names : list string).

(** compile/pytensor.py:361-395 compile_cge_model_to_pytensor_Op: the Op of the
    residuals and the Op of the Jacobian. Simplified: an equation that cannot be
    evaluated raises when the Op is called, not when it is made. *)
Definition compile_cge_model_to_pytensor_Op : res ((list (arr R) -> res (list R)) * (list (arr R) -> res (arr R))) :=
  let* x_shapes := map_res (object_shape c) variables in
  let* theta_shapes := map_res (object_shape c) parameters in
  let inputs := x_shapes ++ theta_shapes in
  let n := length variables in
  Ok (op_call inputs (f_system number_op c variables parameters equations names),
      op_call inputs (fun args => pytensor_jacobian partial c variables (f_sys_wrapped number_op c variables parameters equations names)
                                                    (elements (firstn n args)) (elements (skipn n args)))).
End Ops.

(** A tensor variable: its name and its type (compile/pytensor_tools.py:59-61) *)
Record tensor := MkTensor { t_name : string; t_shape : list nat }.
(** compile/pytensor_tools.py:40-61 clone_and_rename *)
Definition clone_and_rename (x : tensor) (suffix : string) : tensor := MkTensor (t_name x ++ suffix) (t_shape x).
