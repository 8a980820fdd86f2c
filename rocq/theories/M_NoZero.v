(** The promise that products have no zeros
    (/repo/cge_modeling/compile/pytensor_tools.py:17-38). The rewrite is
    registered for all graphs; cge_modeling/__init__.py:6 imports it.

    External, and fixed here as pytensor documents it: a replacement of another
    number of dims is refused by the graph and reported, and the derivative of a
    product is the product divided by the element if zeros are excluded, and the
    product of the other elements otherwise. Element types are left out. *)
From Coq Require Import Reals.
From Verif Require Import Py NdArray M_Tensor.
Local Open Scope list_scope.

(** pytensor.tensor.math.Prod: its axis (None: all) and no_zeros_in_input
    (compile/pytensor_tools.py:27-29) *)
Record prod_op := MkProd { p_axis : option nat; p_no_zeros : bool }.

(** compile/pytensor_tools.py:17-30: the new Op is made without the axis *)
Definition prod_to_no_zero_prod (op : prod_op) : option prod_op :=
  if p_no_zeros op then None else Some (MkProd None true).

(** Dims of the result for an input of [ndim] dims (compile/pytensor_tools.py:30) *)
Definition out_ndim (ndim : nat) (op : prod_op) : nat := match p_axis op with None => 0 | Some _ => ndim - 1 end.

(** The node after the rewrites of compile/pytensor_tools.py:33-37 *)
Definition stabilized (ndim : nat) (op : prod_op) : prod_op :=
  match prod_to_no_zero_prod op with
  | Some new_op => if Nat.eqb (out_ndim ndim new_op) (out_ndim ndim op) then new_op else op
  | None => op
  end.

(** The value of the node (compile/pytensor_tools.py:28-30) *)
Definition prod_value (op : prod_op) (x : arr R) : res (arr R) :=
  match p_axis op with None => Ok (reduce_all Rmult 1%R x) | Some k => reduce_axis Rmult 1%R k x end.

(** The derivative of the product of [line] in its element [i], as pytensor
    computes it; None is nan, 0/0 (compile/pytensor.py:176, compile/pytensor_tools.py:20-22) *)
Definition prod_derivative (op : prod_op) (line : list R) (i : nat) : option R :=
  match nth_error line i with
  | None => None
  | Some v =>
      if p_no_zeros op
      then if Req_EM_T v 0 then None else Some (fold_right Rmult 1 line / v)%R
      else Some (fold_right Rmult 1 (firstn i line) * fold_right Rmult 1 (skipn (S i) line))%R
  end.
