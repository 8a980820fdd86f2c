(** C95: the promise that products have no zeros. *)
From Coq Require Import Reals Lra.
From Verif Require Import Py NdArray M_Tensor M_NoZero S_NoZero L_NoZero.
Local Open Scope list_scope.

(** A table of two rows and three columns *)
Definition nz_table : arr R := mkArr [2; 3] [1; 2; 3; 4; 5; 6]%R.

Theorem c95_value :
  forall (op : prod_op) (x : arr R),
  arr_wf x -> (forall k, p_axis op = Some k -> k < length (ashape x)) ->
  prod_value (stabilized (length (ashape x)) op) x = prod_value op x.
Proof. exact @c95_value__p. Qed.
Print Assumptions c95_value.
Example c95_value_ex :
  arr_wf nz_table /\
  stabilized 2 (MkProd None false) = MkProd None true /\ prod_value (MkProd None true) nz_table = Ok (mkArr [] [1 * (2 * (3 * (4 * (5 * (6 * 1)))))]%R) /\
  stabilized 2 (MkProd (Some 0) false) = MkProd (Some 0) false /\
  prod_value (MkProd (Some 0) false) nz_table = Ok (mkArr [3] [1 * (4 * 1); 2 * (5 * 1); 3 * (6 * 1)]%R) /\
  stabilized 1 (MkProd (Some 0) false) = MkProd None true.
Proof. repeat split; reflexivity. Qed.
Theorem c95_axis_refuted :
  forall (k : nat) (x y : arr R) (op : prod_op),
  2 <= length (ashape x) -> prod_to_no_zero_prod (MkProd (Some k) false) = Some op -> prod_value (MkProd (Some k) false) x = Ok y ->
  exists z, prod_value op x = Ok z /\ length (ashape z) = 0 /\ length (ashape y) = length (ashape x) - 1 /\ z <> y /\
            stabilized (length (ashape x)) (MkProd (Some k) false) = MkProd (Some k) false.
Proof. exact @c95_axis_refuted__p. Qed.
Print Assumptions c95_axis_refuted.
Example c95_axis_refuted_ex :
  prod_to_no_zero_prod (MkProd (Some 1) false) = Some (MkProd None true) /\
  prod_value (MkProd (Some 1) false) nz_table = Ok (mkArr [2] [1 * (2 * (3 * 1)); 4 * (5 * (6 * 1))]%R) /\ 2 <= length (ashape nz_table).
Proof. split; [reflexivity|]. split; [reflexivity|]. apply Nat.leb_le. reflexivity. Qed.
Theorem c95_derivative :
  forall (ndim : nat) (op : prod_op) (line : list R) (i : nat),
  i < length line -> ~ In 0%R line ->
  exists d, prod_derivative (stabilized ndim op) line i = Some d /\ product_derivative line i d.
Proof. exact @c95_derivative__p. Qed.
Print Assumptions c95_derivative.
Example c95_derivative_ex :
  prod_derivative (stabilized 1 (MkProd None false)) [2; 5; 7]%R 1 = Some 14%R /\ ~ In 0%R [2; 5; 7]%R.
Proof.
  split.
  - unfold prod_derivative. cbn [stabilized prod_to_no_zero_prod p_no_zeros out_ndim p_axis Nat.eqb nth_error].
    destruct (Req_EM_T 5 0); [lra|]. apply f_equal. cbn [fold_right]. field.
  - intros [H|[H|[H|[]]]]; lra.
Qed.
Theorem c95_zero_refuted :
  forall (ndim i : nat) (line : list R),
  nth_error line i = Some 0%R ->
  exists d, product_derivative line i d /\
            prod_derivative (MkProd None false) line i = Some d /\
            prod_derivative (stabilized ndim (MkProd None false)) line i = None /\
            (forall k, 2 <= ndim -> prod_derivative (stabilized ndim (MkProd (Some k) false)) line i = Some d).
Proof. exact @c95_zero_refuted__p. Qed.
Print Assumptions c95_zero_refuted.
Example c95_zero_refuted_ex :
  nth_error [3; 0; 7]%R 1 = Some 0%R /\ product_derivative [3; 0; 7]%R 1 21%R /\
  prod_derivative (stabilized 1 (MkProd None false)) [3; 0; 7]%R 1 = None.
Proof.
  destruct (@c95_zero_refuted__p 1 1 [3; 0; 7]%R eq_refl) as (d & D & E & N & _).
  split; [reflexivity|]. split; [|exact N].
  unfold prod_derivative in E. cbn [nth_error p_no_zeros firstn skipn fold_right] in E. apply (f_equal (fun o => match o with Some d => d | None => 0%R end)) in E.
  replace 21%R with d; [exact D|]. rewrite <- E. ring.
Qed.
