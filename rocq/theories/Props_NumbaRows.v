(** C118: the rows of the compiled Euler approximation for all equations. *)
From Coq Require Import Reals Lra.
From Verif Require Import Py PyStr M_SymExpr M_Calculus L_Calculus S_Reduce L_Reduce5 M_Lambdify S_Lambdify L_Lambdify M_NumbaStep M_Euler S_Euler S_Converge M_NumbaEuler
  Props_Converge Props_Trace L_NumbaRows.
Local Open Scope string_scope.
Local Open Scope list_scope.
Local Open Scope R_scope.

(** C118 *)
Theorem c118_rows :
  forall sub_into dict_order cse linalg_solve use_rk4 variables parameters equations x0 theta0 theta1 n rows,
    length theta1 = length theta0 ->
    numba_euler sub_into dict_order cse linalg_solve use_rk4 variables parameters equations x0 theta0 theta1 n = Ok rows ->
    use_rk4 = false /\ length rows = S n /\ nth_error rows 0 = Some (x0 ++ theta0) /\
    forall k, (k <= n)%nat -> exists x, length x = length x0 /\ nth_error rows k = Some (x ++ line theta0 theta1 (INR k / INR n)).
Proof. exact @c118_rows__p. Qed.
Print Assumptions c118_rows.

(** The tax model of [Props_Trace] in many steps *)
Example c118_rows_ex : exists N, forall n, (N <= n)%nat -> exists rows x,
  numba_euler sympy_rule (uniq pair_eqb) no_cse tx_solve false ["p"] ["a"] [wx_eq] [1] [0] [1] n = Ok rows /\ length rows = S n /\
  nth_error rows n = Some [x; INR n / INR n].
Proof.
  destruct c118_rate_ex as (C & N & _ & H). exists N. intros n Hn. destruct (H n Hn) as (rows & _ & E & _). exists rows.
  destruct (@c118_rows sympy_rule (uniq pair_eqb) no_cse tx_solve false ["p"] ["a"] [wx_eq] [1] [0] [1] n rows eq_refl E) as (_ & L & _ & K).
  destruct (K n (le_n n)) as ([|x [|]] & Lx & Ex); try discriminate. exists x. split; [exact E|]. split; [exact L|]. rewrite Ex. unfold line. cbn. do 3 f_equal. ring.
Qed.
