(** C41: the numba Euler step and the names of its symbols. *)
From Coq Require Import Reals Lra.
From Verif Require Import Py PyStr M_SymExpr M_Calculus S_Calculus S_Reduce M_Lambdify S_Lambdify M_NumbaStep L_Reduce5 L_Calculus L_Lambdify L_NumbaStep.
Local Open Scope string_scope.
Local Open Scope list_scope.

Theorem c41_step :
  forall sub_into dict_order cse linalg_solve, walks_set dict_order -> eliminates cse ->
  forall variables parameters equations xs thetas step,
    let names := variables ++ parameters in
    let state := state_of names (xs ++ thetas) in
    NoDup names ->
    (forall n m, In n names -> In m names -> n <> (m ++ "_0")%string) ->
    (forall n, In n names -> is_name n = true) -> (forall n, In n parameters -> ~ In n reserved) ->
    equations <> [] -> variables <> [] ->
    (forall e, In e equations -> indexed_exprs e = [] /\ forall s, In s (atoms e) -> In s names) ->
    length xs = length variables -> length thetas = length parameters -> length step = length parameters ->
    forall p D,
    (forall e, In e equations -> smooth state p e) ->
    (forall e x, In e equations -> In x names -> partial_derivative state p x e (D x e)) ->
    f_dX sub_into dict_order cse linalg_solve variables parameters equations step (xs ++ thetas) =
      Ok (map Ropp (linalg_solve
            (map (fun e => map (fun x => D x e) variables) equations)
            (map (fun e => rsum (map (fun jx => D (fst jx) e * snd jx)%R (combine parameters step))) equations))).
Proof. exact @c41_step__p. Qed.
Print Assumptions c41_step.
(** 2*X - b = 0 at X = 1, b = 2, step in b of 4: the slopes are 2 and -1 *)
Definition exn_eq : sexpr := SBin OSub (SBin OMul (SNum 2) (SSym "X")) (SSym "b").
Definition exn_D (x : string) (e : sexpr) : R := if String.eqb x "X" then 2%R else (-1)%R.
Example c41_step_ex :
  walks_set (uniq pair_eqb) /\ NoDup (["X"] ++ ["b"]) /\
  (forall n m, In n ["X"; "b"] -> In m ["X"; "b"] -> n <> (m ++ "_0")%string) /\
  eliminates no_cse /\ (forall n, In n ["X"; "b"] -> is_name n = true) /\ (forall n, In n ["b"] -> ~ In n reserved) /\
  (forall p, smooth (state_of ["X"; "b"] [1; 2]%R) p exn_eq) /\
  (forall p x, In x ["X"; "b"] -> partial_derivative (state_of ["X"; "b"] [1; 2]%R) p x exn_eq (exn_D x exn_eq)) /\
  (forall solve, f_dX sympy_rule (uniq pair_eqb) no_cse solve ["X"] ["b"] [exn_eq] [4%R] [1; 2]%R = Ok (map Ropp (solve [[2%R]] [(-4)%R]))).
Proof.
  assert (A : forall p x, In x ["X"; "b"] -> partial_derivative (state_of ["X"; "b"] [1; 2]%R) p x exn_eq (exn_D x exn_eq)).
  { intros p x Hx. assert (Sm : smooth (state_of ["X"; "b"] [1; 2]%R) p exn_eq) by (cbn; tauto).
    assert (H := @deriv_val (state_of ["X"; "b"] [1; 2]%R) p x exn_eq Sm). unfold partial_derivative.
    destruct Hx as [<-|[<-|[]]]; (eapply eq_rect; [exact H|]; unfold exn_D; cbn; lra). }
  split; [apply (uniq_walks pair_eqb pair_eqb_eq)|].
  split; [repeat constructor; cbn; intuition discriminate|].
  split; [intros n m [<-|[<-|[]]] [<-|[<-|[]]]; discriminate|].
  split; [apply no_cse_ok|]. split; [intros n [<-|[<-|[]]]; reflexivity|]. split; [intros n [<-|[]]; cbn; intuition discriminate|].
  split; [intros p; cbn; tauto|]. split; [exact A|].
  intros solve. change [1; 2]%R with ([1%R] ++ [2%R]). rewrite (@c41_step sympy_rule (uniq pair_eqb) no_cse solve (uniq_walks pair_eqb pair_eqb_eq) no_cse_ok ["X"] ["b"] [exn_eq] [1%R] [2%R] [4%R]) with (p := fun _ _ => 0%R) (D := exn_D); auto; try discriminate.
  - cbn. do 6 f_equal. lra.
  - repeat constructor; cbn; intuition discriminate.
  - intros n m [<-|[<-|[]]] [<-|[<-|[]]]; discriminate.
  - intros n [<-|[<-|[]]]; reflexivity.
  - intros n [<-|[]]; cbn; intuition discriminate.
  - intros e [<-|[]]. split; [reflexivity|]. cbn. tauto.
  - intros e [<-|[]]. cbn. tauto.
  - intros e x [<-|[]] Hx. now apply A.
Qed.

Theorem c41_name_capture_refuted :
  exists variables parameters equations, NoDup (variables ++ parameters) /\
    (forall e, In e equations -> forall s, In s (atoms e) -> In s (variables ++ parameters)) /\
    forall sub_into dict_order cse linalg_solve, walks_set dict_order -> eliminates cse ->
    forall x theta step : R,
      f_dX sub_into dict_order cse linalg_solve variables parameters equations [step] [x; theta] = Ok (map Ropp (linalg_solve [[1%R]] [(- x)%R])) /\
      (forall v p, val v p (diff "X" (nth 0 equations (SNum 0))) = 1%R /\ (val v p (diff "X_0" (nth 0 equations (SNum 0))) * step)%R = (- step)%R).
Proof. exact @c41_name_capture_refuted__p. Qed.
Print Assumptions c41_name_capture_refuted.
(** X - X_0 = 0: the step in X_0 is replaced by the current value of X *)
Example c41_name_capture_refuted_ex :
  forall solve, f_dX sympy_rule (uniq pair_eqb) no_cse solve ["X"] ["X_0"] [SBin OSub (SSym "X") (SSym "X_0")] [1%R] [5; 5]%R = Ok (map Ropp (solve [[1%R]] [(-5)%R])).
Proof.
  intros solve. replace (-5)%R with (0 + (0 - 1) * 5)%R by lra. replace [[1%R]] with [[(1 - 0)%R]] by (repeat f_equal; lra). reflexivity.
Qed.

Theorem c41_reserved_name_refuted :
  exists variables parameters equations, NoDup (variables ++ parameters) /\
    (forall e, In e equations -> forall s, In s (atoms e) -> In s (variables ++ parameters)) /\
    forall sub_into dict_order cse linalg_solve (x t1 t2 s1 s2 : R), eliminates cse ->
      f_dX sub_into dict_order cse linalg_solve variables parameters equations [s1; s2] [x; t1; t2] = Err TypeError.
Proof. exact @c41_reserved_name_refuted__p. Qed.
Print Assumptions c41_reserved_name_refuted.
Example c41_reserved_name_refuted_ex :
  forall solve, f_dX sympy_rule (uniq pair_eqb) no_cse solve ["X"] ["exog_inputs"; "b"] [SBin OSub (SSym "X") (SSym "b")] [1; 1]%R [2; 1; 2]%R = Err TypeError.
Proof. reflexivity. Qed.
