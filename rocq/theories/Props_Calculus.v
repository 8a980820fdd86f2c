(** C49, C50: sparse and dense Jacobians; gradient, Hessian, Hessian product. *)
From Coq Require Import Reals Lra.
From Verif Require Import Py PyStr M_SymExpr M_Calculus S_Calculus L_Calculus L_Calculus2.
Local Open Scope string_scope.
Local Open Scope list_scope.

Ltac pows := try change (Pos.to_nat 1) with 1; try change (Pos.to_nat 2) with 2; try change (Pos.to_nat 3) with 3; cbn [pow].

(** The system of the examples: x*y - a, log(x) - y**2 *)
Definition exc_eqs : list sexpr :=
  [SBin OSub (SBin OMul (SSym "x") (SSym "y")) (SSym "a");
   SBin OSub (SFun FLog (SSym "x")) (SBin OPow (SSym "y") (SNum 2))].
Definition exc_v (s : string) : R := if String.eqb s "y" then 3%R else 1%R.
Definition exc_p (b : string) (l : list idx) : R := 1%R.
Example exc_smooth : Forall (smooth exc_v exc_p) exc_eqs.
Proof. repeat constructor; cbn; try lra. Qed.

Theorem c49_same_matrix :
  forall eqs wrt, eqs <> [] -> wrt <> [] ->
  exists J dok, make_sympy_jacobian (SysList eqs) wrt = Ok J /\
    sparse_jacobian (SysList eqs) wrt = Ok ((length eqs, length wrt), dok) /\
    sparse_jacobian (SysMatrix (map (fun e => [e]) eqs)) wrt = Ok ((length eqs, length wrt), dok) /\
    NoDup (map fst dok) /\
    (forall i j d, In ((i, j), d) dok -> i < length eqs /\ j < length wrt) /\
    forall i j, i < length eqs -> j < length wrt -> forall v p,
      val v p (dok_get dok i j) = val v p (nth j (nth i J []) (SNum 0)).
Proof. exact @c49_same_matrix__p. Qed.
Print Assumptions c49_same_matrix.
(** The second equation does not mention a: its entry is not stored *)
Example c49_same_matrix_ex :
  exc_eqs <> [] /\ ["x"; "a"] <> [] /\
  (exists dok, sparse_jacobian (SysList exc_eqs) ["x"; "a"] = Ok ((2, 2), dok) /\ map fst dok = [(0, 0); (0, 1); (1, 0)] /\ dok_get dok 1 1 = SNum 0).
Proof. split; [discriminate|]. split; [discriminate|]. eexists. split; [reflexivity|]. split; reflexivity. Qed.

Theorem c49_shapes_refuted :
  (exists eqs wrt J, make_sympy_jacobian (SysMatrix [eqs]) wrt = Ok J /\ sparse_jacobian (SysMatrix [eqs]) wrt = Err ValueError) /\
  (exists eqs, make_sympy_jacobian (SysList eqs) [] = Err TypeError /\ exists r, sparse_jacobian (SysList eqs) [] = Ok r).
Proof. exact @c49_shapes_refuted__p. Qed.
Print Assumptions c49_shapes_refuted.
Example c49_shapes_refuted_ex :
  make_sympy_jacobian (SysMatrix [[SSym "x"; SSym "y"]]) ["x"] = Ok [[SNum 1]; [SNum 0]] /\
  sparse_jacobian (SysMatrix [[SSym "x"; SSym "y"]]) ["x"] = Err ValueError.
Proof. split; reflexivity. Qed.

Theorem c50_jacobian :
  forall eqs wrt, eqs <> [] -> wrt <> [] ->
  exists J, make_sympy_jacobian (SysList eqs) wrt = Ok J /\ length J = length eqs /\
    forall i j e x, nth_error eqs i = Some e -> nth_error wrt j = Some x ->
      exists row d, nth_error J i = Some row /\ length row = length wrt /\ nth_error row j = Some d /\
        forall v p, smooth v p e -> partial_derivative v p x e (val v p d).
Proof. exact @c50_jacobian__p. Qed.
Print Assumptions c50_jacobian.
Example c50_jacobian_ex :
  exists J, make_sympy_jacobian (SysList exc_eqs) ["x"; "y"] = Ok J /\
    map (map (val exc_v exc_p)) J = [[3; 1]; [1; -6]]%R.
Proof.
  eexists. split; [reflexivity|]. cbn; unfold exc_v; cbn; repeat match goal with |- _ :: _ = _ :: _ => f_equal | |- [] = [] => reflexivity end; pows; lra.
Qed.

Theorem c50_gradient :
  forall eqs wrt,
    let loss := squared_loss eqs in
    let grad := make_sympy_gradient loss wrt in
    length grad = length wrt /\
    (forall v p, val v p loss = (/ 2 * rsum (map (fun e => val v p e * val v p e) eqs))%R) /\
    forall j x, nth_error wrt j = Some x ->
      exists g, nth_error grad j = Some g /\
        forall v p, Forall (smooth v p) eqs ->
          partial_derivative v p x loss (val v p g) /\
          forall J, make_sympy_jacobian (SysList eqs) wrt = Ok J ->
            val v p g = rsum (map (fun rf => val v p (nth j (fst rf) (SNum 0)) * val v p (snd rf)) (combine J eqs))%R.
Proof. exact @c50_gradient__p. Qed.
Print Assumptions c50_gradient.
(** The loss at x = 1, y = 3, a = 1 is (2^2 + 9^2)/2 and its slope in x is 3*2 + 1*(-9) *)
Example c50_gradient_ex :
  val exc_v exc_p (squared_loss exc_eqs) = (85 / 2)%R /\
  map (val exc_v exc_p) (make_sympy_gradient (squared_loss exc_eqs) ["x"; "y"]) = [-3; 56]%R /\
  Forall (smooth exc_v exc_p) exc_eqs.
Proof. split; [|split; [|exact exc_smooth]]; cbn; unfold exc_v; cbn; rewrite ?ln_1; repeat match goal with |- _ :: _ = _ :: _ => f_equal | |- [] = [] => reflexivity end; pows; lra. Qed.

Theorem c50_hessian :
  forall eqs wrt, wrt <> [] ->
    let grad := make_sympy_gradient (squared_loss eqs) wrt in
    exists H, make_sympy_jacobian (SysMatrix (map (fun g => [g]) grad)) wrt = Ok H /\ length H = length wrt /\
      (forall j k g x, nth_error grad j = Some g -> nth_error wrt k = Some x ->
        exists row h, nth_error H j = Some row /\ length row = length wrt /\ nth_error row k = Some h /\
          forall v p, Forall (smooth v p) eqs -> partial_derivative v p x g (val v p h)) /\
      (forall v p, Forall (smooth v p) eqs -> forall j k, j < length wrt -> k < length wrt ->
         val v p (nth k (nth j H []) (SNum 0)) = val v p (nth j (nth k H []) (SNum 0))).
Proof. exact @c50_hessian__p. Qed.
Print Assumptions c50_hessian.
(** d2/dx2 of the loss: 3*3 + 1*1 + (-9)*(-1) *)
Example c50_hessian_ex :
  ["x"; "y"] <> [] /\ Forall (smooth exc_v exc_p) exc_eqs /\
  exists H, make_sympy_jacobian (SysMatrix (map (fun g => [g]) (make_sympy_gradient (squared_loss exc_eqs) ["x"; "y"]))) ["x"; "y"] = Ok H /\
    val exc_v exc_p (nth 0 (nth 0 H []) (SNum 0)) = 19%R /\ val exc_v exc_p (nth 1 (nth 0 H []) (SNum 0)) = (-1)%R.
Proof.
  split; [discriminate|]. split; [exact exc_smooth|]. eexists. split; [reflexivity|].
  split; cbn; unfold exc_v; cbn; rewrite ?ln_1; pows; lra.
Qed.

Theorem c50_hessp :
  forall eqs wrt, wrt <> [] ->
    let grad := make_sympy_gradient (squared_loss eqs) wrt in
    forall H, make_sympy_jacobian (SysMatrix (map (fun g => [g]) grad)) wrt = Ok H ->
    forall j, j < length wrt ->
      exists h, nth_error (make_sympy_hessp grad wrt) j = Some h /\
        forall v p, Forall (smooth v p) eqs ->
          val v p h = rsum (map (fun i => val v p (nth i (nth j H []) (SNum 0)) * p "hess_point" [IPos i])%R (seq 0 (length wrt))).
Proof. exact @c50_hessp__p. Qed.
Print Assumptions c50_hessp.
Example c50_hessp_ex :
  map (val exc_v exc_p) (make_sympy_hessp (make_sympy_gradient (squared_loss exc_eqs) ["x"; "y"]) ["x"; "y"]) = [18; 54]%R.
Proof. cbn; unfold exc_v, exc_p; cbn; rewrite ?ln_1; repeat match goal with |- _ :: _ = _ :: _ => f_equal | |- [] = [] => reflexivity end; pows; lra. Qed.
