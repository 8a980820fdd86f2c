(** C51: recursive calibration. *)
From Coq Require Import Reals Lra.
From Verif Require Import Py PyStr M_SymExpr M_Calculus S_Reduce M_Recursive S_Recursive L_Recursive L_Recursive2.
Local Open Scope string_scope.
Local Open Scope list_scope.

Theorem c51_solution :
  forall simplify evalf solve, good_simplify simplify -> good_evalf evalf ->
  forall equations known max_iter v0,
    (forall s c, dget s known = Some c -> constant c) -> agrees v0 known ->
    (forall e, In e equations -> holds v0 e) ->
    (forall e x, reduced simplify v0 equations e -> (forall s, In s (atoms e) <-> s = x) ->
       exists r rest, solve e x = r :: rest /\ constant r /\ value v0 r = v0 x) ->
    forall result, recursive_solve_symbolic simplify evalf solve equations known max_iter = Ok result ->
      (forall s c, dget s known = Some c -> dget s result = Some c) /\
      agrees v0 result /\
      forall v, agrees v result -> forall e, In e equations -> holds v e.
Proof. exact @c51_solution__p. Qed.
Print Assumptions c51_solution.
(** y - (x + x), x - k, z - x with k = 1, and a solver for affine equations *)
Example c51_solution_ex :
  let known := [("k", SNum 1)] in
  (forall s c, dget s known = Some c -> constant c) /\ agrees exr_v known /\ (forall e, In e exr_eqs -> holds exr_v e) /\
  (forall e x, reduced same exr_v exr_eqs e -> (forall s, In s (atoms e) <-> s = x) ->
     exists r rest, affine_solve e x = r :: rest /\ constant r /\ value exr_v r = exr_v x) /\
  exists result, recursive_solve_symbolic same same affine_solve exr_eqs known 100 = Ok result /\ dkeys result = ["k"; "x"; "y"; "z"].
Proof.
  cbn zeta. split; [|split; [|split; [|split]]].
  - intros s c H. cbn in H. destruct (String.eqb s "k"); [injection H as <-; reflexivity|discriminate].
  - intros s c H. cbn in H. destruct (String.eqb_spec s "k"); [injection H as <-; subst; reflexivity|discriminate].
  - intros e [<-|[<-|[<-|[]]]]; unfold holds, exr_v; cbn; lra.
  - intros e x H. apply exr_solver. now apply exr_reduced.
  - eexists. split; reflexivity.
Qed.

Theorem c51_initial_kept :
  forall simplify evalf solve, good_simplify simplify ->
    (forall e, constant e -> constant (evalf e)) ->
    (forall e x r, (forall s, In s (atoms e) <-> s = x) -> In r (solve e x) -> constant r) ->
  forall equations known max_iter result,
    (forall s c, dget s known = Some c -> constant c) ->
    recursive_solve_symbolic simplify evalf solve equations known max_iter = Ok result ->
    (forall s c, dget s known = Some c -> dget s result = Some c) /\
    (forall s c, dget s result = Some c -> constant c).
Proof. exact @c51_initial_kept__p. Qed.
Print Assumptions c51_initial_kept.
Example c51_initial_kept_ex :
  good_simplify same /\ (forall e, constant e -> constant (same e)) /\
  (forall e x r, (forall s, In s (atoms e) <-> s = x) -> In r (affine_solve e x) -> constant r) /\
  exists result, recursive_solve_symbolic same same affine_solve exr_eqs [("k", SNum 1)] 100 = Ok result /\ dget "k" result = Some (SNum 1).
Proof.
  split; [apply same_good|]. split; [unfold same; auto|]. split; [intros e x r _; apply affine_numbers|]. eexists. split; reflexivity.
Qed.

Theorem c51_stuck :
  forall simplify evalf solve, good_simplify simplify ->
    (forall e, constant e -> constant (evalf e)) ->
    (forall e x r, (forall s, In s (atoms e) <-> s = x) -> In r (solve e x) -> constant r) ->
  forall equations known max_iter err,
    (forall s c, dget s known = Some c -> constant c) -> length equations < max_iter ->
    recursive_solve_symbolic simplify evalf solve equations known max_iter = Err err ->
    err = ValueError /\
    exists known' rest, passes simplify evalf solve max_iter (length equations) known equations = Ok (known', rest) /\
      rest <> [] /\ (forall s c, dget s known = Some c -> dget s known' = Some c) /\
      forall u, In u rest ->
        (exists e, In e equations /\ forall v, agrees v known' -> (holds v u <-> holds v e)) /\
        (length known' <> length equations ->
         exists x y, x <> y /\ In x (atoms u) /\ In y (atoms u) /\ dget x known' = None /\ dget y known' = None).
Proof. exact @c51_stuck__p. Qed.
Print Assumptions c51_stuck.
(** x - (y + k): two unknowns *)
Example c51_stuck_ex :
  recursive_solve_symbolic same same affine_solve [SBin OSub (SSym "x") (SBin OAdd (SSym "y") (SSym "k"))] [("k", SNum 1); ("m", SNum 2)] 100 = Err ValueError /\
  length [("k", SNum 1); ("m", SNum 2)] <> 1.
Proof. split; [reflexivity|discriminate]. Qed.

Theorem c51_no_solution_refuted :
  exists e, (forall v, ~ holds v e) /\
    forall simplify evalf solve, good_simplify simplify -> sound_solver solve ->
    forall max_iter, exists result, recursive_solve_symbolic simplify evalf solve [e] [] (S max_iter) = Ok result.
Proof. exact @c51_no_solution_refuted__p. Qed.
Print Assumptions c51_no_solution_refuted.
Example c51_no_solution_refuted_ex :
  recursive_solve_symbolic same same affine_solve [SFun FExp (SSym "x")] [] 100 = Ok [("x", SNum 0)].
Proof. reflexivity. Qed.

Theorem c51_contradiction_refuted :
  exists e known, (forall v, agrees v known -> ~ holds v e) /\
    forall simplify evalf solve, good_simplify simplify ->
    forall max_iter, recursive_solve_symbolic simplify evalf solve [e] known (S max_iter) = Ok known.
Proof. exact @c51_contradiction_refuted__p. Qed.
Print Assumptions c51_contradiction_refuted.
Example c51_contradiction_refuted_ex :
  recursive_solve_symbolic same same affine_solve [SBin OSub (SSym "x") (SNum 1)] [("x", SNum 2)] 100 = Ok [("x", SNum 2)].
Proof. reflexivity. Qed.

Theorem c51_overwritten_refuted :
  exists e1 e2, (exists v, holds v e1 /\ holds v e2) /\
    forall simplify evalf solve, good_simplify simplify -> good_evalf evalf ->
      solve (simplify e1) "x" = [SNum 1] -> solve (simplify e2) "x" = [SNum (-1); SNum 1] ->
    forall max_iter, exists result, recursive_solve_symbolic simplify evalf solve [e1; e2] [] (S (S max_iter)) = Ok result /\
      forall v, agrees v result -> ~ holds v e1.
Proof. exact @c51_overwritten_refuted__p. Qed.
Print Assumptions c51_overwritten_refuted.
(** A solver that knows the roots of x - 1 and x*x - 1 *)
Example c51_overwritten_refuted_ex :
  let e1 := SBin OSub (SSym "x") (SNum 1) in
  let solve := fun e (x : string) => if sexpr_eqb e e1 then [SNum 1] else [SNum (-1); SNum 1] in
  recursive_solve_symbolic same same solve [e1; SBin OSub (SBin OMul (SSym "x") (SSym "x")) (SNum 1)] [] 100 = Ok [("x", SNum (-1))].
Proof. reflexivity. Qed.

Theorem c51_early_stop_refuted :
  exists e1 e2 known,
    (forall v, agrees v known -> (holds v e1 <-> v "x" = 1%R)) /\
    (forall v, v "x" = 1%R -> (holds v e2 <-> v "y" = 1%R)) /\
    forall simplify evalf solve, good_simplify simplify ->
    forall max_iter, recursive_solve_symbolic simplify evalf solve [e1; e2] known max_iter = Err ValueError.
Proof. exact @c51_early_stop_refuted__p. Qed.
Print Assumptions c51_early_stop_refuted.
(** With one more known value that no equation mentions, the same system is solved *)
Example c51_early_stop_refuted_ex :
  let eqs := [SBin OSub (SSym "x") (SSym "k"); SBin OSub (SSym "y") (SSym "x")] in
  recursive_solve_symbolic same same affine_solve eqs [("k", SNum 1)] 100 = Err ValueError /\
  exists result, recursive_solve_symbolic same same affine_solve eqs [("k", SNum 1); ("m", SNum 5)] 100 = Ok result /\ dkeys result = ["k"; "m"; "x"; "y"].
Proof. split; [reflexivity|]. eexists. split; reflexivity. Qed.
