(** C80: what the compiled numba functions return. *)
From Coq Require Import Reals Lra.
From Verif Require Import Py PyStr M_SymExpr M_Calculus S_Calculus S_Reduce M_Lambdify S_Lambdify L_Calculus L_Calculus2 L_Lambdify L_NumbaStep L_Lambdify2.
From Verif Require Import M_Primitives M_Expand.
Local Open Scope string_scope.
Local Open Scope list_scope.

(** Equal lists of reals *)
Ltac lists := cbn; repeat match goal with |- _ :: _ = _ :: _ => apply f_equal2 | |- [] = [] => reflexivity end;
  repeat match goal with |- context [py_pow ?x (IZR ?n)] => change (py_pow x (IZR n)) with (rpow x (IZR n)); rewrite rpow_IZR end; cbn [powerRZ];
  try (change (Pos.to_nat 2) with 2%nat); try (change (Pos.to_nat 1) with 1%nat); cbn [pow]; lra.

(** q * s - a = 0 and s + a = 0; sub-expressions are named x0 *)
Definition ex_eqs : list sexpr := [SBin OSub (SBin OMul (SSym "q") (SSym "s")) (SSym "a"); SBin OAdd (SSym "s") (SSym "a")].
Example ex_contract : eliminates first_cse /\ first_cse ex_eqs = ([("x0", SBin OSub (SBin OMul (SSym "q") (SSym "s")) (SSym "a"))], [SSym "x0"; SBin OAdd (SSym "s") (SSym "a")]).
Proof. split; [exact first_cse_ok|reflexivity]. Qed.
Example ex_hypotheses : NoDup (["q"; "s"] ++ ["a"]) /\ (forall n, In n (["q"; "s"] ++ ["a"]) -> is_name n = true /\ ~ In n reserved) /\
  ~ In "hess_point" (["q"; "s"] ++ ["a"]) /\
  (forall e, In e ex_eqs -> no_reduction e /\ indexed_exprs e = [] /\ forall s, In s (atoms e) -> In s (["q"; "s"] ++ ["a"])) /\
  Forall (smooth (state_of ["q"; "s"; "a"] [2; 3; 5]%R) (fun _ _ => 0%R)) ex_eqs.
Proof.
  split; [repeat constructor; cbn; intuition discriminate|]. split.
  { intros n Hn. cbn in Hn. repeat destruct Hn as [<-|Hn]; try (split; [reflexivity|cbn; intuition discriminate]). destruct Hn. }
  split; [cbn; intuition discriminate|]. split.
  { intros e [<-|[<-|[]]]; cbn; intuition. }
  repeat constructor.
Qed.

Theorem c80_system :
  forall cse, eliminates cse -> forall variables parameters equations,
  let names := variables ++ parameters in
  NoDup names -> (forall n, In n names -> is_name n = true /\ ~ In n reserved) ->
  (forall e, In e equations -> no_reduction e /\ indexed_exprs e = [] /\ forall s, In s (atoms e) -> In s names) ->
  exists f, compile_numba_system cse equations variables parameters = Ok f /\
    forall x theta p, length x = length variables -> length theta = length parameters ->
      f x theta = Ok (OVec (map (numval (state_of names (x ++ theta)) p) equations)).
Proof. exact @c80_system__p. Qed.
Print Assumptions c80_system.
Example c80_system_ex : exists f, compile_numba_system first_cse ex_eqs ["q"; "s"] ["a"] = Ok f /\ f [2; 3]%R [5]%R = Ok (OVec [1; 8]%R) /\ f [2]%R [5]%R = Err AssertionError.
Proof.
  eexists. split; [reflexivity|]. split; [|reflexivity]. replace 1%R with (2 * 3 - 5)%R by lra. replace 8%R with (3 + 5)%R by lra. reflexivity.
Qed.

Theorem c80_jacobian :
  forall cse, eliminates cse -> forall variables parameters equations,
  let names := variables ++ parameters in
  NoDup names -> (forall n, In n names -> is_name n = true /\ ~ In n reserved) ->
  (forall e, In e equations -> no_reduction e /\ indexed_exprs e = [] /\ forall s, In s (atoms e) -> In s names) ->
  equations <> [] -> variables <> [] ->
  exists f, compile_numba_jacobian_function cse (SysList equations) variables parameters = Ok f /\
    forall x theta p, length x = length variables -> length theta = length parameters ->
      exists J, f x theta = Ok (OMat J) /\ length J = length equations /\
        forall i j e y, nth_error equations i = Some e -> nth_error variables j = Some y ->
          exists row d, nth_error J i = Some row /\ length row = length variables /\ nth_error row j = Some d /\
            (smooth (state_of names (x ++ theta)) p e ->
             derivable_pt_lim (fun t => numval (set_sym (state_of names (x ++ theta)) y t) p e) (state_of names (x ++ theta) y) d).
Proof. exact @c80_jacobian__p. Qed.
Print Assumptions c80_jacobian.
Example c80_jacobian_ex : exists f J, compile_numba_jacobian_function first_cse (SysList ex_eqs) ["q"; "s"] ["a"] = Ok f /\
  f [2; 3]%R [5]%R = Ok (OMat J) /\ J = [[3; 2]; [0; 1]]%R.
Proof.
  eexists. eexists. split; [reflexivity|]. split; [reflexivity|]. lists.
Qed.

Theorem c80_loss :
  forall cse, eliminates cse -> forall variables parameters equations,
  let names := variables ++ parameters in
  NoDup names -> (forall n, In n names -> is_name n = true /\ ~ In n reserved) ->
  (forall e, In e equations -> no_reduction e /\ indexed_exprs e = [] /\ forall s, In s (atoms e) -> In s names) ->
  exists f g, compile_numba_error_function cse equations variables parameters = Ok f /\
    compile_numba_gradient_function cse (squared_loss equations) variables parameters = Ok g /\
    forall x theta p, length x = length variables -> length theta = length parameters ->
      let loss v := (/ 2 * rsum (map (fun e => numval v p e * numval v p e) equations))%R in
      let state := state_of names (x ++ theta) in
      f x theta = Ok (OScalar (loss state)) /\
      exists G, g x theta = Ok (OVec G) /\ length G = length variables /\
        forall j y, nth_error variables j = Some y -> exists d, nth_error G j = Some d /\
          (Forall (smooth state p) equations -> derivable_pt_lim (fun t => loss (set_sym state y t)) (state y) d).
Proof. exact @c80_loss__p. Qed.
Print Assumptions c80_loss.
Example c80_loss_ex : exists f g l G, compile_numba_error_function first_cse ex_eqs ["q"; "s"] ["a"] = Ok f /\
  compile_numba_gradient_function first_cse (squared_loss ex_eqs) ["q"; "s"] ["a"] = Ok g /\
  f [2; 3]%R [5]%R = Ok (OScalar l) /\ l = (65 / 2)%R /\ g [2; 3]%R [5]%R = Ok (OVec G) /\ G = [3; 10]%R.
Proof.
  do 4 eexists. split; [reflexivity|]. split; [reflexivity|]. split; [reflexivity|]. split; [lists|]. split; [reflexivity|]. cbn. lists.
Qed.

Theorem c80_hessian :
  forall cse, eliminates cse -> forall variables parameters equations,
  let names := variables ++ parameters in
  NoDup names -> (forall n, In n names -> is_name n = true /\ ~ In n reserved) -> ~ In "hess_point" names ->
  (forall e, In e equations -> no_reduction e /\ indexed_exprs e = [] /\ forall s, In s (atoms e) -> In s names) ->
  variables <> [] ->
  let grad := make_sympy_gradient (squared_loss equations) variables in
  exists h hp, compile_numba_jacobian_function cse (SysMatrix (map (fun g => [g]) grad)) variables parameters = Ok h /\
    compile_numba_hessp_function cse grad variables parameters = Ok hp /\
    forall x theta p, length x = length variables -> length theta = length parameters ->
      let state := state_of names (x ++ theta) in
      Forall (smooth state p) equations ->
      exists H, h x theta = Ok (OMat H) /\ length H = length variables /\
        (forall j row, nth_error H j = Some row -> length row = length variables) /\
        (forall j k g y, nth_error grad j = Some g -> nth_error variables k = Some y ->
           derivable_pt_lim (fun t => numval (set_sym state y t) p g) (state y) (nth k (nth j H []) 0%R)) /\
        (forall j k, j < length variables -> k < length variables -> nth k (nth j H []) 0%R = nth j (nth k H []) 0%R) /\
        forall dir, length dir = length variables ->
          hp x dir theta = Ok (map (fun row => rsum (map (fun kd => fst kd * snd kd)%R (combine row dir))) H).
Proof. exact @c80_hessian__p. Qed.
Print Assumptions c80_hessian.
Example c80_hessian_ex : exists h hp H P,
  compile_numba_jacobian_function first_cse (SysMatrix (map (fun g => [g]) (make_sympy_gradient (squared_loss ex_eqs) ["q"; "s"]))) ["q"; "s"] ["a"] = Ok h /\
  compile_numba_hessp_function first_cse (make_sympy_gradient (squared_loss ex_eqs) ["q"; "s"]) ["q"; "s"] ["a"] = Ok hp /\
  h [2; 3]%R [5]%R = Ok (OMat H) /\ H = [[9; 7]; [7; 5]]%R /\ hp [2; 3]%R [1; 10]%R [5]%R = Ok P /\ P = [79; 57]%R.
Proof.
  do 4 eexists. split; [reflexivity|]. split; [reflexivity|]. split; [reflexivity|]. split; [cbn; lists|]. split; [reflexivity|].
  cbn. lists.
Qed.

Theorem c80_syntax_refuted :
  exists variables parameters equations, NoDup (variables ++ parameters) /\
    (forall e, In e equations -> no_reduction e /\ indexed_exprs e = [] /\ forall s, In s (atoms e) -> In s (variables ++ parameters)) /\
    (forall n, In n (variables ++ parameters) -> ~ In n reserved) /\
    forall cse, eliminates cse -> compile_numba_system cse equations variables parameters = Err SyntaxError.
Proof. exact @c80_syntax_refuted__p. Qed.
Print Assumptions c80_syntax_refuted.
Example c80_syntax_refuted_ex : compile_numba_system first_cse [SBin OSub (SSym "X__i_north east") (SSym "a")] ["X__i_north east"] ["a"] = Err SyntaxError.
Proof. reflexivity. Qed.

Theorem c80_len_refuted :
  exists variables parameters equations, NoDup (variables ++ parameters) /\
    (forall e, In e equations -> no_reduction e /\ indexed_exprs e = [] /\ forall s, In s (atoms e) -> In s (variables ++ parameters)) /\
    (forall n, In n (variables ++ parameters) -> is_name n = true) /\
    forall cse, eliminates cse -> exists f, compile_numba_system cse equations variables parameters = Ok f /\
      forall x theta, length x = length variables -> length theta = length parameters -> exists ex, f x theta = Err ex.
Proof. exact @c80_len_refuted__p. Qed.
Print Assumptions c80_len_refuted.
Example c80_len_refuted_ex : exists f, compile_numba_system first_cse [SBin OSub (SSym "len") (SSym "a")] ["len"] ["a"] = Ok f /\ f [1]%R [1]%R = Err NameError.
Proof. eexists. split; reflexivity. Qed.
