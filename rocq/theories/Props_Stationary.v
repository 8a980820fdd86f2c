(** C124: stationary points of the loss; and that the solvers assumed by C118 to
    C121 exist. *)
From Coq Require Import Reals Lra.
From Verif Require Import Py PyStr NdArray M_SymExpr M_Calculus S_Calculus L_Calculus S_Reduce M_Lambdify S_Lambdify L_Lambdify
  M_Euler S_Euler S_Converge S_Kantorovich L_Kantorovich S_Trace L_Trace4 S_Stationary L_Stationary.
Local Open Scope string_scope.
Local Open Scope list_scope.
Local Open Scope R_scope.

Lemma st_regular a b c : a <> 0 -> c <> 0 -> nonsingular [[a; b]; [0; c]] 2.
Proof.
  intros Na Nc [|u [|v [|]]] [|u' [|v' [|]]] Lu Lv E; try discriminate. unfold mv, dot in E. cbn in E. injection E as E1 E2.
  assert (v = v') by (apply Rmult_eq_reg_l with c; [lra|auto]). subst v'. assert (u = u') by (apply Rmult_eq_reg_l with a; [lra|auto]). now subst.
Qed.
Lemma st_matrix a b c : is_matrix 2 2 [[a; b]; [0; c]].
Proof. split; [reflexivity|]. intros r [<-|[<-|[]]]; reflexivity. Qed.

(** C118 to C121: one solver is right for all regular matrices of all sizes. *)
Theorem c118_solver :
  exists solve, forall n, right_solver solve n.
Proof. exact @c118_solver__p. Qed.
Print Assumptions c118_solver.
Example c118_solver_ex : exists solve, mv [[2; 1]; [0; 4]] (solve [[2; 1]; [0; 4]] [5; 6]) = [5; 6].
Proof.
  destruct c118_solver as (solve & H). exists solve. assert (N2 : 2 <> 0) by lra. assert (N4 : 4 <> 0) by lra.
  apply (H 2%nat [[2; 1]; [0; 4]] (@st_matrix 2 1 4) (@st_regular 2 1 4 N2 N4) [5; 6] eq_refl).
Qed.

(** q s = a and s = - a *)
Definition st_eqs : list sexpr := [SBin OSub (SBin OMul (SSym "q") (SSym "s")) (SSym "a"); SBin OAdd (SSym "s") (SSym "a")].
Lemma st_smooth q s a : Forall (smooth (state_of (["q"; "s"] ++ ["a"]) ([q; s] ++ [a])) no_arrays) st_eqs.
Proof. repeat constructor; cbn; tauto. Qed.
Lemma st_derivatives q s a : derivatives_at ["q"; "s"] ["a"] st_eqs [q; s] [a] [[s; q]; [0; 1]].
Proof.
  pose proof (st_smooth q s a) as S. apply Forall_cons_iff in S as (S1 & S2). apply Forall_cons_iff in S2 as (S2 & _). set (v := state_of (["q"; "s"] ++ ["a"]) ([q; s] ++ [a])) in *.
  repeat constructor; unfold partial_derivative; fold v;
    (eapply eq_rect; [apply (@deriv_val v no_arrays); eassumption|]); cbn; lra.
Qed.

(** C124 *)
Theorem c124_close :
  forall variables parameters equations J,
    length equations = length variables -> is_matrix (length variables) (length variables) J -> nonsingular J (length variables) ->
    exists C, 0 <= C /\ forall x theta G,
      Forall (smooth (state_of (variables ++ parameters) (x ++ theta)) no_arrays) equations ->
      derivatives_at variables parameters equations x theta J -> gradient_at variables parameters equations x theta G ->
      abs_sum (values_at variables parameters equations x theta) <= C * abs_sum G.
Proof. exact @c124_close__p. Qed.
Print Assumptions c124_close.
Example c124_close_ex : exists C, 0 <= C /\ 1 + (8 + 0) <= C * abs_sum (loss_gradient ["q"; "s"] ["a"] st_eqs [2; 3] [5]) /\
  loss_gradient ["q"; "s"] ["a"] st_eqs [2; 3] [5] = [3; 10].
Proof.
  assert (N3 : 3 <> 0) by lra. assert (N1 : 1 <> 0) by lra.
  destruct (@c124_close ["q"; "s"] ["a"] st_eqs [[3; 2]; [0; 1]] eq_refl (@st_matrix 3 2 1) (@st_regular 3 2 1 N3 N1)) as (C & HC & H). exists C. split; [exact HC|]. split.
  - specialize (H [2; 3] [5] _ (@st_smooth 2 3 5) (@st_derivatives 2 3 5) (@gradient_holds _ _ _ _ _ (@st_smooth 2 3 5))). eapply Rle_trans; [|exact H].
    unfold abs_sum, values_at. cbn. rewrite !Rabs_pos_eq; lra.
  - unfold loss_gradient. cbn. repeat f_equal; lra.
Qed.

Theorem c124_stationary :
  forall variables parameters equations x theta J G,
    length equations = length variables ->
    Forall (smooth (state_of (variables ++ parameters) (x ++ theta)) no_arrays) equations ->
    derivatives_at variables parameters equations x theta J -> nonsingular J (length variables) ->
    gradient_at variables parameters equations x theta G -> Forall (fun d => d = 0) G ->
    Forall (fun r => r = 0) (values_at variables parameters equations x theta).
Proof. exact @c124_stationary__p. Qed.
Print Assumptions c124_stationary.
Example c124_stationary_ex : forall q s, s <> 0 -> Forall (fun d => d = 0) (loss_gradient ["q"; "s"] ["a"] st_eqs [q; s] [5]) -> q = -1 /\ s = -5.
Proof.
  intros q s Ns Z. assert (N1 : 1 <> 0) by lra.
  pose proof (@c124_stationary ["q"; "s"] ["a"] st_eqs [q; s] [5] [[s; q]; [0; 1]] _ eq_refl (@st_smooth q s 5) (@st_derivatives q s 5) (@st_regular s q 1 Ns N1)
    (@gradient_holds _ _ _ _ _ (@st_smooth q s 5)) Z) as S. apply Forall_cons_iff in S as (S1 & S). apply Forall_cons_iff in S as (S2 & _). cbn in S1, S2. split; [|lra]. assert (s = -5) by lra. subst s. lra.
Qed.
Example c124_stationary_ex2 : Forall (fun d => d = 0) (loss_gradient ["q"; "s"] ["a"] st_eqs [-1; -5] [5]).
Proof. unfold loss_gradient. cbn. repeat constructor; lra. Qed.

Theorem c124_numba :
  forall cse, eliminates cse -> forall variables parameters equations,
    let names := variables ++ parameters in
    NoDup names -> (forall n, In n names -> is_name n = true /\ ~ In n reserved) ->
    (forall e, In e equations -> no_reduction e /\ indexed_exprs e = [] /\ forall s, In s (atoms e) -> In s names) ->
    length equations = length variables ->
    exists f g, compile_numba_error_function cse equations variables parameters = Ok f /\
      compile_numba_gradient_function cse (squared_loss equations) variables parameters = Ok g /\
      forall J, is_matrix (length variables) (length variables) J -> nonsingular J (length variables) ->
      exists C, 0 <= C /\ forall x theta, length x = length variables -> length theta = length parameters ->
        Forall (smooth (state_of names (x ++ theta)) no_arrays) equations -> derivatives_at variables parameters equations x theta J ->
        exists l G, f x theta = Ok (OScalar l) /\ g x theta = Ok (OVec G) /\ gradient_at variables parameters equations x theta G /\
          abs_sum (values_at variables parameters equations x theta) <= C * abs_sum G /\
          (Forall (fun d => d = 0) G -> l = 0 /\ Forall (fun r => r = 0) (values_at variables parameters equations x theta)).
Proof. exact @c124_numba__p. Qed.
Print Assumptions c124_numba.
Example c124_numba_ex : exists f g l G, compile_numba_error_function no_cse st_eqs ["q"; "s"] ["a"] = Ok f /\
  compile_numba_gradient_function no_cse (squared_loss st_eqs) ["q"; "s"] ["a"] = Ok g /\
  f [-1; -5] [5] = Ok (OScalar l) /\ g [-1; -5] [5] = Ok (OVec G) /\ l = 0 /\ G = [0; 0].
Proof.
  assert (N1 : 1 <> 0) by lra. assert (N5 : -5 <> 0) by lra. assert (ND : NoDup (["q"; "s"] ++ ["a"])) by (repeat constructor; cbn; intuition discriminate).
  destruct (@c124_numba no_cse no_cse_ok ["q"; "s"] ["a"] st_eqs ND) as (f & g & Ef & Eg & H); try reflexivity.
  { intros n [<-|[<-|[<-|[]]]]; (split; [reflexivity|cbn; intuition discriminate]). }
  { intros e [<-|[<-|[]]]; cbn; intuition. }
  destruct (H [[-5; -1]; [0; 1]] (@st_matrix (-5) (-1) 1) (@st_regular (-5) (-1) 1 N5 N1)) as (C & _ & HC).
  destruct (HC [-1; -5] [5] eq_refl eq_refl (@st_smooth (-1) (-5) 5) (@st_derivatives (-1) (-5) 5)) as (l & G & El & EG & GR & _ & HZ).
  assert (Q : G = [0; 0]).
  { rewrite (gradient_unique (@st_smooth (-1) (-5) 5) GR). unfold loss_gradient. cbn. repeat f_equal; lra. }
  exists f, g, l, G. split; [exact Ef|]. split; [exact Eg|]. split; [exact El|]. split; [exact EG|]. split; [|exact Q]. apply HZ. rewrite Q. repeat constructor.
Qed.

(** Where the Jacobian is singular the gradient can be zero without a solution,
    although the model has one: x x + a at x = 0, a = -1. *)
Theorem c124_stuck_refuted :
  exists variables parameters equations x theta G,
    Forall (smooth (state_of (variables ++ parameters) (x ++ theta)) no_arrays) equations /\
    gradient_at variables parameters equations x theta G /\ Forall (fun d => d = 0) G /\
    (exists y, Forall (fun r => r = 0) (values_at variables parameters equations y theta)) /\
    ~ Forall (fun r => r = 0) (values_at variables parameters equations x theta).
Proof. exact @c124_stuck_refuted__p. Qed.
Print Assumptions c124_stuck_refuted.
Example c124_stuck_refuted_ex : loss_gradient ["x"] ["a"] [st_eq] [0] [-1] = [0] /\ values_at ["x"] ["a"] [st_eq] [0] [-1] = [-1] /\ values_at ["x"] ["a"] [st_eq] [1] [-1] = [0].
Proof. unfold loss_gradient, values_at. cbn. repeat split; f_equal; lra. Qed.
