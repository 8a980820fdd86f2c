(** C118: the Euler approximation compiled by numba from written equations. *)
From Coq Require Import Reals Lra.
From Verif Require Import Py PyStr M_SymExpr M_Calculus S_Calculus L_Calculus S_Reduce L_Reduce5 M_Lambdify S_Lambdify L_Lambdify M_NumbaStep
  M_Euler S_Euler S_Converge L_Converge L_Converge2 M_NumbaEuler S_Trace L_Trace5 Props_Converge.
Local Open Scope string_scope.
Local Open Scope list_scope.
Local Open Scope R_scope.

(** The model used in the examples: a net price p and a tax a with
    p (1 + a) = 1. The tax goes from 0 to 1; the path is p = 1 / (1 + t). *)
Definition wx_eq : sexpr := SBin OSub (SBin OMul (SSym "p") (SBin OAdd (SNum 1) (SSym "a"))) (SNum 1).

Lemma wx_solver : right_solver tx_solve 1.
Proof.
  intros [|row [|]] (L & R) N b Lb; try discriminate. assert (Lr := R row (or_introl eq_refl)). destruct row as [|m [|]]; try discriminate.
  destruct b as [|q [|]]; try discriminate. unfold tx_solve. cbn. split; [reflexivity|].
  assert (m <> 0).
  { intros ->. assert (Q : [1] = [0]).
    { apply N; [reflexivity|reflexivity|]. unfold mv, dot. cbn. f_equal. ring. }
    injection Q as Q. lra. }
  unfold mv, dot. cbn. f_equal. field. auto.
Qed.

Lemma wx_path : solution_path ["p"] ["a"] [wx_eq] [0] [1] tx_X.
Proof.
  constructor.
  - reflexivity.
  - intros t i Ht Hi. exists (nth i (tx_X' t) 0). now apply (ep_derivative tx_path).
  - intros t Ht. rewrite tx_line. constructor; [|constructor]. cbn. field. lra.
  - intros t Ht. rewrite tx_line. constructor; [|constructor]. cbn. tauto.
  - intros t Ht. rewrite tx_line. exists [[1 + t]]. split.
    + constructor; [|constructor]. constructor; [|constructor].
      assert (Sm : smooth (state_of (["p"] ++ ["a"]) (tx_X t ++ [t])) no_arrays wx_eq) by (cbn; tauto).
      pose proof (@deriv_val (state_of (["p"] ++ ["a"]) (tx_X t ++ [t])) no_arrays "p" wx_eq Sm) as D. unfold partial_derivative.
      eapply eq_rect; [exact D|]. cbn. lra.
    + intros [|u [|]] [|v [|]] Lu Lv E; try discriminate. unfold mv, dot in E. cbn in E. injection E as E. f_equal. apply Rmult_eq_reg_l with (1 + t); lra.
Qed.

Lemma wx_hyps : walks_set (uniq pair_eqb) /\ eliminates no_cse /\ NoDup (["p"] ++ ["a"]) /\
  (forall n m, In n (["p"] ++ ["a"]) -> In m (["p"] ++ ["a"]) -> n <> (m ++ "_0")%string) /\
  (forall n, In n (["p"] ++ ["a"]) -> is_name n = true) /\ (forall n, In n ["a"] -> ~ In n reserved) /\
  (forall e, In e [wx_eq] -> indexed_exprs e = [] /\ forall s, In s (atoms e) -> In s (["p"] ++ ["a"])).
Proof.
  split; [apply (uniq_walks pair_eqb pair_eqb_eq)|]. split; [apply no_cse_ok|]. split; [repeat constructor; cbn; intuition discriminate|].
  split; [intros n m [<-|[<-|[]]] [<-|[<-|[]]]; discriminate|]. split; [intros n [<-|[<-|[]]]; reflexivity|]. split; [intros n [<-|[]]; cbn; intuition discriminate|].
  intros e [<-|[]]. split; [reflexivity|]. cbn. tauto.
Qed.

(** C118 *)
Theorem c118_rate :
  forall sub_into dict_order cse linalg_solve, walks_set dict_order -> eliminates cse ->
  forall variables parameters equations theta0 theta1 X,
    let names := variables ++ parameters in
    NoDup names -> (forall n m, In n names -> In m names -> n <> (m ++ "_0")%string) ->
    (forall n, In n names -> is_name n = true) -> (forall n, In n parameters -> ~ In n reserved) ->
    variables <> [] -> length equations = length variables ->
    (forall e, In e equations -> indexed_exprs e = [] /\ forall s, In s (atoms e) -> In s names) ->
    length theta0 = length parameters -> length theta1 = length parameters ->
    right_solver linalg_solve (length variables) -> solution_path variables parameters equations theta0 theta1 X ->
    exists C N, 0 <= C /\ forall n, (N <= n)%nat -> (0 < n)%nat /\
      exists rows, numba_euler sub_into dict_order cse linalg_solve false variables parameters equations (X 0) theta0 theta1 n = Ok rows /\
        length rows = S n /\
        (forall k, (k <= n)%nat -> exists x, nth_error rows k = Some (x ++ line theta0 theta1 (INR k / INR n)) /\ within (C / INR n) x (X (INR k / INR n))) /\
        exists x, nth_error rows n = Some (x ++ theta1) /\ within (C / INR n) x (X 1) /\
          within (C / INR n) (values_at variables parameters equations x theta1) (zeros (length variables)).
Proof. exact @c118_rate__p. Qed.
Print Assumptions c118_rate.
(** The tax model: the error is at most C / n. *)
Example c118_rate_ex :
  exists C N, 0 <= C /\ forall n, (N <= n)%nat -> exists rows x,
    numba_euler sympy_rule (uniq pair_eqb) no_cse tx_solve false ["p"] ["a"] [wx_eq] [1] [0] [1] n = Ok rows /\
    nth_error rows n = Some (x ++ [1]) /\ within (C / INR n) x [/ 2].
Proof.
  destruct wx_hyps as (H1 & H2 & H3 & H4 & H5 & H6 & H7).
  destruct (@c118_rate sympy_rule (uniq pair_eqb) no_cse tx_solve H1 H2 ["p"] ["a"] [wx_eq] [0] [1] tx_X H3 H4 H5 H6 ltac:(discriminate) eq_refl H7 eq_refl eq_refl wx_solver wx_path)
    as (C & N & HC & H). exists C, N. split; auto. intros n Hn. destruct (H n Hn) as (_ & rows & E & _ & _ & x & Ex & Wx & _).
  exists rows, x. assert (X0 : tx_X 0 = [1]) by (unfold tx_X; f_equal; field). assert (X1 : tx_X 1 = [/ 2]) by (unfold tx_X; f_equal; f_equal; lra).
  rewrite X0 in E. rewrite X1 in Wx. auto.
Qed.

Theorem c118_limit :
  forall sub_into dict_order cse linalg_solve, walks_set dict_order -> eliminates cse ->
  forall variables parameters equations theta0 theta1 X,
    let names := variables ++ parameters in
    NoDup names -> (forall n m, In n names -> In m names -> n <> (m ++ "_0")%string) ->
    (forall n, In n names -> is_name n = true) -> (forall n, In n parameters -> ~ In n reserved) ->
    variables <> [] -> length equations = length variables ->
    (forall e, In e equations -> indexed_exprs e = [] /\ forall s, In s (atoms e) -> In s names) ->
    length theta0 = length parameters -> length theta1 = length parameters ->
    right_solver linalg_solve (length variables) -> solution_path variables parameters equations theta0 theta1 X ->
    forall eps, 0 < eps -> exists N, forall n, (N <= n)%nat ->
      exists rows, numba_euler sub_into dict_order cse linalg_solve false variables parameters equations (X 0) theta0 theta1 n = Ok rows /\
        length rows = S n /\
        (forall k, (k <= n)%nat -> exists x, nth_error rows k = Some (x ++ line theta0 theta1 (INR k / INR n)) /\ within eps x (X (INR k / INR n))) /\
        exists x, nth_error rows n = Some (x ++ theta1) /\ within eps x (X 1) /\
          Forall (fun v => Rabs v <= eps) (values_at variables parameters equations x theta1).
Proof. exact @c118_limit__p. Qed.
Print Assumptions c118_limit.
Example c118_limit_ex : forall eps, 0 < eps -> exists N, forall n, (N <= n)%nat -> exists rows p,
    numba_euler sympy_rule (uniq pair_eqb) no_cse tx_solve false ["p"] ["a"] [wx_eq] [1] [0] [1] n = Ok rows /\
    nth_error rows n = Some [p; 1] /\ Rabs (p - / 2) <= eps /\ Rabs (p * (1 + 1) - 1) <= eps.
Proof.
  intros eps He. destruct wx_hyps as (H1 & H2 & H3 & H4 & H5 & H6 & H7).
  destruct (@c118_limit sympy_rule (uniq pair_eqb) no_cse tx_solve H1 H2 ["p"] ["a"] [wx_eq] [0] [1] tx_X H3 H4 H5 H6 ltac:(discriminate) eq_refl H7 eq_refl eq_refl wx_solver wx_path eps He)
    as (N & H). exists N. intros n Hn. destruct (H n Hn) as (rows & E & _ & _ & x & Ex & Wx & Wv).
  assert (X0 : tx_X 0 = [1]) by (unfold tx_X; f_equal; field). assert (X1 : tx_X 1 = [/ 2]) by (unfold tx_X; f_equal; f_equal; lra).
  rewrite X0 in E. rewrite X1 in Wx. destruct (within_one Wx) as (p & -> & Hp). exists rows, p. split; auto. split; auto. split; auto.
  apply Forall_cons_iff in Wv as (Wv & _). exact Wv.
Qed.
