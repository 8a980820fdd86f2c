(** C127, C128: the Newton solver, the Euler approximation and units. *)
From Coq Require Import Reals Lra.
From Verif Require Import Py PyStr NdArray M_Euler M_Newton S_Euler S_Converge S_Newton S_Trace S_NewtonNear L_NewtonNear2 L_Newton S_Units L_Units L_Units2 L_Units3.
Local Open Scope string_scope.
Local Open Scope list_scope.
Local Open Scope R_scope.

(** C127 *)
Theorem c127_newton :
  forall (F F' : list (arr R) -> res (list R)) (J J' : list (arr R) -> res (list (list R))) (solve solve' : list (list R) -> list R -> res (list R))
         (parameters parameters' : option (list (arr R))) (xs ys : list (arr R)) (d : list R) (c step tol : R) (k n : nat) (hist : list nstate),
  parameters <> Some [] -> parameters' <> Some [] -> xs <> [] -> Forall (fun a => arr_wf a) xs -> length (flat xs) = n ->
  length d = n -> Forall (fun u => u <> 0) d -> c <> 0 -> in_units d xs ys ->
  rescaled_residuals F F' parameters parameters' (map (@ashape R) xs) d c ->
  rescaled_derivatives J J' parameters parameters' (map (@ashape R) xs) d c n ->
  right_solver_res solve n -> right_solver_res solve' n ->
  newton_root F J solve xs parameters step tol k = Ok hist ->
  (forall s, In s (mkN xs false step 0 :: hist) ->
     (forall r, F (at_point parameters (nx s)) = Ok r -> length r = n) /\
     (forall M, J (at_point parameters (nx s)) = Ok M -> is_matrix n n M /\ nonsingular M n)) ->
  exists hist', newton_root F' J' solve' ys parameters' step (Rabs c * tol) k = Ok hist' /\ Forall2 (same_state d) hist hist'.
Proof. exact @c127_newton__p. Qed.
Print Assumptions c127_newton.
(** p p p + p = a, with a = 1, and the same equation times 3 for the price in
    cents: the residual is 3 ((q / 100)^3 + q / 100 - a). *)
Definition un_F (args : list (arr R)) : res (list R) :=
  let p := nth 0 (flat args) 0 in Ok [p * p * p + p - nth 1 (flat args) 0].
Definition un_J (args : list (arr R)) : res (list (list R)) :=
  let p := nth 0 (flat args) 0 in Ok [[3 * (p * p) + 1]].
Definition un_F' (args : list (arr R)) : res (list R) :=
  let p := nth 0 (flat args) 0 / 100 in Ok [3 * (p * p * p + p - nth 1 (flat args) 0)].
Definition un_J' (args : list (arr R)) : res (list (list R)) :=
  let p := nth 0 (flat args) 0 / 100 in Ok [[3 * ((3 * (p * p) + 1) / 100)]].
Lemma un_point (x : list (arr R)) : map (@ashape R) x = [[]] -> Forall (fun a => arr_wf a) x -> exists p, x = [mkArr [] [p]].
Proof.
  intros E W. destruct x as [|[sh d] [|]]; try discriminate. cbn in E. injection E as ->. inversion W as [|? ? W1 _]. unfold arr_wf in W1. cbn in W1. destruct d as [|p [|]]; try discriminate. now exists p.
Qed.
Lemma un_runs tol k p cv a cnt : exists hist,
  newton_loop un_F un_J nw_solve true 1 tol 1 1 k (mkN [mkArr [] [p]] cv a cnt) [mkArr [] [1]] = Ok hist /\ Forall (fun s => exists q, nx s = [mkArr [] [q]]) hist.
Proof.
  revert p cv a cnt. induction k as [|k IH]; intros p cv a cnt; [exists []; split; [reflexivity|constructor]|].
  assert (B : exists q cv' a' cnt', scan_body un_F un_J nw_solve true 1 tol 1 1 (mkN [mkArr [] [p]] cv a cnt) [mkArr [] [1]] = Ok (mkN [mkArr [] [q]] cv' a' cnt')).
  { unfold scan_body, newton_step. destruct cv; cbn -[rlt norm1 nw_solve Rmult Rplus].
    - destruct (rlt _ _); do 4 eexists; reflexivity.
    - unfold nw_solve. destruct (Req_EM_T _ 0) as [C|_]; [nra|]. cbn -[rlt norm1 Rmult Rplus]. destruct (rlt (norm1 _) (norm1 _)); do 4 eexists; reflexivity. }
  destruct B as (q & cv' & a' & cnt' & E). destruct (IH q cv' a' cnt') as (hist & EH & FH). cbn [newton_loop]. rewrite E. cbn [bind]. rewrite EH. cbn [bind].
  eexists. split; [reflexivity|]. constructor; [exists q; reflexivity|exact FH].
Qed.
Example c127_newton_ex : forall k, exists hist hist',
  newton_root un_F un_J nw_solve [mkArr [] [2]] (Some [mkArr [] [1]]) 1 (1 / 1000) k = Ok hist /\
  newton_root un_F' un_J' nw_solve [mkArr [] [200]] (Some [mkArr [] [1]]) 1 (Rabs 3 * (1 / 1000)) k = Ok hist' /\
  Forall2 (same_state [100]) hist hist'.
Proof.
  intros k. destruct (@un_runs (1 / 1000) k 2 false 1 0) as (hist & E & FH). exists hist.
  assert (U : in_units [100] [mkArr [] [2]] [mkArr [] [200]]).
  { split; [reflexivity|repeat constructor|]. intros [|[|j]]; cbn; lra. }
  destruct (@c127_newton un_F un_F' un_J un_J' nw_solve nw_solve (Some [mkArr [] [1]]) (Some [mkArr [] [1]]) [mkArr [] [2]] [mkArr [] [200]] [100] 3 1 (1 / 1000) k 1 hist)
    as (hist' & E' & S); auto; try discriminate; try lra.
  - repeat constructor.
  - intros x y r Ex Wx [Sx Wy V] Er. destruct (@un_point x Ex Wx) as (p & ->). destruct (@un_point y Sx Wy) as (q & ->). specialize (V 0%nat). cbn in V. subst q.
    cbn -[Rmult Rplus] in Er. injection Er as <-. eexists. split; [reflexivity|]. split; [reflexivity|]. intros [|[|i]]; cbn; field.
  - intros x y M Ex Wx [Sx Wy V] HM Er. destruct (@un_point x Ex Wx) as (p & ->). destruct (@un_point y Sx Wy) as (q & ->). specialize (V 0%nat). cbn in V. subst q.
    cbn -[Rmult Rplus] in Er. injection Er as <-. eexists. split; [reflexivity|]. split; [split; [reflexivity|intros row [<-|[]]; reflexivity]|].
    intros [|[|i]] [|[|j]]; cbn; field.
  - exact nw_solver.
  - exact nw_solver.
  - intros s Hs. assert (Q : exists q, nx s = [mkArr [] [q]]).
    { destruct Hs as [<-|Hs]; [exists 2; reflexivity|]. rewrite Forall_forall in FH. now apply FH. }
    destruct Q as (q & ->). split; intros r Er; cbn -[Rmult Rplus] in Er; injection Er as <-; [reflexivity|]. split; [split; [reflexivity|intros row [<-|[]]; reflexivity]|].
    intros [|u [|]] [|w [|]] Lu Lv Em; try discriminate. unfold mv, dot in Em. cbn -[Rmult Rplus] in Em. injection Em as Em. f_equal.
    assert (Q : 0 < 3 * (q * q) + 1) by nra. apply Rmult_eq_reg_l with (3 * (q * q) + 1); lra.
  - exists hist'. split; [exact E|]. split; [exact E'|exact S].
Qed.

(** C128 *)
Theorem c128_euler :
  forall (A A' B B' : list R -> list R -> list (list R)) (solve solve' : list (list R) -> list R -> list R) (nv np : nat) (d e : list R) (c : R)
         (x0 th0 th1 x0' th0' th1' : list R) (n : nat),
  length d = nv -> length e = np -> Forall (fun u => u <> 0) d -> c <> 0 ->
  (forall x th x' th', length x = nv -> length th = np -> rescaled d x x' -> rescaled e th th' ->
     rescaled_matrix d c nv nv (A x th) (A' x' th') /\ rescaled_matrix e c nv np (B x th) (B' x' th')) ->
  right_solver solve nv -> right_solver solve' nv ->
  length x0 = nv -> length th0 = np -> length th1 = np -> rescaled d x0 x0' -> rescaled e th0 th0' -> rescaled e th1 th1' ->
  (forall row, In row (euler_approx (numba_f_step (euler_inc A B solve) nv) x0 th0 th1 n) -> nonsingular (A (firstn nv row) (skipn nv row)) nv) ->
  Forall2 (rescaled (d ++ e)) (euler_approx (numba_f_step (euler_inc A B solve) nv) x0 th0 th1 n)
    (euler_approx (numba_f_step (euler_inc A' B' solve') nv) x0' th0' th1' n).
Proof. exact @c128_euler__p. Qed.
Print Assumptions c128_euler.

(** The solution of [x^3 + x = th], with [x] in hundredths, [th] in tenths
    and the equation multiplied by three *)
Definition ue_A (x th : list R) : list (list R) := [[3 * (nth 0 x 0 * nth 0 x 0) + 1]].
Definition ue_B (x th : list R) : list (list R) := [[- (1)]].
Definition ue_A' (x th : list R) : list (list R) := [[3 * (3 * (nth 0 x 0 / 100 * (nth 0 x 0 / 100)) + 1) / 100]].
Definition ue_B' (x th : list R) : list (list R) := [[- (3 / 10)]].
Definition ue_solve (M : list (list R)) (b : list R) : list R := [nth 0 b 0 / nth 0 (nth 0 M []) 0].
Lemma ue_solver : right_solver ue_solve 1.
Proof.
  intros M (Em & Rm) NS [|b [|]] Lb; try discriminate. destruct M as [|row [|]]; try discriminate. assert (Lr := Rm row (or_introl eq_refl)). destruct row as [|a [|]]; try discriminate.
  assert (Na : a <> 0).
  { intros ->. specialize (NS [0] [1] eq_refl eq_refl). unfold mv, dot in NS. cbn -[Rmult Rplus] in NS. assert (Q : [0] = [1]) by (apply NS; f_equal; ring). injection Q. lra. }
  split; [reflexivity|]. unfold ue_solve, mv, dot. cbn. f_equal. field. exact Na.
Qed.
Example c128_euler_ex : forall n,
  Forall2 (rescaled [100; 10]) (euler_approx (numba_f_step (euler_inc ue_A ue_B ue_solve) 1) [1] [2] [10] n)
    (euler_approx (numba_f_step (euler_inc ue_A' ue_B' ue_solve) 1) [100] [20] [100] n).
Proof.
  intros n. assert (M1 : forall q, is_matrix 1 1 [[q]]) by (intros; split; [reflexivity|intros row [<-|[]]; reflexivity]).
  apply (@c128_euler ue_A ue_A' ue_B ue_B' ue_solve ue_solve 1 1 [100] [10] 3 [1] [2] [10] [100] [20] [100] n); auto; try lra.
  - intros x th x' th' Lx Lt (_ & Hx) (_ & Ht). split; (split; [apply M1|split; [apply M1|]]); unfold ue_A, ue_A', ue_B, ue_B'.
    + rewrite (Hx 0%nat). intros [|[|i]] [|[|j]]; cbn; field.
    + intros [|[|i]] [|[|j]]; cbn; field.
  - exact ue_solver.
  - exact ue_solver.
  - split; [reflexivity|]. intros [|[|j]]; cbn; lra.
  - split; [reflexivity|]. intros [|[|j]]; cbn; lra.
  - split; [reflexivity|]. intros [|[|j]]; cbn; lra.
  - intros row _. unfold ue_A. generalize (nth 0 (firstn 1 row) 0). intros q. intros [|u [|]] [|w [|]] Lu Lv Em; try discriminate. unfold mv, dot in Em. cbn -[Rmult Rplus] in Em. injection Em as Em. f_equal.
    assert (Q : 0 < 3 * (q * q) + 1) by nra. apply Rmult_eq_reg_l with (3 * (q * q) + 1); lra.
Qed.

Theorem c128_rk4 :
  forall (A A' B B' : list R -> list R -> list (list R)) (solve solve' : list (list R) -> list R -> list R) (nv np : nat) (d e : list R) (c : R)
         (x th s x' th' s' : list R),
  length d = nv -> length e = np -> Forall (fun u => u <> 0) d -> c <> 0 ->
  (forall x th x' th', length x = nv -> length th = np -> rescaled d x x' -> rescaled e th th' ->
     rescaled_matrix d c nv nv (A x th) (A' x' th') /\ rescaled_matrix e c nv np (B x th) (B' x' th')) ->
  right_solver solve nv -> right_solver solve' nv ->
  (forall x th, length x = nv -> length th = np -> nonsingular (A x th) nv) ->
  length x = nv -> length th = np -> length s = np -> rescaled d x x' -> rescaled e th th' -> rescaled e s s' ->
  rescaled d (rk4_inc (euler_inc A B solve) x th s) (rk4_inc (euler_inc A' B' solve') x' th' s').
Proof. exact @c128_rk4__p. Qed.
Print Assumptions c128_rk4.

(** A step of the same equation *)
Example c128_rk4_ex : rescaled [100] (rk4_inc (euler_inc ue_A ue_B ue_solve) [1] [2] [8]) (rk4_inc (euler_inc ue_A' ue_B' ue_solve) [100] [20] [80]).
Proof.
  assert (M1 : forall q, is_matrix 1 1 [[q]]) by (intros; split; [reflexivity|intros row [<-|[]]; reflexivity]).
  apply (@c128_rk4 ue_A ue_A' ue_B ue_B' ue_solve ue_solve 1 1 [100] [10] 3 [1] [2] [8] [100] [20] [80]); auto; try lra.
  - intros x th x' th' Lx Lt (_ & Hx) (_ & Ht). split; (split; [apply M1|split; [apply M1|]]); unfold ue_A, ue_A', ue_B, ue_B'.
    + rewrite (Hx 0%nat). intros [|[|i]] [|[|j]]; cbn; field.
    + intros [|[|i]] [|[|j]]; cbn; field.
  - exact ue_solver.
  - exact ue_solver.
  - intros x th _ _. unfold ue_A. generalize (nth 0 x 0). intros q. intros [|u [|]] [|w [|]] Lu Lv Em; try discriminate. unfold mv, dot in Em. cbn -[Rmult Rplus] in Em. injection Em as Em. f_equal.
    assert (Q : 0 < 3 * (q * q) + 1) by nra. apply Rmult_eq_reg_l with (3 * (q * q) + 1); lra.
  - split; [reflexivity|]. intros [|[|j]]; cbn; lra.
  - split; [reflexivity|]. intros [|[|j]]; cbn; lra.
  - split; [reflexivity|]. intros [|[|j]]; cbn; lra.
Qed.
