(** C115: the Euler approximations converge to the path of equilibria. *)
From Coq Require Import Reals Lra.
From Verif Require Import Py PyStr NdArray M_Primitives M_Utilities M_Wrappers M_Euler S_Layout S_Euler S_Converge L_Euler3 L_Converge L_Converge2.
Local Open Scope string_scope.
Local Open Scope list_scope.
Local Open Scope R_scope.

(** The model used in the examples: a net price p and a tax a with
    p (1 + a) = 1. The tax goes from 0 to 1; the path is p = 1 / (1 + t). *)
Definition tx_vars := [exobj KVar "p" []].
Definition tx_params := [exobj KPar "a" []].
Definition tx_data : dict (arr R) := [("p", mkArr [] [1]); ("a", mkArr [] [0])].
Definition tx_F (x th : list R) : list R := [nth 0 x 0 * (1 + nth 0 th 0) - 1].
Definition tx_A (x th : list R) : list (list R) := [[1 + nth 0 th 0]].
Definition tx_B (x th : list R) : list (list R) := [[nth 0 x 0]].
Definition tx_solve (m : list (list R)) (v : list R) : list R := map (fun q => q / nth 0 (nth 0 m []) 0) v.
Definition tx_X (t : R) : list R := [/ (1 + t)].
Definition tx_X' (t : R) : list R := [- / ((1 + t) * (1 + t))].

Lemma tx_input : euler_input [] tx_vars tx_params [[]] [[]] tx_data [1] [0] [1].
Proof.
  constructor; try discriminate; try reflexivity.
  - repeat constructor; simpl; intuition discriminate.
  - repeat constructor; simpl; intuition discriminate.
  - repeat constructor; eexists; split; reflexivity.
  - repeat constructor; eexists; split; reflexivity.
  - intros s H. repeat destruct H as [<-|H]; try discriminate. destruct H.
  - intros o [<-|[<-|[]]]; eexists; (split; [reflexivity|]); (split; [reflexivity|repeat constructor; eexists; split; reflexivity]).
Qed.

Lemma one_entry (P : nat -> Prop) n : n = 1%nat -> P 0%nat -> forall i, (i < n)%nat -> P i.
Proof. intros -> H0 i Hi. assert (i = 0)%nat as -> by lia. exact H0. Qed.

Lemma tx_line t : line [0] [1] t = [t].
Proof. unfold line. cbn. f_equal. ring. Qed.

Lemma within1 e u v : within e [u] [v] <-> Rabs (u - v) <= e.
Proof.
  split.
  - intros (_ & H). apply (H 0%nat). cbn. lia.
  - intros H. split; [reflexivity|]. apply (one_entry (fun i => Rabs (nth i [u] 0 - nth i [v] 0) <= e)); [reflexivity|exact H].
Qed.
Lemma within_one e x v : within e x [v] -> exists u, x = [u] /\ Rabs (u - v) <= e.
Proof.
  intros W. destruct x as [|u [|]]; try (destruct W as (W & _); discriminate). exists u. split; [reflexivity|]. now apply within1.
Qed.

Lemma tx_path : equilibrium_path tx_F tx_A tx_B tx_solve 1 1 [1] [0] [1] tx_X tx_X' 1 1 2.
Proof.
  assert (Inv : forall t, 0 <= t <= 1 -> 0 < / (1 + t) <= 1 /\ / (1 + t) * (1 + t) = 1).
  { intros t Ht. split; [split|field; lra]. apply Rinv_0_lt_compat; lra. rewrite <- Rinv_1. apply Rinv_le_contravar; lra. }
  constructor; [ | | | |intros t Ht; rewrite !tx_line|intros t x Ht Hw; rewrite !tx_line|intros t x e Ht He Hw; rewrite !tx_line|].
  - unfold tx_X. f_equal. field.
  - intros. split; reflexivity.
  - intros t i Ht Hi. assert (i = 0)%nat as -> by lia. cbn [tx_X tx_X' nth].
    assert (D : derivable_pt_lim (fct_cte 1 + id)%F t (0 + 1)) by (apply derivable_pt_lim_plus; [apply derivable_pt_lim_const|apply derivable_pt_lim_id]).
    pose proof (derivable_pt_lim_div (fct_cte 1) (fct_cte 1 + id)%F t 0 (0 + 1) (derivable_pt_lim_const 1 t) D) as Q.
    assert (N : (fct_cte 1 + id)%F t <> 0) by (unfold plus_fct, fct_cte, id; lra). specialize (Q N).
    replace (- / ((1 + t) * (1 + t))) with ((0 * (fct_cte 1 + id)%F t - (0 + 1) * fct_cte 1 t) / Rsqr ((fct_cte 1 + id)%F t)).
    + intros eps He. destruct (Q eps He) as (del & HD). exists del. intros h H0 H1. specialize (HD h H0 H1).
      unfold div_fct, plus_fct, fct_cte, id in *. cbn [tx_X nth]. unfold Rdiv in *. rewrite !(Rmult_1_l (/ _)) in HD. exact HD.
    + unfold plus_fct, fct_cte, id, Rsqr. field. lra.
  - intros t Ht. rewrite tx_line. unfold tx_F, tx_X, zeros. cbn. f_equal. destruct (Inv t Ht) as (_ & E). rewrite E. ring.
  - intros eps He. exists eps. split; [exact He|]. intros x' th' m Hm Wx Wt.
    destruct (within_one Wx) as (u & -> & Hu). destruct (within_one Wt) as (v & -> & Hv).
    unfold tx_F, tx_A, tx_B, tx_X, vadd, vsub, mv, dot. cbn. apply within1.
    set (w := / (1 + t)) in *.
    match goal with |- Rabs ?e <= _ => replace e with ((u - w) * (v - t)) by ring end.
    rewrite Rabs_mult. apply Rle_trans with (m * m); [apply Rmult_le_compat; auto using Rabs_pos|]. apply Rmult_le_compat_r; lra.
  - destruct (within_one Hw) as (u & -> & Hu). unfold tx_A, tx_B. cbn [nth]. repeat split.
    + intros row [<-|[]]. reflexivity.
    + intros row [<-|[]]. reflexivity.
    + unfold tx_solve. rewrite map_length. assumption.
    + destruct b as [|q [|]]; try discriminate. unfold tx_solve, mv, dot. cbn. f_equal. field. lra.
    + intros [|a [|]] [|b [|]] La Lb E; try discriminate. unfold mv, dot in E. cbn in E. injection E as E. f_equal.
      apply Rmult_eq_reg_l with (1 + t); lra.
  - destruct (within_one Hw) as (u & -> & Hu). unfold euler_inc, tx_A, tx_B, tx_solve, tx_X, mv, dot, vsub, vneg. cbn. apply within1.
    set (w := / (1 + t)) in *. destruct (Inv t Ht) as (I1 & I2). unfold Rdiv. fold w in I1, I2 |- *.
    match goal with |- Rabs ?e <= _ => replace e with ((u - w) * - w) by ring end.
    rewrite Rabs_mult, Rabs_Ropp, (Rabs_pos_eq w) by lra. pose proof (Rabs_pos (u - w)). nra.
  - intros s t Hs Ht. unfold tx_X'. apply within1. destruct (Inv s Hs) as (S1 & S2), (Inv t Ht) as (T1 & T2).
    rewrite !Rinv_mult.
    set (a := / (1 + s)) in *. set (b := / (1 + t)) in *.
    replace (- (a * a) - - (b * b)) with ((b + a) * (b - a)) by ring.
    assert (Q : b - a = a * b * (s - t)).
    { unfold a, b. field. lra. }
    rewrite Q, Rabs_mult, Rabs_mult, (Rabs_pos_eq (b + a)), (Rabs_pos_eq (a * b)) by nra.
    pose proof (Rabs_pos (s - t)). assert (a * b <= 1) by nra. assert ((b + a) * (a * b) <= 2) by nra.
    rewrite <- Rmult_assoc. apply Rmult_le_compat_r; auto.
Qed.

(** C115 *)
Theorem c115_bound :
  forall (b : backend) (use_rk4 : bool) (F : list R -> list R -> list R) (A B : list R -> list R -> list (list R))
         (solve : list (list R) -> list R -> list R) (c : coords) (vars params : list mobj) (sv sp : list (list nat)) (data : dict (arr R))
         (x0 theta0 theta1 : list R) (X X' : R -> list R) (r L M : R) (n : nat),
  euler_input c vars params sv sp data x0 theta0 theta1 -> supports b use_rk4 ->
  (forall x th, length (B x th) = total sv) -> (forall m v, length (solve m v) = length v) ->
  equilibrium_path F A B solve (total sv) (total sp) x0 theta0 theta1 X X' r L M -> 0 < r -> 0 <= L -> 0 <= M ->
  (1 <= n)%nat -> L <= INR n -> 12 * M * exp (2 * L) <= r * INR n ->
  exists out, run_euler b use_rk4 (euler_inc A B solve) vars params c theta1 n data = Ok out /\
    forall t, (first_step b <= t <= n)%nat ->
      within (3 * M * exp (2 * L) / INR n) (firstn (total sv) (row_of out (t - first_step b))) (X (INR t / INR n)).
Proof. exact @c115_bound__p. Qed.
Print Assumptions c115_bound.
(** Ten thousand steps are enough for an error below 0.006. *)
Example c115_bound_ex b use_rk4 n : supports b use_rk4 -> 10000 <= INR n ->
  exists out, run_euler b use_rk4 (euler_inc tx_A tx_B tx_solve) tx_vars tx_params [] [1] n tx_data = Ok out /\
    within (6 / 1000) (firstn 1 (row_of out (n - first_step b))) [/ 2].
Proof.
  intros Hs Hn. assert (1 <= n)%nat by (destruct n; [cbn in Hn; lra|lia]).
  assert (E2 : exp (2 * 1) <= 9).
  { replace (2 * 1) with (1 + 1) by ring. rewrite exp_plus. pose proof exp_le_3. pose proof (exp_pos 1). nra. }
  destruct (@c115_bound b use_rk4 tx_F tx_A tx_B tx_solve [] tx_vars tx_params [[]] [[]] tx_data [1] [0] [1] tx_X tx_X' 1 1 2 n
    tx_input Hs (fun _ _ => eq_refl)) as (out & E & W); try exact tx_path; try lra; try assumption.
  - intros. unfold tx_solve. apply map_length.
  - exists out. split; [exact E|]. specialize (W n). destruct W as (W1 & W2); [destruct b; cbn; lia|].
    replace (INR n / INR n) with 1 in W1, W2 by (field; lra). replace [/ 2] with (tx_X 1) by (unfold tx_X; do 2 f_equal; ring).
    split; [exact W1|]. intros i Hi. eapply Rle_trans; [apply (W2 i Hi)|]. apply Rmult_le_reg_r with (INR n); [lra|].
    unfold Rdiv at 1. rewrite Rmult_assoc, Rinv_l by lra. lra.
Qed.

Theorem c115_limit :
  forall (b : backend) (use_rk4 : bool) (F : list R -> list R -> list R) (A B : list R -> list R -> list (list R))
         (solve : list (list R) -> list R -> list R) (c : coords) (vars params : list mobj) (sv sp : list (list nat)) (data : dict (arr R))
         (x0 theta0 theta1 : list R) (X X' : R -> list R) (r L M : R),
  euler_input c vars params sv sp data x0 theta0 theta1 -> supports b use_rk4 ->
  (forall x th, length (B x th) = total sv) -> (forall m v, length (solve m v) = length v) ->
  equilibrium_path F A B solve (total sv) (total sp) x0 theta0 theta1 X X' r L M -> 0 < r -> 0 <= L -> 0 <= M ->
  F (X 1) theta1 = zeros (total sv) /\
  forall eps, 0 < eps -> exists N, forall n, (N <= n)%nat ->
    exists out, run_euler b use_rk4 (euler_inc A B solve) vars params c theta1 n data = Ok out /\
      (forall t, (first_step b <= t <= n)%nat -> within eps (firstn (total sv) (row_of out (t - first_step b))) (X (INR t / INR n))) /\
      within eps (firstn (total sv) (row_of out (n - first_step b))) (X 1) /\
      skipn (total sv) (row_of out (n - first_step b)) = theta1 /\
      within eps (F (firstn (total sv) (row_of out (n - first_step b))) theta1) (zeros (total sv)).
Proof. exact @c115_limit__p. Qed.
Print Assumptions c115_limit.
Example c115_limit_ex b use_rk4 : supports b use_rk4 -> forall eps, 0 < eps -> exists N, forall n, (N <= n)%nat ->
  exists out, run_euler b use_rk4 (euler_inc tx_A tx_B tx_solve) tx_vars tx_params [] [1] n tx_data = Ok out /\
    within eps (firstn 1 (row_of out (n - first_step b))) [/ 2].
Proof.
  intros Hs eps He.
  destruct (@c115_limit b use_rk4 tx_F tx_A tx_B tx_solve [] tx_vars tx_params [[]] [[]] tx_data [1] [0] [1] tx_X tx_X' 1 1 2
    tx_input Hs (fun _ _ => eq_refl)) as (_ & H); try exact tx_path; try lra.
  - intros. unfold tx_solve. apply map_length.
  - destruct (H eps He) as (N & HN). exists N. intros n Hn. destruct (HN n Hn) as (out & E & _ & W & _).
    exists out. split; [exact E|]. replace [/ 2] with (tx_X 1) by (unfold tx_X; do 2 f_equal; ring). exact W.
Qed.
