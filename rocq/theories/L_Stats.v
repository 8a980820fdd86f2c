(** Proofs of C89. *)
From Verif Require Import Py NdArray M_Stats S_Stats.
From Coq Require Import Reals Lra.
Local Open Scope string_scope.
Local Open Scope list_scope.

Lemma sum_squares_spec l : squares l (sum_squares l).
Proof.
  induction l as [|x l IH]; cbn [sum_squares fold_right]; [constructor|].
  replace (x ^ 2)%R with (x * x)%R by ring. now constructor.
Qed.
Lemma squares_fun l s1 s2 : squares l s1 -> squares l s2 -> s1 = s2.
Proof.
  intros H. revert s2. induction H; intros s2 H'; inversion H'; subst; auto. f_equal. auto.
Qed.
Lemma squares_nonneg l s : squares l s -> (0 <= s)%R.
Proof. induction 1; [lra|]. pose proof (Rle_0_sqr x). unfold Rsqr in *. lra. Qed.

Lemma norm_euclidean a : euclidean (adata a) (norm a).
Proof.
  unfold euclidean, norm. split; [apply sqrt_pos|].
  rewrite sqrt_sqrt; [apply sum_squares_spec|]. eapply squares_nonneg. apply sum_squares_spec.
Qed.

Lemma c89_statistics__p :
  forall vs ps f g e j,
    f vs ps = Ok e -> g vs ps = Ok j -> arr_wf e -> adata e <> nil ->
    exists s n, get_step_statistics vs ps (Some f) (Some g) = Ok (("RMSE", Some s) :: ("grad_norm", Some n) :: nil)%string /\
      squares (adata e) s /\ euclidean (adata j) n /\
      get_step_statistics vs ps (Some f) None = Ok (("RMSE", Some s) :: nil)%string /\
      render (fields (Some f) (Some g)) (("RMSE", Some s) :: ("grad_norm", Some n) :: nil)%string = Ok (Some s :: Some n :: nil) /\
      render (fields (Some f) (@None keyword_fn)) (("RMSE", Some s) :: nil)%string = Ok (Some s :: nil).
Proof.
  intros vs ps f g e j Hf Hg W N. exists (sum_squares (adata e)), (norm j).
  assert (M : Nat.min 1 (prodn (ashape e)) = 1).
  { unfold arr_wf in W. rewrite <- W. destruct (adata e); [tauto|reflexivity]. }
  unfold get_step_statistics. rewrite Hf, Hg. cbn [bind]. rewrite M. cbn [over INR].
  replace (sum_squares (adata e) / 1)%R with (sum_squares (adata e)) by field.
  split; [reflexivity|]. split; [apply sum_squares_spec|]. split; [apply norm_euclidean|]. split; [reflexivity|]. split; reflexivity.
Qed.

(** What is called RMSE is the root mean square only when that is 0 or 1 / n. *)
Lemma c89_rmse_refuted__p :
  forall vs ps f e s r,
    f vs ps = Ok e -> arr_wf e -> adata e <> nil ->
    get_step_statistics vs ps (Some f) None = Ok (("RMSE", Some s) :: nil)%string ->
    root_mean_square (adata e) r -> s = r -> r = 0%R \/ (INR (length (adata e)) * r)%R = 1%R.
Proof.
  intros vs ps f e s r Hf W N H (R0 & R1) ->.
  unfold get_step_statistics in H. rewrite Hf in H. cbn [bind] in H.
  assert (M : Nat.min 1 (prodn (ashape e)) = 1).
  { unfold arr_wf in W. rewrite <- W. destruct (adata e); [tauto|reflexivity]. }
  rewrite M in H. cbn [over INR] in H. injection H as H.
  replace (sum_squares (adata e) / 1)%R with (sum_squares (adata e)) in H by field.
  pose proof (squares_fun (sum_squares_spec (adata e)) R1) as E. rewrite H in E.
  destruct (Req_dec r 0) as [|K]; [now left|right].
  apply (Rmult_eq_reg_l r); auto. rewrite Rmult_1_r. transitivity (INR (length (adata e)) * (r * r))%R; [ring|now symmetry].
Qed.

Lemma c89_gradient_only_refuted__p :
  forall vs ps g j, g vs ps = Ok j ->
    exists d, get_step_statistics vs ps None (Some g) = Ok d /\ render (fields (@None keyword_fn) (Some g)) d = Err KeyError.
Proof.
  intros vs ps g j H. unfold get_step_statistics. rewrite H. cbn. eexists. split; reflexivity.
Qed.

Lemma c89_empty_refuted__p :
  forall vs ps f e, f vs ps = Ok e -> arr_wf e -> adata e = nil ->
    get_step_statistics vs ps (Some f) None = Ok (("RMSE", None) :: nil)%string.
Proof.
  intros vs ps f e H W N. unfold get_step_statistics. rewrite H. cbn [bind].
  unfold arr_wf in W. rewrite N in W. cbn in W. rewrite <- W. reflexivity.
Qed.
