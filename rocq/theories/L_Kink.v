(** C117. *)
From Coq Require Import Reals Lra FunctionalExtensionality.
From Verif Require Import Py PyStr M_NumbaSource M_Kink S_Kink.
Local Open Scope string_scope.
Local Open Scope list_scope.
Local Open Scope R_scope.

(** Total values of the generated code, and the points where it has them and is
    smooth *)
Fixpoint tv (env : string -> R) (e : kexpr) : R :=
  match e with
  | KNum r => r
  | KSym x => env x
  | KAdd a b => tv env a + tv env b
  | KMul a b => tv env a * tv env b
  | KInv a => / tv env a
  | KMax a b => Rmax (tv env a) (tv env b)
  | KLog a => ln (tv env a)
  | KHeaviside a => heaviside (tv env a)
  | KDelta _ _ => 0
  end.
Fixpoint smooth (env : string -> R) (e : kexpr) : Prop :=
  match e with
  | KNum _ | KSym _ => True
  | KAdd a b | KMul a b => smooth env a /\ smooth env b
  | KInv a => smooth env a /\ tv env a <> 0
  | KMax a b => smooth env a /\ smooth env b /\ tv env a <> tv env b
  | KLog a => smooth env a /\ 0 < tv env a
  | KHeaviside a => smooth env a /\ tv env a <> 0
  | KDelta _ a => smooth env a
  end.

Lemma smooth_value env e : smooth env e -> kvalue env e = Some (tv env e).
Proof.
  induction e; cbn [smooth kvalue tv]; intros H; try reflexivity.
  - rewrite IHe1, IHe2 by apply H. reflexivity.
  - rewrite IHe1, IHe2 by apply H. reflexivity.
  - rewrite IHe by apply H. destruct (Req_EM_T _ _); [destruct H; contradiction|reflexivity].
  - rewrite IHe1, IHe2 by apply H. reflexivity.
  - rewrite IHe by apply H. unfold eval_kcall. cbn. destruct (Rlt_dec _ _); [reflexivity|destruct H; contradiction].
  - rewrite IHe by apply H. reflexivity.
Qed.

Lemma tv_minus env a b : tv env (kminus a b) = tv env a - tv env b.
Proof. cbn. ring. Qed.
Lemma smooth_minus env a b : smooth env a -> smooth env b -> smooth env (kminus a b).
Proof. cbn. auto. Qed.

Lemma smooth_diff env x e : smooth env e -> smooth env (kdiff x e).
Proof.
  induction e; cbn [smooth kdiff]; intros H; auto.
  - destruct H. auto.
  - destruct H. auto.
  - destruct H as (H & N). repeat split; auto.
  - destruct H as (H1 & H2 & N). repeat split; auto; cbn [tv kminus]; lra.
  - destruct H as (H & N). repeat split; auto. lra.
  - destruct H as (H & N). split; auto.
Qed.
Lemma smooth_diffs env xs : forall e, smooth env e -> smooth env (kdiffs xs e).
Proof. induction xs as [|x xs IH]; intros e H; [exact H|]. apply IH. now apply smooth_diff. Qed.

Lemma written_smooth env e : written e -> away env e -> tv env e = meaning env e /\ smooth env e.
Proof.
  induction e; cbn [written away tv meaning smooth]; intros Wr A; try contradiction; auto.
  - destruct (IHe1 (proj1 Wr) (proj1 A)) as (-> & ?), (IHe2 (proj2 Wr) (proj2 A)) as (-> & ?). auto.
  - destruct (IHe1 (proj1 Wr) (proj1 A)) as (-> & ?), (IHe2 (proj2 Wr) (proj2 A)) as (-> & ?). auto.
  - destruct (IHe Wr (proj1 A)) as (-> & ?). destruct A. auto.
  - destruct A as (A1 & A2 & N). destruct (IHe1 (proj1 Wr) A1) as (-> & ?), (IHe2 (proj2 Wr) A2) as (-> & ?). auto.
  - destruct (IHe Wr (proj1 A)) as (-> & ?). destruct A. auto.
Qed.

(** ** Functions equal near a point have the same derivative *)
Definition near (p : R) (P : R -> Prop) : Prop := exists del, 0 < del /\ forall t, Rabs (t - p) < del -> P t.
Lemma near_and p P Q : near p P -> near p Q -> near p (fun t => P t /\ Q t).
Proof.
  intros (a & A & HA) (b & B & HB). exists (Rmin a b). split; [now apply Rmin_pos|]. intros t Ht.
  pose proof (Rmin_l a b). pose proof (Rmin_r a b). split; [apply HA|apply HB]; lra.
Qed.
Lemma near_impl p (P Q : R -> Prop) : (forall t, P t -> Q t) -> near p P -> near p Q.
Proof. intros I (a & A & HA). exists a. auto. Qed.
Lemma near_point p P : near p P -> P p.
Proof. intros (a & A & HA). apply HA. replace (p - p) with 0 by ring. now rewrite Rabs_R0. Qed.
Lemma near_derivative f g p l : near p (fun t => f t = g t) -> derivable_pt_lim f p l -> derivable_pt_lim g p l.
Proof.
  intros N D eps He. pose proof (near_point N) as E0. destruct N as (a & A & HA). destruct (D eps He) as (d & HD).
  assert (P : 0 < Rmin a d) by (apply Rmin_pos; [exact A|apply cond_pos]). exists (mkposreal _ P). intros h H0 H1. cbn in H1.
  pose proof (Rmin_l a d). pose proof (Rmin_r a d). rewrite <- E0, <- (HA (p + h)); [apply HD; [exact H0|lra]|].
  replace (p + h - p) with h by ring. lra.
Qed.
Lemma near_positive f p l : derivable_pt_lim f p l -> 0 < f p -> near p (fun t => 0 < f t).
Proof.
  intros D P. pose proof (derivable_continuous_pt f p (exist _ l D : derivable_pt f p)) as C.
  destruct (C (f p) P) as (a & A & H). exists a. split; [exact A|]. intros t Ht.
  destruct (Req_dec t p) as [->|N]; [exact P|].
  assert (Q : R_dist (f t) (f p) < f p).
  { apply H. split; [split; [exact I|congruence]|exact Ht]. }
  unfold R_dist in Q. apply Rabs_def2 in Q. lra.
Qed.
Lemma near_less f g p l m : derivable_pt_lim f p l -> derivable_pt_lim g p m -> f p < g p -> near p (fun t => f t < g t).
Proof.
  intros D1 D2 L. pose proof (derivable_pt_lim_minus g f p m l D2 D1) as D.
  apply near_impl with (P := fun t => 0 < (g - f)%F t); [unfold minus_fct; intros; lra|].
  eapply near_positive; [exact D|unfold minus_fct; lra].
Qed.
Lemma near_nonzero f p l : derivable_pt_lim f p l -> f p <> 0 -> near p (fun t => f t <> 0).
Proof.
  intros D N. destruct (Rlt_le_dec 0 (f p)) as [P|P].
  - eapply near_impl; [|eapply near_positive; eauto]. intros t H. cbn in H. lra.
  - assert (P' : 0 < (- f)%F p) by (unfold opp_fct; lra).
    eapply near_impl; [|eapply near_positive; [apply derivable_pt_lim_opp; exact D|exact P']]. unfold opp_fct. intros t H. lra.
Qed.

Lemma inv_derivative f p l : derivable_pt_lim f p l -> f p <> 0 -> derivable_pt_lim (fun t => / f t) p (-1 * (l * (/ f p * / f p))).
Proof.
  intros D N. pose proof (derivable_pt_lim_div (fct_cte 1) f p 0 l (derivable_pt_lim_const 1 p) D N) as Q.
  replace (-1 * (l * (/ f p * / f p))) with ((0 * f p - l * fct_cte 1 p) / Rsqr (f p)) by (unfold fct_cte, Rsqr; field; exact N).
  eapply near_derivative; [|exact Q]. exists 1. split; [lra|]. intros t _. unfold div_fct, fct_cte, Rdiv. ring.
Qed.

Lemma tv_derivative x e : forall env, smooth env e ->
  derivable_pt_lim (fun t => tv (set_sym env x t) e) (env x) (tv env (kdiff x e)).
Proof.
  assert (ID : forall env, set_sym env x (env x) = env).
  { intros env. apply functional_extensionality. intros y. unfold set_sym. destruct (String.eqb y x) eqn:E; [apply String.eqb_eq in E; congruence|reflexivity]. }
  induction e as [r|y|a IHa b IHb|a IHa b IHb|a IHa|a IHa b IHb|a IHa|a IHa|k a IHa]; intros env H; cbn [tv kdiff smooth] in *.
  - apply derivable_pt_lim_const.
  - unfold set_sym. rewrite (String.eqb_sym x y). destruct (String.eqb y x); [apply derivable_pt_lim_id|apply derivable_pt_lim_const].
  - apply (derivable_pt_lim_plus (fun t => tv (set_sym env x t) a) (fun t => tv (set_sym env x t) b)); [apply IHa|apply IHb]; apply H.
  - pose proof (derivable_pt_lim_mult (fun t => tv (set_sym env x t) a) (fun t => tv (set_sym env x t) b) (env x) _ _ (IHa env (proj1 H)) (IHb env (proj2 H))) as D.
    cbn in D. rewrite ID in D. exact D.
  - pose proof (@inv_derivative (fun t => tv (set_sym env x t) a) (env x) _ (IHa env (proj1 H))) as D. cbn in D. rewrite ID in D. apply D. apply H.
  - destruct H as (Ha & Hb & N). pose proof (IHa env Ha) as Da. pose proof (IHb env Hb) as Db.
    assert (HE : forall u v, u < v -> heaviside (u + -1 * v) = 0 /\ heaviside (v + -1 * u) = 1).
    { intros u v L. unfold heaviside. split; repeat destruct (Rlt_dec _ _); try lra. }
    destruct (Rtotal_order (tv env a) (tv env b)) as [L|[L|L]]; [|contradiction|].
    + destruct (HE _ _ L) as (E1 & E2). cbn [kminus tv]. rewrite E1, E2. replace (0 * tv env (kdiff x a) + 1 * tv env (kdiff x b)) with (tv env (kdiff x b)) by ring.
      eapply near_derivative; [|exact Db]. eapply near_impl; [|eapply near_less; [exact Da|exact Db|cbn; rewrite ID; exact L]].
      cbn. intros t Ht. rewrite Rmax_right; lra.
    + destruct (HE _ _ L) as (E1 & E2). cbn [kminus tv]. rewrite E1, E2. replace (1 * tv env (kdiff x a) + 0 * tv env (kdiff x b)) with (tv env (kdiff x a)) by ring.
      eapply near_derivative; [|exact Da]. eapply near_impl; [|eapply near_less; [exact Db|exact Da|cbn; rewrite ID; exact L]].
      cbn. intros t Ht. rewrite Rmax_left; lra.
  - destruct H as (Ha & N). pose proof (IHa env Ha) as Da.
    assert (Dl : derivable_pt_lim ln ((fun t => tv (set_sym env x t) a) (env x)) (/ tv env a)).
    { cbn. rewrite ID. apply derivable_pt_lim_ln. exact N. }
    pose proof (derivable_pt_lim_comp _ ln (env x) _ _ Da Dl) as D. rewrite Rmult_comm. exact D.
  - destruct H as (Ha & N). pose proof (IHa env Ha) as Da. rewrite Rmult_0_l.
    eapply near_derivative; [|apply (derivable_pt_lim_const (heaviside (tv env a)))].
    assert (N' : (fun t => tv (set_sym env x t) a) (env x) <> 0) by (cbn; rewrite ID; exact N).
    assert (Z : derivable_pt_lim (fct_cte 0) (env x) 0) by apply derivable_pt_lim_const.
    destruct (Rlt_le_dec 0 (tv env a)) as [P|P].
    + eapply near_impl; [|eapply near_less; [exact Z|exact Da|cbn; rewrite ID; exact P]]. unfold fct_cte. cbn. intros t Ht.
      unfold heaviside. repeat destruct (Rlt_dec _ _); lra.
    + assert (P' : tv env a < 0) by lra. eapply near_impl; [|eapply near_less; [exact Da|exact Z|cbn; rewrite ID; exact P']]. unfold fct_cte. cbn. intros t Ht.
      unfold heaviside. repeat destruct (Rlt_dec _ _); lra.
  - rewrite Rmult_0_l. apply derivable_pt_lim_const.
Qed.

Lemma smooth_near x e : forall env, smooth env e -> near (env x) (fun t => smooth (set_sym env x t) e).
Proof.
  assert (ID : forall env, set_sym env x (env x) = env).
  { intros env. apply functional_extensionality. intros y. unfold set_sym. destruct (String.eqb y x) eqn:E; [apply String.eqb_eq in E; congruence|reflexivity]. }
  assert (T : forall p, near p (fun _ => True)) by (intros p; exists 1; split; [lra|auto]).
  induction e as [r|y|a IHa b IHb|a IHa b IHb|a IHa|a IHa b IHb|a IHa|a IHa|k a IHa]; intros env H; cbn [smooth] in *; auto.
  - apply near_and; [apply IHa|apply IHb]; apply H.
  - apply near_and; [apply IHa|apply IHb]; apply H.
  - destruct H as (Ha & N). apply near_and; [auto|]. eapply near_nonzero; [apply (tv_derivative x a env Ha)|cbn; rewrite ID; exact N].
  - destruct H as (Ha & Hb & N). apply near_and; [auto|]. apply near_and; [auto|].
    pose proof (tv_derivative x a env Ha) as Da. pose proof (tv_derivative x b env Hb) as Db.
    destruct (Rtotal_order (tv env a) (tv env b)) as [L|[L|L]]; [|contradiction|].
    + eapply near_impl; [|eapply near_less; [exact Da|exact Db|cbn; rewrite ID; exact L]]. cbn. intros. lra.
    + eapply near_impl; [|eapply near_less; [exact Db|exact Da|cbn; rewrite ID; exact L]]. cbn. intros. lra.
  - destruct H as (Ha & N). apply near_and; [auto|]. eapply near_positive; [apply (tv_derivative x a env Ha)|cbn; rewrite ID; exact N].
  - destruct H as (Ha & N). apply near_and; [auto|]. eapply near_nonzero; [apply (tv_derivative x a env Ha)|cbn; rewrite ID; exact N].
Qed.

Lemma c117_value__p :
  forall (env : string -> R) (e : kexpr), written e -> away env e -> kvalue env e = Some (meaning env e).
Proof.
  intros env e Wr A. destruct (@written_smooth env e Wr A) as (<- & S). now apply smooth_value.
Qed.

Lemma c117_derivatives__p :
  forall (env : string -> R) (e : kexpr) (xs : list string) (x : string), written e -> away env e ->
  is_partial x env (fun env' => kvalue env' (kdiffs xs e)) (fun env' => kvalue env' (kdiffs (xs ++ [x]) e)).
Proof.
  intros env e xs x Wr A. destruct (@written_smooth env e Wr A) as (_ & S). pose proof (@smooth_diffs env xs e S) as Sx.
  destruct (@smooth_near x _ env Sx) as (del & D0 & D). exists (fun t => tv (set_sym env x t) (kdiffs xs e)), (tv env (kdiff x (kdiffs xs e))), del.
  split; [exact D0|]. split; [|split].
  - unfold kdiffs. rewrite fold_left_app. cbn [fold_left]. apply smooth_value. now apply smooth_diff.
  - intros t Ht. apply smooth_value. now apply D.
  - now apply tv_derivative.
Qed.

(** At a tie the code returns a number though there is no derivative. *)
Lemma c117_tie_refuted__p :
  exists (env : string -> R) (e : kexpr) (x : string), written e /\ kvalue env (kdiff x e) <> None /\ kvalue env (kdiffs [x; x] e) = Some 0 /\
  ~ is_partial x env (fun env' => kvalue env' e) (fun env' => kvalue env' (kdiff x e)).
Proof.
  exists (fun _ => 0), (KMax (KNum 0) (KSym "x")), "x". split; [cbn; auto|]. split; [cbn; discriminate|]. split.
  - cbn. f_equal. ring.
  - intros (F & G & del & D0 & HG & HF & HD).
    assert (HG' : G = 1 / 2).
    { cbn in HG. injection HG as <-. unfold heaviside. repeat destruct (Rlt_dec _ _); lra. }
    assert (EF : forall t, Rabs t < del -> F t = Rmax 0 t).
    { intros t Ht. specialize (HF t). replace (t - 0) with t in HF by ring. specialize (HF Ht). cbn in HF. unfold eval_kcall in HF. cbn in HF. congruence. }
    destruct (HD (1 / 4) ltac:(lra)) as (d & Hd).
    set (h := Rmin (del / 2) (d / 2)). assert (P : 0 < h) by (unfold h; apply Rmin_pos; [lra|pose proof (cond_pos d); lra]).
    assert (h < del) by (unfold h; pose proof (Rmin_l (del / 2) (d / 2)); lra).
    assert (h < d) by (unfold h; pose proof (Rmin_r (del / 2) (d / 2)); pose proof (cond_pos d); lra).
    specialize (Hd h ltac:(lra) ltac:(rewrite Rabs_pos_eq; lra)). rewrite Rplus_0_l in Hd.
    rewrite (EF h), (EF 0), HG' in Hd; [|rewrite Rabs_R0; lra|rewrite Rabs_pos_eq; lra].
    rewrite (Rmax_right 0 h), (Rmax_left 0 0) in Hd by lra. replace ((h - 0) / h - 1 / 2) with (1 / 2) in Hd by (field; lra).
    rewrite Rabs_pos_eq in Hd; lra.
Qed.
