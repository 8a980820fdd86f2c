(** Lemmas for C118: written expressions change at most in proportion to their
    symbols around a point where they are smooth, and their symbolic derivatives
    give their change along a line. *)
From Coq Require Import Reals Lra FunctionalExtensionality.
From Verif Require Import Py PyStr M_SymExpr M_Calculus S_Calculus L_Calculus.
Local Open Scope string_scope.
Local Open Scope list_scope.
Local Open Scope R_scope.

Lemma Rabs_le_inv a b : Rabs a <= b -> - b <= a <= b.
Proof. intros H. pose proof (Rle_abs a). pose proof (Rle_abs (- a)) as Q. rewrite Rabs_Ropp in Q. lra. Qed.

Definition close (m : R) (v v' : string -> R) : Prop := forall s, Rabs (v s - v' s) <= m.
Lemma close_pos m v v' : close m v v' -> 0 <= m.
Proof. intros H. pose proof (H ""). pose proof (Rabs_pos (v "" - v' "")). lra. Qed.
Lemma close_mono m m' v v' : close m v v' -> m <= m' -> close m' v v'.
Proof. intros H L s. pose proof (H s). lra. Qed.
Lemma close_refl m v : 0 <= m -> close m v v.
Proof. intros H s. rewrite Rminus_diag_eq, Rabs_R0 by reflexivity. exact H. Qed.
Lemma close_sym m v v' : close m v v' -> close m v' v.
Proof. intros H s. rewrite Rabs_minus_sym. apply H. Qed.
Lemma close_trans m m' v w u : close m v w -> close m' w u -> close (m + m') v u.
Proof. intros H H' s. replace (v s - u s) with ((v s - w s) + (w s - u s)) by ring. eapply Rle_trans; [apply Rabs_triang|]. specialize (H s). specialize (H' s). lra. Qed.

Definition loclip (f : (string -> R) -> R) (v0 : string -> R) : Prop :=
  exists r K, 0 < r /\ 0 <= K /\ forall v v' m, close r v v0 -> close r v' v0 -> close m v v' -> Rabs (f v - f v') <= K * m.

Lemma loclip_near f v0 : loclip f v0 -> forall eps, 0 < eps -> exists r, 0 < r /\ forall v, close r v v0 -> Rabs (f v - f v0) <= eps.
Proof.
  intros (r & K & Hr & HK & H) eps He. exists (Rmin r (eps / (K + 1))).
  assert (0 < eps / (K + 1)) by (apply Rdiv_lt_0_compat; lra). split; [now apply Rmin_pos|].
  intros v C. eapply Rle_trans; [apply (H v v0 (eps / (K + 1)))|].
  - eapply close_mono; [exact C|apply Rmin_l].
  - apply close_refl. lra.
  - eapply close_mono; [exact C|apply Rmin_r].
  - unfold Rdiv. rewrite <- Rmult_assoc. apply Rmult_le_reg_r with (K + 1); [lra|]. rewrite Rmult_assoc, Rinv_l by lra. nra.
Qed.

Lemma loclip_bound f v0 : loclip f v0 -> exists r K, 0 < r /\ 0 <= K /\ forall v, close r v v0 -> Rabs (f v) <= K.
Proof.
  intros H. destruct (loclip_near H Rlt_0_1) as (r & Hr & N). exists r, (Rabs (f v0) + 1). pose proof (Rabs_pos (f v0)). split; [auto|]. split; [lra|].
  intros v C. replace (f v) with (f v0 + (f v - f v0)) by ring. eapply Rle_trans; [apply Rabs_triang|]. specialize (N v C). lra.
Qed.

Definition liploc1 (g : R -> R) (y0 : R) : Prop :=
  exists rho K, 0 < rho /\ 0 <= K /\ forall y y', Rabs (y - y0) <= rho -> Rabs (y' - y0) <= rho -> Rabs (g y - g y') <= K * Rabs (y - y').

Lemma loclip_comp g f v0 : liploc1 g (f v0) -> loclip f v0 -> loclip (fun v => g (f v)) v0.
Proof.
  intros (rho & Kg & Hrho & HKg & G) Hf. destruct (loclip_near Hf Hrho) as (r1 & Hr1 & N). destruct Hf as (r & K & Hr & HK & H).
  exists (Rmin r r1), (Kg * K). split; [now apply Rmin_pos|]. split; [now apply Rmult_le_pos|]. intros v v' m C C' M.
  assert (L : close r v v0 /\ close r1 v v0) by (split; eapply close_mono; [exact C|apply Rmin_l|exact C|apply Rmin_r]).
  assert (L' : close r v' v0 /\ close r1 v' v0) by (split; eapply close_mono; [exact C'|apply Rmin_l|exact C'|apply Rmin_r]).
  eapply Rle_trans; [apply G; apply N; tauto|]. rewrite Rmult_assoc. apply Rmult_le_compat_l; [auto|]. apply H; tauto.
Qed.

Lemma loclip_const c v0 : loclip (fun _ => c) v0.
Proof. exists 1, 0. split; [lra|]. split; [lra|]. intros. rewrite Rminus_diag_eq, Rabs_R0 by reflexivity. lra. Qed.
Lemma loclip_sym s v0 : loclip (fun v => v s) v0.
Proof. exists 1, 1. split; [lra|]. split; [lra|]. intros v v' m _ _ H. rewrite Rmult_1_l. apply H. Qed.

Lemma loclip_plus f g v0 : loclip f v0 -> loclip g v0 -> loclip (fun v => f v + g v) v0.
Proof.
  intros (r & K & Hr & HK & H) (r' & K' & Hr' & HK' & H'). exists (Rmin r r'), (K + K'). split; [now apply Rmin_pos|]. split; [lra|].
  intros v v' m C C' M. replace (f v + g v - (f v' + g v')) with ((f v - f v') + (g v - g v')) by ring.
  eapply Rle_trans; [apply Rabs_triang|]. rewrite Rmult_plus_distr_r. apply Rplus_le_compat.
  - apply H; auto; eapply close_mono; eauto using Rmin_l.
  - apply H'; auto; eapply close_mono; eauto using Rmin_r.
Qed.

Lemma loclip_mult f g v0 : loclip f v0 -> loclip g v0 -> loclip (fun v => f v * g v) v0.
Proof.
  intros Hf Hg. destruct (loclip_bound Hf) as (r1 & F & Hr1 & HF & BF). destruct (loclip_bound Hg) as (r2 & G & Hr2 & HG & BG).
  destruct Hf as (r & K & Hr & HK & H), Hg as (r' & K' & Hr' & HK' & H'). exists (Rmin (Rmin r r') (Rmin r1 r2)), (F * K' + G * K).
  split; [repeat apply Rmin_pos; auto|]. split; [apply Rplus_le_le_0_compat; now apply Rmult_le_pos|].
  assert (M1 := Rmin_l (Rmin r r') (Rmin r1 r2)). assert (M2 := Rmin_r (Rmin r r') (Rmin r1 r2)).
  assert (M3 := Rmin_l r r'). assert (M4 := Rmin_r r r'). assert (M5 := Rmin_l r1 r2). assert (M6 := Rmin_r r1 r2).
  set (q := Rmin (Rmin r r') (Rmin r1 r2)) in *.
  intros v v' m C C' M. replace (f v * g v - f v' * g v') with (f v * (g v - g v') + g v' * (f v - f v')) by ring.
  eapply Rle_trans; [apply Rabs_triang|]. rewrite !Rabs_mult, Rmult_plus_distr_r, !Rmult_assoc. apply Rplus_le_compat.
  - apply Rmult_le_compat; try apply Rabs_pos; [apply BF; apply (close_mono C); lra|]. apply H'; auto; [apply (close_mono C)|apply (close_mono C')]; lra.
  - apply Rmult_le_compat; try apply Rabs_pos; [apply BG; apply (close_mono C'); lra|]. apply H; auto; [apply (close_mono C)|apply (close_mono C')]; lra.
Qed.

Lemma lip_inv y0 : y0 <> 0 -> liploc1 Rinv y0.
Proof.
  intros N. pose proof (Rabs_pos_lt _ N) as P. exists (Rabs y0 / 2), (/ (Rabs y0 / 2) * / (Rabs y0 / 2)). split; [lra|].
  assert (I : 0 < / (Rabs y0 / 2)) by (apply Rinv_0_lt_compat; lra). split; [nra|].
  assert (B : forall y, Rabs (y - y0) <= Rabs y0 / 2 -> y <> 0 /\ Rabs (/ y) <= / (Rabs y0 / 2)).
  { intros y H. assert (Rabs y0 / 2 <= Rabs y).
    { pose proof (Rabs_triang (y0 - y) y) as T. replace (y0 - y + y) with y0 in T by ring. rewrite Rabs_minus_sym in T. lra. }
    assert (y <> 0) by (intros ->; rewrite Rabs_R0 in *; lra). split; auto. rewrite Rabs_inv. apply Rinv_le_contravar; lra. }
  intros y y' H H'. destruct (B y H) as (Y & BY), (B y' H') as (Y' & BY').
  replace (/ y - / y') with (/ y * / y' * (y' - y)) by (field; auto). rewrite !Rabs_mult, (Rabs_minus_sym y' y).
  apply Rmult_le_compat_r; [apply Rabs_pos|]. apply Rmult_le_compat; auto using Rabs_pos.
Qed.

Lemma exp_above x : 1 + x <= exp x.
Proof. destruct (Req_dec x 0) as [->|N]; [rewrite exp_0; lra|]. left. now apply exp_ineq1. Qed.

Lemma lip_exp y0 : liploc1 exp y0.
Proof.
  exists 1, (exp (y0 + 1)). split; [lra|]. split; [left; apply exp_pos|].
  assert (G : forall y y', y' <= y -> y <= y0 + 1 -> 0 <= exp y - exp y' <= exp (y0 + 1) * (y - y')).
  { intros y y' L U.
    assert (exp y' <= exp y) by (destruct L as [L| ->]; [left; now apply exp_increasing|lra]).
    assert (exp y <= exp (y0 + 1)) by (destruct U as [U| ->]; [left; now apply exp_increasing|lra]).
    pose proof (exp_above (y' - y)) as E. assert (Q : exp y' = exp y * exp (y' - y)) by (rewrite <- exp_plus; f_equal; ring).
    pose proof (exp_pos y). split; [lra|]. rewrite Q. assert (exp y - exp y * exp (y' - y) <= exp y * (y - y')) by nra.
    assert (exp y * (y - y') <= exp (y0 + 1) * (y - y')) by (apply Rmult_le_compat_r; lra). lra. }
  intros y y' H H'. apply Rabs_le_inv in H, H'. destruct (Rle_dec y' y).
  - destruct (G y y'); try lra. rewrite !Rabs_pos_eq by lra. lra.
  - destruct (G y' y); try lra. rewrite (Rabs_minus_sym (exp y)), (Rabs_minus_sym y), !Rabs_pos_eq by lra. lra.
Qed.

Lemma lip_ln y0 : 0 < y0 -> liploc1 ln y0.
Proof.
  intros P. exists (y0 / 2), (/ (y0 / 2)). split; [lra|]. assert (I : 0 < / (y0 / 2)) by (apply Rinv_0_lt_compat; lra). split; [lra|].
  assert (G : forall y y', y0 / 2 <= y' -> y' <= y -> 0 <= ln y - ln y' <= / (y0 / 2) * (y - y')).
  { intros y y' L U. assert (Y : ln y' <= ln y) by (destruct U as [U| ->]; [left; apply ln_increasing; lra|lra]).
    split; [lra|]. pose proof (exp_above (ln y - ln y')) as E. unfold Rminus in E at 2. rewrite exp_plus, exp_Ropp, !exp_ln in E by lra.
    assert (/ y' <= / (y0 / 2)) by (apply Rinv_le_contravar; lra).
    assert (y * / y' - 1 = / y' * (y - y')) by (field; lra). nra. }
  intros y y' H H'. apply Rabs_le_inv in H, H'. destruct (Rle_dec y' y).
  - destruct (G y y'); try lra. rewrite !Rabs_pos_eq by lra. lra.
  - destruct (G y' y); try lra. rewrite (Rabs_minus_sym (ln y)), (Rabs_minus_sym y), !Rabs_pos_eq by lra. lra.
Qed.

Lemma loclip_pow f v0 n : loclip f v0 -> loclip (fun v => f v ^ n) v0.
Proof. intros H. induction n as [|n IH]; cbn [pow]; [apply loclip_const|]. now apply loclip_mult. Qed.

Lemma loclip_powerRZ f v0 n : loclip f v0 -> ((n < 0)%Z -> f v0 <> 0) -> loclip (fun v => powerRZ (f v) n) v0.
Proof.
  intros H N. destruct n as [|q|q]; cbn [powerRZ].
  - apply loclip_const.
  - now apply loclip_pow.
  - apply (@loclip_comp Rinv (fun v => f v ^ Pos.to_nat q)); [|now apply loclip_pow]. apply lip_inv, pow_nonzero, N. lia.
Qed.

Section Expr.
Context (p : string -> list idx -> R).

Lemma loclip_val e : forall v0, smooth v0 p e -> loclip (fun v => val v p e) v0.
Proof.
  induction e; intros v0 H.
  - exact (loclip_const (IZR z) v0).
  - exact (loclip_sym s v0).
  - exact (loclip_const (p base ixs) v0).
  - assert (Op : forall f, loclip f v0 -> loclip (fun v => - f v) v0).
    { intros f Hf. replace (fun v => - f v) with (fun v => (-1) * f v) by (apply functional_extensionality; intros; ring).
      apply loclip_mult; [apply loclip_const|exact Hf]. }
    destruct o; cbn [smooth] in H; cbn [val].
    + apply loclip_plus; [apply IHe1|apply IHe2]; tauto.
    + apply loclip_plus; [apply IHe1; tauto|apply Op, IHe2; tauto].
    + apply loclip_mult; [apply IHe1|apply IHe2]; tauto.
    + destruct H as (H1 & H2 & H3). apply loclip_mult; [auto|]. apply (@loclip_comp Rinv); [now apply lip_inv|auto].
    + destruct H as (H1 & H2 & H3). destruct (is_num e2).
      * apply loclip_powerRZ; auto.
      * unfold Rpower. apply (@loclip_comp exp); [apply lip_exp|]. apply loclip_mult; [auto|]. apply (@loclip_comp ln); [now apply lip_ln|auto].
  - destruct f; cbn [smooth] in H; cbn [val].
    + apply (@loclip_comp exp); [apply lip_exp|auto].
    + destruct H. apply (@loclip_comp ln); [now apply lip_ln|auto].
  - destruct H.
Qed.

Lemma smooth_open : forall e v0, smooth v0 p e -> exists r, 0 < r /\ forall v, close r v v0 -> smooth v p e.
Proof.
  assert (Two : forall (P Q : (string -> R) -> Prop) v0, (exists r, 0 < r /\ forall v, close r v v0 -> P v) -> (exists r, 0 < r /\ forall v, close r v v0 -> Q v) ->
    exists r, 0 < r /\ forall v, close r v v0 -> P v /\ Q v).
  { intros P Q v0 (r & Hr & HP) (r' & Hr' & HQ). exists (Rmin r r'). split; [now apply Rmin_pos|]. intros v C. split; [apply HP|apply HQ]; eapply close_mono; eauto using Rmin_l, Rmin_r. }
  assert (One : forall (P : Prop) (v0 : string -> R), P -> exists r, 0 < r /\ forall v, close r v v0 -> P).
  { intros P v0 H. exists 1. split; [lra|auto]. }
  assert (NZ : forall e v0, smooth v0 p e -> val v0 p e <> 0 -> exists r, 0 < r /\ forall v, close r v v0 -> val v p e <> 0).
  { intros e v0 S N. pose proof (Rabs_pos_lt _ N). destruct (@loclip_near _ _ (loclip_val _ _ S) (Rabs (val v0 p e) / 2)) as (r & Hr & B); [lra|].
    exists r. split; auto. intros v C E. specialize (B v C). cbn beta in B. rewrite E in B. replace (0 - val v0 p e) with (- val v0 p e) in B by ring. rewrite Rabs_Ropp in B. lra. }
  assert (PO : forall e v0, smooth v0 p e -> 0 < val v0 p e -> exists r, 0 < r /\ forall v, close r v v0 -> 0 < val v p e).
  { intros e v0 S N. destruct (@loclip_near _ _ (loclip_val _ _ S) (val v0 p e / 2)) as (r & Hr & B); [lra|].
    exists r. split; auto. intros v C. specialize (B v C). cbn beta in B. apply Rabs_le_inv in B. lra. }
  induction e; intros v0 H; try (cbn [smooth]; apply One; exact I).
  - destruct o; cbn [smooth] in H |- *.
    1-3: apply Two; [apply IHe1|apply IHe2]; tauto.
    + destruct H as (H1 & H2 & H3). apply Two; [auto|]. apply Two; auto.
    + destruct H as (H1 & H2 & H3). apply Two; [auto|]. apply Two; [auto|]. destruct (is_num e2) as [n|].
      * destruct (Z_lt_dec n 0) as [L|L]; [|exists 1; split; [lra|]; intros; contradiction].
        destruct (NZ e1 v0 H1 (H3 L)) as (r & Hr & B). exists r. split; auto.
      * auto.
  - destruct f; cbn [smooth] in H |- *.
    + auto.
    + destruct H. apply Two; auto.
  - destruct H.
Qed.

(** Along a line *)
Definition lineS (v h : string -> R) (t : R) : string -> R := fun s => v s + t * h s.
Definition gsum (names : list string) (v h : string -> R) (e : sexpr) : R := rsum (map (fun x => val v p (diff x e) * h x) names).

Lemma rsum_lin {A} (f g : A -> R) a b (l : list A) : rsum (map (fun x => a * f x + b * g x) l) = a * rsum (map f l) + b * rsum (map g l).
Proof. induction l as [|x l IH]; cbn; [ring|]. rewrite IH. ring. Qed.
Lemma rsum_scale {A} (f : A -> R) a (l : list A) : rsum (map (fun x => a * f x) l) = a * rsum (map f l).
Proof. induction l as [|x l IH]; cbn; [ring|]. rewrite IH. ring. Qed.
Lemma rsum_ext {A} (f g : A -> R) (l : list A) : (forall x, In x l -> f x = g x) -> rsum (map f l) = rsum (map g l).
Proof. intros H. f_equal. now apply map_ext_in. Qed.
Lemma rsum_zero {A} (l : list A) : rsum (map (fun _ => 0) l) = 0.
Proof. induction l as [|x l IH]; cbn; [ring|]. rewrite IH. ring. Qed.

Context (names : list string) (ND : NoDup names).

Lemma gsum_sym v h s : (~ In s names -> h s = 0) -> gsum names v h (SSym s) = h s.
Proof.
  intros O. unfold gsum. cbn [diff val]. clear -ND O. induction names as [|x l IH]; cbn [map rsum].
  - symmetry. apply O. auto.
  - apply NoDup_cons_iff in ND as (N1 & N2). destruct (String.eqb_spec s x) as [->|E].
    + rewrite (@rsum_ext _ _ (fun _ => 0)), rsum_zero; [ring|]. intros y Hy. destruct (String.eqb_spec x y) as [->|]; [contradiction|]. ring.
    + rewrite IH; auto; [ring|]. intros H. apply O. intros [Q|Q]; congruence.
Qed.

Lemma deriv_line v h (O : forall s, ~ In s names -> h s = 0) t e :
  smooth (lineS v h t) p e -> derivable_pt_lim (fun t => val (lineS v h t) p e) t (gsum names (lineS v h t) h e).
Proof.
  set (w := lineS v h t). pose (at_ e := fun t => val (lineS v h t) p e).
  assert (AH : forall e, at_ e t = val w p e) by reflexivity.
  assert (Fin : forall f d d', derivable_pt_lim f t d -> d = d' -> derivable_pt_lim f t d') by (intros; subst; auto).
  induction e; intros H.
  - eapply Fin; [apply (derivable_pt_lim_const (IZR z))|]. unfold gsum. cbn [diff val]. rewrite (@rsum_ext _ _ (fun _ => 0)), rsum_zero; auto. intros; ring.
  - rewrite gsum_sym by auto. unfold lineS. cbn [val].
    eapply Fin; [apply (derivable_pt_lim_plus (fct_cte (v s)) (fun t => t * h s))|].
    + apply derivable_pt_lim_const.
    + apply (derivable_pt_lim_mult id (fct_cte (h s))); [apply derivable_pt_lim_id|apply derivable_pt_lim_const].
    + unfold fct_cte, id. ring.
  - eapply Fin; [apply (derivable_pt_lim_const (p base ixs))|]. unfold gsum. cbn [diff val]. rewrite (@rsum_ext _ _ (fun _ => 0)), rsum_zero; auto. intros; ring.
  - destruct o; cbn [smooth] in H.
    + eapply Fin; [apply (derivable_pt_lim_plus (at_ e1) (at_ e2)); [apply IHe1|apply IHe2]; tauto|].
      unfold gsum. cbn [diff val]. rewrite (@rsum_ext _ (fun x => (val w p (diff x e1) + val w p (diff x e2)) * h x) (fun x => 1 * (val w p (diff x e1) * h x) + 1 * (val w p (diff x e2) * h x))), rsum_lin by (intros; ring). ring.
    + eapply Fin; [apply (derivable_pt_lim_minus (at_ e1) (at_ e2)); [apply IHe1|apply IHe2]; tauto|].
      unfold gsum. cbn [diff val]. rewrite (@rsum_ext _ (fun x => (val w p (diff x e1) - val w p (diff x e2)) * h x) (fun x => 1 * (val w p (diff x e1) * h x) + (-1) * (val w p (diff x e2) * h x))), rsum_lin by (intros; ring). ring.
    + destruct H as (H1 & H2). eapply Fin; [apply (derivable_pt_lim_mult (at_ e1) (at_ e2)); [apply IHe1|apply IHe2]; tauto|]. rewrite !AH.
      unfold gsum. cbn [diff val]. rewrite (@rsum_ext _ (fun x => (val w p (diff x e1) * val w p e2 + val w p e1 * val w p (diff x e2)) * h x) (fun x => val w p e2 * (val w p (diff x e1) * h x) + val w p e1 * (val w p (diff x e2) * h x))), rsum_lin by (intros; ring). ring.
    + destruct H as (H1 & H2 & H3). eapply Fin; [apply (derivable_pt_lim_div (at_ e1) (at_ e2)); [apply IHe1; tauto|apply IHe2; tauto|exact H3]|]. rewrite !AH.
      unfold gsum. cbn [diff val]. rewrite (@rsum_ext _ (fun x => (val w p (diff x e1) * val w p e2 - val w p e1 * val w p (diff x e2)) / (val w p e2 * val w p e2) * h x) (fun x => (/ val w p e2) * (val w p (diff x e1) * h x) + (- val w p e1 / (val w p e2 * val w p e2)) * (val w p (diff x e2) * h x))), rsum_lin by (intros; field; auto).
      unfold Rsqr. field. auto.
    + destruct H as (H1 & H2 & H3). destruct (is_num e2) as [n|] eqn:N.
      * destruct e2; try discriminate. injection N as ->. unfold gsum. 
        rewrite (@rsum_ext _ _ (fun x => val w p (if Z.eqb n 0 then SNum 0 else SBin OMul (SBin OMul (SNum n) (SBin OPow e1 (SNum (n - 1)))) (diff x e1)) * h x)) by (intros; now rewrite diff_pow_num).
        destruct (Z.eqb_spec n 0) as [->|N0].
        { eapply Fin; [apply (derivable_pt_lim_const 1)|]. cbn [val]. rewrite (@rsum_ext _ _ (fun _ => 0)), rsum_zero; auto. intros; ring. }
        assert (P := @deriv_powerRZ n (val w p e1) H3 N0). cbn [val is_num].
        eapply Fin; [apply (@derivable_pt_lim_comp (at_ e1) (fun t => powerRZ t n) t _ (IZR n * powerRZ (val w p e1) (n - 1)) (IHe1 H1)); exact P|].
        rewrite (@rsum_ext _ (fun x => IZR n * powerRZ (val w p e1) (n - 1) * val w p (diff x e1) * h x) (fun x => (IZR n * powerRZ (val w p e1) (n - 1)) * (val w p (diff x e1) * h x))), rsum_scale by (intros; ring). reflexivity.
      * assert (L := @derivable_pt_lim_comp (at_ e1) ln t _ (/ val w p e1) (IHe1 H1) (derivable_pt_lim_ln _ H3)).
        assert (M := @derivable_pt_lim_mult (at_ e2) (comp ln (at_ e1)) t _ _ (IHe2 H2) L).
        assert (D := @derivable_pt_lim_comp _ exp t _ _ M (derivable_pt_lim_exp _)).
        cbn [val]. rewrite N. unfold Rpower. eapply Fin; [exact D|]. unfold comp, mult_fct. rewrite !AH. unfold gsum.
        rewrite (@rsum_ext _ (fun x => val w p (diff x (SBin OPow e1 e2)) * h x)
           (fun x => (exp (val w p e2 * ln (val w p e1)) * ln (val w p e1)) * (val w p (diff x e2) * h x) + (exp (val w p e2 * ln (val w p e1)) * val w p e2 / val w p e1) * (val w p (diff x e1) * h x))), rsum_lin.
        { field. lra. }
        intros x _. rewrite diff_pow_gen by auto. cbn [val]. rewrite N. unfold Rpower. field. lra.
  - destruct f; cbn [smooth] in H.
    + eapply Fin; [apply (@derivable_pt_lim_comp (at_ e) exp t _ _ (IHe H) (derivable_pt_lim_exp _))|]. rewrite !AH. unfold gsum. cbn [diff val].
      rewrite (@rsum_ext _ (fun x => exp (val w p e) * val w p (diff x e) * h x) (fun x => exp (val w p e) * (val w p (diff x e) * h x))), rsum_scale by (intros; ring). reflexivity.
    + destruct H as (H1 & H2). eapply Fin; [apply (@derivable_pt_lim_comp (at_ e) ln t _ (/ val w p e) (IHe H1) (derivable_pt_lim_ln _ H2))|]. unfold gsum. cbn [diff val].
      rewrite (@rsum_ext _ (fun x => val w p (diff x e) / val w p e * h x) (fun x => / val w p e * (val w p (diff x e) * h x))), rsum_scale by (intros; unfold Rdiv; ring). reflexivity.
  - destruct H.
Qed.

(** The total derivative *)
Lemma total_derivative e v0 : smooth v0 p e -> forall eps, 0 < eps -> exists del, 0 < del /\
  forall v m, close m v v0 -> m <= del -> (forall s, ~ In s names -> v s = v0 s) ->
    Rabs (val v p e - val v0 p e - gsum names v0 (fun s => v s - v0 s) e) <= eps * m.
Proof.
  intros S eps He. destruct (smooth_open e v0 S) as (r1 & Hr1 & Op).
  assert (E : exists r, 0 < r /\ forall w x, close r w v0 -> In x names -> Rabs (val w p (diff x e) - val v0 p (diff x e)) <= eps / (INR (length names) + 1)).
  { assert (Q : 0 < eps / (INR (length names) + 1)) by (apply Rdiv_lt_0_compat; [auto|pose proof (pos_INR (length names)); lra]).
    generalize (eps / (INR (length names) + 1)) Q. intros q Hq. clear ND Q. induction names as [|x l (r & Hr & IH)]; [exists 1; split; [lra|]; intros ? ? ? []|].
    destruct (@loclip_near _ _ (loclip_val (diff x e) v0 (@smooth_diff v0 p x e S)) q Hq) as (r2 & Hr2 & B).
    exists (Rmin r r2). split; [now apply Rmin_pos|]. intros w y C [<-|Hy].
    - apply B. eapply close_mono; eauto using Rmin_r.
    - apply IH; auto. eapply close_mono; eauto using Rmin_l. }
  destruct E as (r2 & Hr2 & E). exists (Rmin r1 r2). split; [now apply Rmin_pos|]. intros v m C Hm O.
  pose proof (close_pos C) as Hm0.
  set (h := fun s => v s - v0 s).
  assert (Oh : forall s, ~ In s names -> h s = 0) by (intros s Hs; unfold h; rewrite (O s Hs); ring).
  assert (Cl : forall t, 0 <= t <= 1 -> close m (lineS v0 h t) v0).
  { intros t Ht s. unfold lineS, h. replace (v0 s + t * (v s - v0 s) - v0 s) with (t * (v s - v0 s)) by ring. rewrite Rabs_mult, (Rabs_pos_eq t) by lra.
    specialize (C s). pose proof (Rabs_pos (v s - v0 s)). nra. }
  assert (V1 : lineS v0 h 1 = v) by (apply functional_extensionality; intros s; unfold lineS, h; ring).
  assert (V0 : lineS v0 h 0 = v0) by (apply functional_extensionality; intros s; unfold lineS, h; ring).
  destruct (MVT_cor2 (fun t => val (lineS v0 h t) p e) (fun t => gsum names (lineS v0 h t) h e) 0 1) as (c & Ec & Hc); [lra| |].
  { intros t Ht. apply deriv_line; auto. apply Op. eapply close_mono; [apply Cl; lra|]. pose proof (Rmin_l r1 r2). lra. }
  rewrite V1, V0 in Ec. rewrite Ec, Rminus_0_r, Rmult_1_r.
  assert (Cc : close r2 (lineS v0 h c) v0) by (eapply close_mono; [apply Cl; lra|]; pose proof (Rmin_r r1 r2); lra).
  unfold gsum. change (fun s => v s - v0 s) with h.
  assert (Bd : forall l, incl l names -> Rabs (rsum (map (fun x => val (lineS v0 h c) p (diff x e) * h x) l) - rsum (map (fun x => val v0 p (diff x e) * h x) l)) <= INR (length l) * (eps / (INR (length names) + 1) * m)).
  { induction l as [|x l IH]; intros I; cbn [map rsum length]; [rewrite Rminus_diag_eq, Rabs_R0 by reflexivity; cbn; lra|].
    rewrite S_INR. match goal with |- Rabs (?a * ?b + ?c - (?d * ?b + ?e)) <= _ => replace (a * b + c - (d * b + e)) with ((c - e) + (a - d) * b) by ring end.
    eapply Rle_trans; [apply Rabs_triang|]. rewrite Rmult_plus_distr_r, Rmult_1_l. apply Rplus_le_compat.
    - apply IH. intros y Hy. apply I. now right.
    - rewrite Rabs_mult. apply Rmult_le_compat; try apply Rabs_pos; [apply E; auto; apply I; now left|]. apply C. }
  eapply Rle_trans; [apply Bd, incl_refl|]. rewrite <- Rmult_assoc. apply Rmult_le_compat_r; [auto|].
  pose proof (pos_INR (length names)). unfold Rdiv. rewrite (Rmult_comm eps), <- Rmult_assoc. rewrite <- (Rmult_1_l eps) at 2. apply Rmult_le_compat_r; [lra|].
  apply Rmult_le_reg_r with (INR (length names) + 1); [lra|]. rewrite Rmult_assoc, Rinv_l by lra. lra.
Qed.
End Expr.
