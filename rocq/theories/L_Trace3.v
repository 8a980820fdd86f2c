(** Lemmas for C118: around a path with regular Jacobians the linear systems
    can be solved and the slopes of the method change in proportion. *)
From Coq Require Import Reals Lra.
From Verif Require Import Py M_Euler S_Euler S_Converge L_Euler L_Euler3 L_Converge L_Trace L_Trace2.
Local Open Scope list_scope.
Local Open Scope R_scope.

Lemma mbd_ex M : exists a, 0 <= a /\ mbd a M.
Proof.
  induction M as [|row M (a & Ha & H)].
  - exists 0. split; [lra|]. intros [|i] [|j]; unfold entry; cbn; rewrite Rabs_R0; lra.
  - destruct (vbd_max row) as (k & Hk & _). exists (Rmax a k). split; [eapply Rle_trans; [exact Ha|apply Rmax_l]|].
    intros [|i] j; unfold entry; cbn [nth]; [eapply Rle_trans; [apply Hk|apply Rmax_r]|]. eapply Rle_trans; [apply (H i j)|apply Rmax_l].
Qed.

Lemma derivable_near f t l : derivable_pt_lim f t l -> forall eps, 0 < eps -> exists d, 0 < d /\ forall h, Rabs h < d -> Rabs (f (t + h) - f t - h * l) <= eps * Rabs h.
Proof.
  intros H eps He. destruct (H eps He) as (d & Hd). exists d. split; [apply cond_pos|]. intros h Hh.
  destruct (Req_dec h 0) as [->|N].
  - replace (f (t + 0) - f t - 0 * l) with 0 by (rewrite Rplus_0_r; ring). rewrite Rabs_R0. lra.
  - specialize (Hd h N Hh). replace (f (t + h) - f t - h * l) with (((f (t + h) - f t) / h - l) * h) by (field; auto).
    rewrite Rabs_mult. apply Rmult_le_compat_r; [apply Rabs_pos|lra].
Qed.

(** Properties that hold near for each of finitely many entries *)
Lemma all_near (P : nat -> R -> Prop) n : (forall i, (i < n)%nat -> exists d, 0 < d /\ forall h, Rabs h < d -> P i h) ->
  exists d, 0 < d /\ forall i h, (i < n)%nat -> Rabs h < d -> P i h.
Proof.
  induction n as [|n IH]; intros H; [exists 1; split; [lra|]; intros; lia|].
  destruct IH as (d & Hd & H1); [intros; apply H; lia|]. destruct (H n ltac:(lia)) as (d' & Hd' & H2).
  exists (Rmin d d'). split; [now apply Rmin_pos|]. intros i h Hi Hh. pose proof (Rmin_l d d'). pose proof (Rmin_r d d').
  destruct (Nat.eq_dec i n) as [->|N]; [apply H2; lra|]. apply H1; [lia|lra].
Qed.

Section Around.
Context (A B : list R -> list R -> list (list R)) (solve : list (list R) -> list R -> list R) (nv np : nat)
        (th0 th1 : list R) (X X' : R -> list R).
Hypothesis T0 : length th0 = np.
Hypothesis T1 : length th1 = np.
Hypothesis XL : forall t, 0 <= t <= 1 -> length (X t) = nv /\ length (X' t) = nv.
Hypothesis XD : forall t i, 0 <= t <= 1 -> (i < nv)%nat -> derivable_pt_lim (fun s => nth i (X s) 0) t (nth i (X' t) 0).
Hypothesis HA : forall x th, is_matrix nv nv (A x th).
Hypothesis HB : forall x th, is_matrix nv np (B x th).
Hypothesis HL : forall t, 0 <= t <= 1 -> exists r K, 0 < r /\ 0 <= K /\ forall x th x' th' m,
  within r x (X t) -> within r th (line th0 th1 t) -> within r x' (X t) -> within r th' (line th0 th1 t) -> 0 <= m -> within m x x' -> within m th th' ->
  mclose (K * m) (A x th) (A x' th') /\ mclose (K * m) (B x th) (B x' th').
Hypothesis HN : forall t, 0 <= t <= 1 -> nonsingular (A (X t) (line th0 th1 t)) nv.
Hypothesis HS : forall M, is_matrix nv nv M -> nonsingular M nv -> solves solve M nv.

Let D := vsub th1 th0.
Definition slope_ (x th : list R) := euler_inc A B solve x th D.

Hypothesis SL : forall t, 0 <= t <= 1 -> mv (A (X t) (line th0 th1 t)) (X' t) = vneg (mv (B (X t) (line th0 th1 t)) D).

Lemma TT : length th0 = length th1. Proof. congruence. Qed.
Lemma LD : length D = np. Proof. unfold D. rewrite vsub_length; congruence. Qed.
Lemma slope_solves x th : nonsingular (A x th) nv -> length (slope_ x th) = nv /\ mv (A x th) (slope_ x th) = vneg (mv (B x th) D).
Proof.
  intros N. destruct (HS (HA x th) N (mv (B x th) D)) as (L & E); [rewrite mv_length; apply HB|].
  unfold slope_, euler_inc. rewrite vneg_length, mv_vneg, E. auto.
Qed.
Lemma slope_path t : 0 <= t <= 1 -> slope_ (X t) (line th0 th1 t) = X' t.
Proof.
  intros Ht. destruct (slope_solves (HN Ht)) as (L & E). apply (HN Ht); auto; [apply (XL Ht)|]. rewrite E. symmetry. now apply SL.
Qed.

Lemma line_near t s : vbd (Rabs (s - t) * fold_right (fun a b => Rabs a + b) 0 D) (vsub (line th0 th1 s) (line th0 th1 t)).
Proof.
  intros i. rewrite nth_vsub by (rewrite !line_length; auto using TT). destruct (lt_dec i np) as [L|L].
  - rewrite !nth_line by (auto using TT; lia).
    replace (nth i th0 0 + s * (nth i th1 0 - nth i th0 0) - (nth i th0 0 + t * (nth i th1 0 - nth i th0 0))) with ((s - t) * (nth i th1 0 - nth i th0 0)) by ring.
    rewrite Rabs_mult. apply Rmult_le_compat_l; [apply Rabs_pos|]. rewrite <- nth_vsub by (symmetry; apply TT). fold D.
    clear. revert i. induction D as [|a l IH]; intros [|i]; cbn; rewrite ?Rabs_R0; try lra.
    + assert (0 <= fold_right (fun a b => Rabs a + b) 0 l) by (clear; induction l; cbn; [lra|pose proof (Rabs_pos a); lra]). lra.
    + specialize (IH i). pose proof (Rabs_pos a). lra.
  - rewrite !nth_overflow by (rewrite line_length; auto using TT; lia). rewrite Rminus_diag_eq, Rabs_R0 by reflexivity.
    apply Rmult_le_pos; [apply Rabs_pos|]. clear. induction D; cbn; [lra|pose proof (Rabs_pos a); lra].
Qed.

(** At one point of the path *)
Lemma around_point t : 0 <= t <= 1 -> exists r G K, 0 < r /\ 0 <= G /\ 0 <= K /\
  forall x th, within r x (X t) -> within r th (line th0 th1 t) ->
    nonsingular (A x th) nv /\ vbd G (slope_ x th) /\
    forall x' th' m, within r x' (X t) -> within r th' (line th0 th1 t) -> 0 <= m -> within m x x' -> within m th th' ->
      within (K * m) (slope_ x th) (slope_ x' th').
Proof.
  intros Ht. destruct (HL Ht) as (r0 & K0 & Hr0 & HK0 & Lip).
  set (xt := X t) in *. set (tt := line th0 th1 t) in *.
  destruct (inverse_bound (HA xt tt) (HN Ht) (HS (HA xt tt) (HN Ht))) as (C & HC & IB).
  destruct (mbd_ex (B xt tt)) as (b0 & Hb0 & BB). destruct (vbd_max D) as (dm & HD & _). pose proof (vbd_pos HD) as Hdm.
  set (q := C * (INR nv * K0)). assert (Hq : 0 <= q) by (unfold q; apply Rmult_le_pos; auto; apply Rmult_le_pos; auto using pos_INR).
  set (r := Rmin r0 (/ (2 * (q + 1)))). assert (Hi : 0 < / (2 * (q + 1))) by (apply Rinv_0_lt_compat; lra).
  assert (Hr : 0 < r) by now apply Rmin_pos. assert (R1 : r <= r0) by apply Rmin_l. assert (R2 : r <= / (2 * (q + 1))) by apply Rmin_r.
  assert (QR : C * (INR nv * (K0 * r)) <= / 2).
  { replace (C * (INR nv * (K0 * r))) with (q * r) by (unfold q; ring). apply Rle_trans with (q * / (2 * (q + 1))); [now apply Rmult_le_compat_l|].
    rewrite Rinv_mult. assert (q * / (q + 1) <= 1); [|lra]. apply Rmult_le_reg_r with (q + 1); [lra|]. rewrite Rmult_assoc, Rinv_l by lra. lra. }
  assert (Mo : forall u v, within r u v -> within r0 u v) by (intros u v W; eapply within_mono; eauto).
  assert (Ctr : within r0 xt xt /\ within r0 tt tt) by (split; apply within_refl; lra).
  assert (Near : forall x th, within r x xt -> within r th tt -> mclose (K0 * r) (A x th) (A xt tt) /\ mclose (K0 * r) (B x th) (B xt tt)).
  { intros x th Wx Wt. apply Lip; auto; try tauto. lra. }
  assert (Inv : forall x th, within r x xt -> within r th tt -> forall u k, length u = nv -> vbd k (mv (A x th) u) -> vbd (2 * C * k) u).
  { intros x th Wx Wt. destruct (Near x th Wx Wt) as (N & _). now apply (@bound_nearby (A x th) (A xt tt) nv C (K0 * r)). }
  assert (NS : forall x th, within r x xt -> within r th tt -> nonsingular (A x th) nv) by (intros; eapply bound_nonsingular; eauto).
  set (G := 2 * C * (INR np * ((b0 + K0 * r) * dm))). assert (Hkr : 0 <= K0 * r) by (apply Rmult_le_pos; lra).
  assert (HG : 0 <= G).
  { unfold G. apply Rmult_le_pos; [lra|]. apply Rmult_le_pos; [apply pos_INR|]. apply Rmult_le_pos; lra. }
  assert (SG : forall x th, within r x xt -> within r th tt -> vbd G (slope_ x th)).
  { intros x th Wx Wt. destruct (slope_solves (NS x th Wx Wt)) as (L & E). apply (Inv x th Wx Wt); auto. rewrite E. intros i. rewrite nth_vneg, Rabs_Ropp.
    revert i. apply (@mv_vbd (B x th) nv np); auto. intros i j. destruct (Near x th Wx Wt) as (_ & N). specialize (N i j). specialize (BB i j).
    replace (entry (B x th) i j) with (entry (B xt tt) i j + (entry (B x th) i j - entry (B xt tt) i j)) by ring. eapply Rle_trans; [apply Rabs_triang|]. lra. }
  exists r, G, (2 * C * (INR np * (K0 * dm) + INR nv * (K0 * G))). split; auto. split; auto.
  assert (HK : 0 <= INR np * (K0 * dm) + INR nv * (K0 * G)).
  { apply Rplus_le_le_0_compat; (apply Rmult_le_pos; [apply pos_INR|apply Rmult_le_pos; lra]). }
  split; [apply Rmult_le_pos; lra|].
  intros x th Wx Wt. split; [auto|]. split; [auto|]. intros x' th' m Wx' Wt' Hm Mx Mt.
  destruct (slope_solves (NS x th Wx Wt)) as (L & E). destruct (slope_solves (NS x' th' Wx' Wt')) as (L' & E').
  set (u := slope_ x th) in *. set (u' := slope_ x' th') in *.
  destruct (Lip x th x' th' m) as (LA & LB); auto.
  apply within_vbd; [congruence|].
  replace (2 * C * (INR np * (K0 * dm) + INR nv * (K0 * G)) * m) with (2 * C * (INR np * (K0 * m * dm) + INR nv * (K0 * m * G))) by ring.
  apply (Inv x th Wx Wt); [rewrite vsub_length; congruence|].
  rewrite mv_vsub by congruence. intros i.
  assert (Ea : forall z w, length (mv (A x th) z) = length (mv (A x' th') w)) by (intros; rewrite !mv_length; destruct (HA x th), (HA x' th'); congruence).
  rewrite nth_vsub by (now rewrite !mv_length).
  pose proof (mv_mclose (HB x th) (HB x' th') LB HD i) as P1. pose proof (mv_mclose (HA x th) (HA x' th') LA (SG x' th' Wx' Wt') i) as P2.
  fold u' in P2. rewrite nth_vsub in P1 by (rewrite !mv_length; destruct (HB x th), (HB x' th'); congruence). rewrite nth_vsub in P2 by auto.
  assert (Ei : nth i (mv (A x th) u) 0 = - nth i (mv (B x th) D) 0) by (rewrite E; apply nth_vneg).
  assert (Ei' : nth i (mv (A x' th') u') 0 = - nth i (mv (B x' th') D) 0) by (rewrite E'; apply nth_vneg).
  replace (nth i (mv (A x th) u) 0 - nth i (mv (A x th) u') 0) with
    (- (nth i (mv (B x th) D) 0 - nth i (mv (B x' th') D) 0) - (nth i (mv (A x th) u') 0 - nth i (mv (A x' th') u') 0)) by (rewrite Ei, Ei'; ring).
  eapply Rle_trans; [apply Rabs_triang|]. rewrite !Rabs_Ropp. lra.
Qed.

Definition Dn := fold_right (fun a b => Rabs a + b) 0 D.
Lemma Dn_pos : 0 <= Dn.
Proof. unfold Dn. clear. induction D; cbn; [lra|pose proof (Rabs_pos a); lra]. Qed.

Lemma path_near t r : 0 <= t <= 1 -> 0 < r -> exists d, 0 < d /\ forall s, 0 <= s <= 1 -> Rabs (s - t) < d -> within r (X s) (X t) /\ within r (line th0 th1 s) (line th0 th1 t).
Proof.
  intros Ht Hr.
  destruct (@all_near (fun i h => Rabs (nth i (X (t + h)) 0 - nth i (X t) 0) <= r) nv) as (d & Hd & H).
  { intros i Hi. destruct (derivable_near (XD Ht Hi) Rlt_0_1) as (d & Hd & H). set (l := nth i (X' t) 0) in *.
    pose proof (Rabs_pos l). assert (P : 0 < r / (Rabs l + 1)) by (apply Rdiv_lt_0_compat; lra).
    exists (Rmin d (r / (Rabs l + 1))). split; [now apply Rmin_pos|]. intros h Hh. pose proof (Rmin_l d (r / (Rabs l + 1))). pose proof (Rmin_r d (r / (Rabs l + 1))).
    specialize (H h ltac:(lra)). replace (nth i (X (t + h)) 0 - nth i (X t) 0) with (nth i (X (t + h)) 0 - nth i (X t) 0 - h * l + h * l) by ring.
    eapply Rle_trans; [apply Rabs_triang|]. rewrite Rabs_mult. assert (Rabs h * (Rabs l + 1) <= r); [|lra].
    apply Rle_trans with (r / (Rabs l + 1) * (Rabs l + 1)); [apply Rmult_le_compat_r; lra|]. unfold Rdiv. rewrite Rmult_assoc, Rinv_l by lra. lra. }
  pose proof Dn_pos. assert (P : 0 < r / (Dn + 1)) by (apply Rdiv_lt_0_compat; lra).
  exists (Rmin d (r / (Dn + 1))). split; [now apply Rmin_pos|]. intros s Hs Hst. pose proof (Rmin_l d (r / (Dn + 1))). pose proof (Rmin_r d (r / (Dn + 1))). split.
  - split; [destruct (XL Hs), (XL Ht); congruence|]. intros i Hi. replace s with (t + (s - t)) by ring. apply H; [|lra]. destruct (XL Hs). lia.
  - apply within_vbd; [rewrite !line_length; auto using TT|]. eapply vbd_mono; [apply line_near|]. fold Dn.
    apply Rle_trans with (r / (Dn + 1) * (Dn + 1)); [apply Rmult_le_compat; try apply Rabs_pos; lra|]. unfold Rdiv. rewrite Rmult_assoc, Rinv_l by lra. lra.
Qed.

Lemma around_path : exists r K, 0 < r /\ 0 <= K /\
  (forall t x, 0 <= t <= 1 -> within r x (X t) -> nonsingular (A x (line th0 th1 t)) nv) /\
  (forall t x e, 0 <= t <= 1 -> 0 <= e <= r -> within e x (X t) -> within (K * e) (slope_ x (line th0 th1 t)) (slope_ (X t) (line th0 th1 t))) /\
  (forall s t, 0 <= s <= 1 -> 0 <= t <= 1 -> within (K * Rabs (s - t)) (X' s) (X' t)).
Proof.
  pose (Q := fun s r K => (forall x, within r x (X s) -> nonsingular (A x (line th0 th1 s)) nv) /\
    (forall x e, 0 <= e <= r -> within e x (X s) -> within (K * e) (slope_ x (line th0 th1 s)) (slope_ (X s) (line th0 th1 s))) /\
    vbd K (X' s) /\ (forall s', 0 <= s' <= 1 -> Rabs (s' - s) <= r -> within (K * Rabs (s' - s)) (X' s') (X' s))).
  destruct (@unit_interval Q) as (r & K & Hr & HK & H).
  - intros t r K r' K' (Q1 & Q2 & Q3 & Q4) Hr HK. split; [|split; [|split]].
    + intros x W. apply Q1. eapply within_mono; [eassumption|lra].
    + intros x e He W. eapply within_mono; [apply (Q2 x e); [lra|auto]|]. apply Rmult_le_compat_r; lra.
    + eapply vbd_mono; eauto.
    + intros s' Hs' W. eapply within_mono; [apply (Q4 s'); auto; lra|]. apply Rmult_le_compat_r; [apply Rabs_pos|lra].
  - intros t Ht. destruct (around_point Ht) as (r & G & K & Hr & HG & HK & P). destruct (@path_near t (r / 2) Ht ltac:(lra)) as (d & Hd & PN).
    pose proof Dn_pos as HDn.
    assert (PN' : forall s, 0 <= s <= 1 -> Rabs (s - t) < d -> within r (X s) (X t) /\ within r (line th0 th1 s) (line th0 th1 t)).
    { intros s Hs Hd'. destruct (PN s Hs Hd'). split; eapply within_mono; eauto; lra. }
    assert (BX : forall s, 0 <= s <= 1 -> Rabs (s - t) < d -> vbd G (X' s)).
    { intros s Hs Hd'. rewrite <- slope_path by auto. destruct (PN' s Hs Hd'). now apply P. }
    assert (Lp1 : forall s s', 0 <= s <= 1 -> 0 <= s' <= 1 -> Rabs (s - t) < d -> Rabs (s' - t) < d -> s < s' -> forall i, (i < nv)%nat -> Rabs (nth i (X s') 0 - nth i (X s) 0) <= G * Rabs (s' - s)).
    { intros s s' Hs Hs' Ds Ds' L i Hi. destruct (MVT_cor2 (fun s => nth i (X s) 0) (fun s => nth i (X' s) 0) s s' L) as (c & Ec & Hc).
      - intros c Hc. apply XD; auto. lra.
      - rewrite Ec, Rabs_mult. apply Rmult_le_compat_r; [apply Rabs_pos|]. apply BX; [lra|]. apply Rabs_def2 in Ds, Ds'. apply Rabs_def1; lra. }
    assert (Lp : forall s s', 0 <= s <= 1 -> 0 <= s' <= 1 -> Rabs (s - t) < d -> Rabs (s' - t) < d -> within (G * Rabs (s' - s)) (X s') (X s)).
    { intros s s' Hs Hs' Ds Ds'. destruct (XL Hs) as (L1 & _), (XL Hs') as (L2 & _). split; [congruence|]. intros i Hi. rewrite L2 in Hi.
      destruct (Rtotal_order s s') as [L|[->|L]].
      - apply Lp1; auto.
      - rewrite Rminus_diag_eq, Rabs_R0 by reflexivity. apply Rmult_le_pos; [auto|apply Rabs_pos].
      - rewrite Rabs_minus_sym, (Rabs_minus_sym s'). apply Lp1; auto. }
    set (K1 := K * (G + Dn)). assert (HK1 : 0 <= K1) by (apply Rmult_le_pos; lra).
    exists (d / 2), (Rmin (r / 2) (d / 3)), (K + G + K1). split; [lra|]. split; [apply Rmin_pos; lra|]. split; [lra|].
    intros s Hs Ds. assert (Ds' : Rabs (s - t) < d) by lra. destruct (PN s Hs Ds') as (W1 & W2). destruct (PN' s Hs Ds') as (W1' & W2').
    pose proof (Rmin_l (r / 2) (d / 3)) as M1. pose proof (Rmin_r (r / 2) (d / 3)) as M2. set (r1 := Rmin (r / 2) (d / 3)) in *.
    assert (In : forall x, within r1 x (X s) -> within r x (X t)).
    { intros x Wx. eapply within_mono; [eapply within_trans; [exact Wx|exact W1]|]. lra. }
    split; [|split; [|split]].
    + intros x Wx. apply P; auto.
    + intros x e He Wx. assert (within r1 x (X s)) by (eapply within_mono; [exact Wx|lra]).
      eapply within_mono; [apply (P x (line th0 th1 s)) with (m := e); auto; try lra; apply within_refl; lra|]. nra.
    + eapply vbd_mono; [apply BX; auto|lra].
    + intros s' Hs' D1. assert (Ds1 : Rabs (s' - t) < d).
      { replace (s' - t) with ((s' - s) + (s - t)) by ring. eapply Rle_lt_trans; [apply Rabs_triang|]. lra. }
      destruct (PN' s' Hs' Ds1) as (W3 & W4). rewrite <- (slope_path Hs), <- (slope_path Hs').
      pose proof (Rabs_pos (s' - s)) as Pa.
      eapply within_mono; [apply (P (X s') (line th0 th1 s')) with (m := (G + Dn) * Rabs (s' - s)); auto|].
      * apply Rmult_le_pos; lra.
      * eapply within_mono; [apply Lp; auto|]. apply Rmult_le_compat_r; [auto|lra].
      * apply within_vbd; [rewrite !line_length; auto using TT|]. eapply vbd_mono; [apply line_near|]. fold Dn. rewrite Rmult_comm. apply Rmult_le_compat_r; [auto|lra].
      * rewrite <- Rmult_assoc. fold K1. apply Rmult_le_compat_r; [auto|lra].
  - set (Km := K + 2 * K / r). assert (0 <= 2 * K / r) by (unfold Rdiv; apply Rmult_le_pos; [lra|left; now apply Rinv_0_lt_compat]).
    exists r, Km. split; auto. split; [unfold Km; lra|]. split; [|split].
    + intros t x Ht. apply (H t Ht).
    + intros t x e Ht He W. destruct (H t Ht) as (_ & Q2 & _). eapply within_mono; [apply Q2; eauto|]. unfold Km. nra.
    + intros s t Hs Ht. destruct (H t Ht) as (_ & _ & B1 & Q4). destruct (H s Hs) as (_ & _ & B2 & _).
      pose proof (Rabs_pos (s - t)) as Pa. destruct (Rle_dec (Rabs (s - t)) r) as [L|L].
      * eapply within_mono; [apply Q4; auto|]. unfold Km. nra.
      * destruct (XL Hs) as (_ & L1), (XL Ht) as (_ & L2). split; [congruence|]. intros i _. specialize (B1 i). specialize (B2 i).
        eapply Rle_trans; [unfold Rminus; apply Rabs_triang|]. rewrite Rabs_Ropp. apply Rle_trans with (2 * K); [lra|].
        assert (2 * K / r * r <= 2 * K / r * Rabs (s - t)) by (apply Rmult_le_compat_l; lra).
        replace (2 * K / r * r) with (2 * K) in * by (field; lra). unfold Km. nra.
Qed.
End Around.
