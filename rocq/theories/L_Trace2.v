(** Lemmas for C118: linear systems change little with their matrices. *)
From Coq Require Import Reals Lra FunctionalExtensionality.
From Verif Require Import Py PyStr M_SymExpr M_Calculus S_Calculus L_Calculus M_Euler S_Euler S_Converge L_Euler L_Euler3 L_Converge L_Trace.
Local Open Scope list_scope.
Local Open Scope R_scope.

Definition vbd (k : R) (u : list R) : Prop := forall i, Rabs (nth i u 0) <= k.
Lemma vbd_pos k u : vbd k u -> 0 <= k.
Proof. intros H. specialize (H 0%nat). pose proof (Rabs_pos (nth 0 u 0)). lra. Qed.
Lemma vbd_mono k k' u : vbd k u -> k <= k' -> vbd k' u.
Proof. intros H L i. specialize (H i). lra. Qed.
Lemma vbd_max u : exists k, vbd k u /\ (k = 0 \/ exists i, (i < length u)%nat /\ k = Rabs (nth i u 0)).
Proof.
  induction u as [|a u (k & B & H)].
  - exists 0. split; [|now left]. intros [|i]; cbn; rewrite Rabs_R0; lra.
  - destruct (Rle_dec (Rabs a) k) as [L|L].
    + exists k. split.
      * intros [|i]; cbn; [exact L|apply B].
      * destruct H as [H|(i & Hi & H)]; [now left|]. right. exists (S i). cbn. split; [lia|exact H].
    + exists (Rabs a). split.
      * intros [|i]; cbn; [lra|]. specialize (B i). lra.
      * right. exists 0%nat. cbn. split; [lia|reflexivity].
Qed.
Lemma vbd_tl k a u : vbd k (a :: u) -> vbd k u.
Proof. intros H i. apply (H (S i)). Qed.
Lemma nth_vsub a b i : length a = length b -> nth i (vsub a b) 0 = nth i a 0 - nth i b 0.
Proof.
  intros E. destruct (lt_dec i (length a)) as [L|L].
  - unfold vsub. now rewrite nth_vmap2_0.
  - rewrite !nth_overflow; [ring|lia|lia|]. rewrite vsub_length; lia.
Qed.
Lemma nth_vadd a b i : length a = length b -> nth i (vadd a b) 0 = nth i a 0 + nth i b 0.
Proof.
  intros E. destruct (lt_dec i (length a)) as [L|L].
  - unfold vadd. now rewrite nth_vmap2_0.
  - rewrite !nth_overflow; [ring|lia|lia|]. rewrite vadd_length; lia.
Qed.
Lemma vbd_within m u v : within m u v -> 0 <= m -> vbd m (vsub u v).
Proof.
  intros (E & H) Hm i. rewrite nth_vsub by auto. destruct (lt_dec i (length u)) as [L|L]; [now apply H|].
  rewrite !nth_overflow by lia. rewrite Rminus_diag_eq, Rabs_R0 by reflexivity. exact Hm.
Qed.
Lemma within_vbd m u v : length u = length v -> vbd m (vsub u v) -> within m u v.
Proof. intros E H. split; [exact E|]. intros i _. specialize (H i). now rewrite nth_vsub in H. Qed.
Lemma within_pos m u v : within m u v -> u <> [] -> 0 <= m.
Proof. intros (E & H) N. destruct u as [|a u]; [contradiction|]. specialize (H 0%nat ltac:(cbn; lia)). pose proof (Rabs_pos (nth 0 (a :: u) 0 - nth 0 v 0)). lra. Qed.

Lemma dot_cons a row b u : dot (a :: row) (b :: u) = a * b + dot row u.
Proof. reflexivity. Qed.
Lemma dot_nil row : dot row [] = 0.
Proof. now destruct row. Qed.
Lemma dot_bound row : forall u a k, vbd a row -> vbd k u -> Rabs (dot row u) <= INR (length row) * (a * k).
Proof.
  induction row as [|q row IH]; intros u a k Ha Hk.
  - cbn. rewrite Rabs_R0. lra.
  - destruct u as [|b u].
    + rewrite dot_nil, Rabs_R0. apply Rmult_le_pos; [apply pos_INR|]. apply Rmult_le_pos; eauto using vbd_pos.
    + rewrite dot_cons. cbn [length]. rewrite S_INR. eapply Rle_trans; [apply Rabs_triang|]. rewrite Rmult_plus_distr_r, Rmult_1_l, Rplus_comm.
      apply Rplus_le_compat; [apply IH; eauto using vbd_tl|]. rewrite Rabs_mult. apply Rmult_le_compat; try apply Rabs_pos; [apply (Ha 0%nat)|apply (Hk 0%nat)].
Qed.
Lemma dot_rows r : forall r' u, length r = length r' -> dot r u - dot r' u = dot (vsub r r') u.
Proof.
  induction r as [|a r IH]; intros [|a' r'] u E; try discriminate; [cbn; ring|]. destruct u as [|b u]; [rewrite !dot_nil; ring|].
  unfold vsub. cbn [vmap2 combine map fst snd].
  change (map _ (combine r r')) with (vsub r r'). rewrite !dot_cons. cbn in E. rewrite <- (IH r' u) by congruence. ring.
Qed.
Lemma dot_vsub r : forall u u', length u = length u' -> dot r (vsub u u') = dot r u - dot r u'.
Proof.
  induction r as [|a r IH]; intros [|b u] [|b' u'] E; try discriminate; try (cbn; ring).
  unfold vsub. cbn [vmap2 combine map fst snd]. change (map _ (combine u u')) with (vsub u u'). rewrite !dot_cons. cbn in E. rewrite IH by congruence. ring.
Qed.
Lemma nth_mv M u i : nth i (mv M u) 0 = dot (nth i M []) u.
Proof. unfold mv. change 0 with ((fun row => dot row u) []). now rewrite map_nth. Qed.
Lemma row_len M r c i : is_matrix r c M -> (i < r)%nat -> length (nth i M []) = c.
Proof. intros (E & H) L. apply H, nth_In. lia. Qed.
Lemma row_out M r c i : is_matrix r c M -> (r <= i)%nat -> nth i M [] = [].
Proof. intros (E & H) L. apply nth_overflow. lia. Qed.
Lemma mv_vsub M u u' : length u = length u' -> mv M (vsub u u') = vsub (mv M u) (mv M u').
Proof.
  intros E. assert (EL : length (mv M u) = length (mv M u')) by now rewrite !mv_length.
  apply vec_ext; [rewrite vsub_length, !mv_length; auto; now rewrite !mv_length|]. intros i _. rewrite nth_vsub, !nth_mv by auto. now apply dot_vsub.
Qed.

Definition entry (M : list (list R)) (i j : nat) : R := nth j (nth i M []) 0.
Definition mbd (a : R) (M : list (list R)) : Prop := forall i j, Rabs (entry M i j) <= a.
Definition mclose (eta : R) (M M' : list (list R)) : Prop := forall i j, Rabs (entry M i j - entry M' i j) <= eta.

Lemma mv_vbd M r c a u k : is_matrix r c M -> mbd a M -> vbd k u -> vbd (INR c * (a * k)) (mv M u).
Proof.
  intros Hm Ha Hk i. rewrite nth_mv. destruct (lt_dec i r) as [L|L].
  - rewrite <- (@row_len M r c i) by auto. apply dot_bound; auto. exact (Ha i).
  - rewrite (row_out Hm) by lia. cbn. rewrite Rabs_R0. apply Rmult_le_pos; [apply pos_INR|]. apply Rmult_le_pos; [|eauto using vbd_pos].
    specialize (Ha 0%nat 0%nat). pose proof (Rabs_pos (entry M 0 0)). lra.
Qed.
Lemma mv_mclose M M' r c eta u k : is_matrix r c M -> is_matrix r c M' -> mclose eta M M' -> vbd k u -> vbd (INR c * (eta * k)) (vsub (mv M u) (mv M' u)).
Proof.
  intros Hm Hm' He Hk i. assert (EL : length (mv M u) = length (mv M' u)) by (rewrite !mv_length; destruct Hm, Hm'; congruence).
  rewrite nth_vsub, !nth_mv by auto. destruct (lt_dec i r) as [L|L].
  - rewrite dot_rows by (rewrite !(@row_len _ r c); auto).
    replace c with (length (vsub (nth i M []) (nth i M' []))) by (rewrite vsub_length; rewrite !(@row_len _ r c); auto).
    apply dot_bound; auto. intros j. rewrite nth_vsub by (rewrite !(@row_len _ r c); auto). apply He.
  - rewrite (row_out Hm), (row_out Hm') by lia. rewrite Rminus_diag_eq, Rabs_R0 by reflexivity. apply Rmult_le_pos; [apply pos_INR|]. apply Rmult_le_pos; [|eauto using vbd_pos].
    specialize (He 0%nat 0%nat). pose proof (Rabs_pos (entry M 0 0 - entry M' 0 0)). lra.
Qed.

(** *** A bound for the solutions of a regular system *)
Definition comb (f : nat -> list R) (l : list nat) (b : list R) (n : nat) : list R :=
  fold_right (fun i acc => vadd (vscale (nth i b 0) (f i)) acc) (zeros n) l.
Lemma comb_length f l b n : (forall i, In i l -> length (f i) = n) -> length (comb f l b n) = n.
Proof.
  induction l as [|i l IH]; intros H; cbn; [apply zeros_length|]. rewrite vadd_length; rewrite ?vscale_length.
  - apply H. now left.
  - rewrite (H i) by now left. apply IH. intros. apply H. now right.
Qed.
Lemma nth_zeros n i : nth i (zeros n) 0 = 0.
Proof. unfold zeros. revert i. induction n; destruct i; cbn; auto. Qed.
Lemma comb_nth f l b n j : (forall i, In i l -> length (f i) = n) -> nth j (comb f l b n) 0 = rsum (map (fun i => nth i b 0 * nth j (f i) 0) l).
Proof.
  induction l as [|i l IH]; intros H; cbn [comb fold_right map rsum]; [apply nth_zeros|].
  assert (H' : forall i, In i l -> length (f i) = n) by (intros; apply H; now right).
  fold (comb f l b n). rewrite nth_vadd, nth_vscale, IH by (auto; rewrite vscale_length, (H i) by (now left); symmetry; now apply comb_length). reflexivity.
Qed.
Lemma mv_comb M n f l b : is_matrix n n M -> (forall i, In i l -> length (f i) = n) -> mv M (comb f l b n) = comb (fun i => mv M (f i)) l b n.
Proof.
  intros Hm. induction l as [|i l IH]; intros H; cbn [comb fold_right].
  - apply vec_ext; [rewrite mv_length, zeros_length; apply Hm|]. intros i _. now rewrite nth_mv, dot_zeros, nth_zeros.
  - assert (H' : forall i, In i l -> length (f i) = n) by (intros; apply H; now right).
    fold (comb f l b n). fold (comb (fun i => mv M (f i)) l b n). rewrite <- IH by auto. rewrite (@mv_vadd M n n); [|exact Hm|rewrite vscale_length; apply H; now left|now apply comb_length].
    now rewrite mv_vscale.
Qed.
Definition unit (n i : nat) : list R := map (fun j => if Nat.eqb i j then 1 else 0) (seq 0 n).
Lemma unit_length n i : length (unit n i) = n.
Proof. unfold unit. now rewrite map_length, seq_length. Qed.
Lemma nth_unit n i j : (j < n)%nat -> nth j (unit n i) 0 = if Nat.eqb i j then 1 else 0.
Proof.
  intros L. unfold unit. rewrite nth_indep with (d' := (fun j => if Nat.eqb i j then 1 else 0) 0%nat) by (now rewrite map_length, seq_length).
  rewrite (map_nth (fun j => if Nat.eqb i j then 1 else 0)). now rewrite seq_nth.
Qed.
Lemma rsum_pick (g : nat -> R) j l : NoDup l -> In j l -> rsum (map (fun i => g i * (if Nat.eqb i j then 1 else 0)) l) = g j.
Proof.
  induction l as [|i l IH]; intros N I; [destruct I|]. apply NoDup_cons_iff in N as (N1 & N2). cbn [map rsum].
  destruct (Nat.eqb_spec i j) as [->|E].
  - rewrite (@rsum_ext _ _ (fun _ => 0)), rsum_zero; [ring|]. intros y Hy. destruct (Nat.eqb_spec y j) as [->|]; [contradiction|ring].
  - destruct I as [I|I]; [contradiction|]. rewrite IH by auto. ring.
Qed.
Lemma comb_unit n b : length b = n -> comb (unit n) (seq 0 n) b n = b.
Proof.
  intros E. assert (Le : length (comb (unit n) (seq 0 n) b n) = n) by (apply comb_length; intros; apply unit_length).
  apply vec_ext; [congruence|]. rewrite Le. intros j Hj. rewrite comb_nth by (intros; apply unit_length).
  rewrite (@rsum_ext _ _ (fun i => nth i b 0 * (if Nat.eqb i j then 1 else 0))) by (intros; now rewrite nth_unit).
  apply rsum_pick; [apply seq_NoDup|]. apply in_seq. lia.
Qed.
Lemma rsum_bound {A} (f : A -> R) c l : (forall x, In x l -> Rabs (f x) <= c) -> Rabs (rsum (map f l)) <= INR (length l) * c.
Proof.
  induction l as [|x l IH]; intros H; cbn [map rsum length]; [cbn; rewrite Rabs_R0; lra|]. rewrite S_INR.
  eapply Rle_trans; [apply Rabs_triang|]. assert (Rabs (f x) <= c) by (apply H; now left). assert (Rabs (rsum (map f l)) <= INR (length l) * c) by (apply IH; intros; apply H; now right). lra.
Qed.

Lemma inverse_bound solve M n : is_matrix n n M -> nonsingular M n -> solves solve M n ->
  exists C, 0 <= C /\ forall u k, length u = n -> vbd k (mv M u) -> vbd (C * k) u.
Proof.
  intros Hm Hn Hs. set (f := fun i => solve M (unit n i)).
  assert (Lf : forall i, length (f i) = n) by (intros i; apply Hs, unit_length).
  assert (Bc : exists c, 0 <= c /\ forall i, In i (seq 0 n) -> vbd c (f i)).
  { generalize (seq 0 n). induction l as [|i l (c & Hc & IH)]; [exists 0; split; [lra|intros ? []]|].
    destruct (vbd_max (f i)) as (k & Hk & _). exists (Rmax c k). split; [eapply Rle_trans; [exact Hc|apply Rmax_l]|].
    intros j [<-|Hj]; [eapply vbd_mono; [exact Hk|apply Rmax_r]|]. eapply vbd_mono; [apply IH, Hj|apply Rmax_l]. }
  destruct Bc as (c & Hc & B). exists (INR n * c). split; [apply Rmult_le_pos; auto using pos_INR|]. intros u k Lu Hk.
  assert (E : u = comb f (seq 0 n) (mv M u) n).
  { apply Hn; auto; [now apply comb_length|]. rewrite mv_comb by auto.
    assert (Lm : length (mv M u) = n) by (rewrite mv_length; apply Hm).
    transitivity (comb (unit n) (seq 0 n) (mv M u) n); [symmetry; now apply comb_unit|].
    unfold comb. f_equal. apply functional_extensionality. intros i. apply functional_extensionality. intros acc. f_equal. f_equal.
    symmetry. apply Hs, unit_length. }
  intros j. rewrite E, comb_nth by auto. eapply Rle_trans; [apply rsum_bound with (c := c * k)|].
  - intros i Hi. rewrite Rabs_mult, Rmult_comm. apply Rmult_le_compat; try apply Rabs_pos; [apply B, Hi|apply Hk].
  - rewrite seq_length. lra.
Qed.

Lemma bound_nearby M M' n C eta : is_matrix n n M -> is_matrix n n M' -> 0 <= C -> mclose eta M M' -> C * (INR n * eta) <= / 2 ->
  (forall u k, length u = n -> vbd k (mv M' u) -> vbd (C * k) u) -> forall u k, length u = n -> vbd k (mv M u) -> vbd (2 * C * k) u.
Proof.
  intros Hm Hm' HC He HS HB u k Lu Hk. destruct (vbd_max u) as (q & Hq & A). pose proof (vbd_pos Hq) as Q0. pose proof (vbd_pos Hk) as K0.
  apply vbd_mono with q; auto. destruct A as [->|(i & Hi & Ei)]; [apply Rmult_le_pos; lra|].
  assert (B : vbd (k + INR n * (eta * q)) (mv M' u)).
  { intros j. pose proof (@mv_mclose M M' n n eta u q Hm Hm' He Hq j) as D. specialize (Hk j).
    rewrite nth_vsub in D by (rewrite !mv_length; destruct Hm, Hm'; congruence).
    replace (nth j (mv M' u) 0) with (nth j (mv M u) 0 - (nth j (mv M u) 0 - nth j (mv M' u) 0)) by ring.
    eapply Rle_trans; [apply Rabs_triang|]. rewrite Rabs_Ropp. lra. }
  specialize (HB u _ Lu B i). rewrite <- Ei in HB. assert (C * (INR n * (eta * q)) <= / 2 * q) by (replace (C * (INR n * (eta * q))) with (C * (INR n * eta) * q) by ring; apply Rmult_le_compat_r; auto).
  lra.
Qed.

Lemma bound_nonsingular M n C : (forall u k, length u = n -> vbd k (mv M u) -> vbd (C * k) u) -> nonsingular M n.
Proof.
  intros H u v Lu Lv E. apply vec_ext; [congruence|]. intros i _.
  assert (Z : vbd 0 (mv M (vsub u v))).
  { intros j. rewrite mv_vsub by congruence. rewrite nth_vsub by (now rewrite !mv_length). rewrite E, Rminus_diag_eq, Rabs_R0 by reflexivity. lra. }
  specialize (H (vsub u v) 0 ltac:(rewrite vsub_length; congruence) Z i). rewrite nth_vsub in H by congruence. rewrite Rmult_0_r in H.
  pose proof (Rabs_pos (nth i u 0 - nth i v 0)). assert (Rabs (nth i u 0 - nth i v 0) = 0) as Q by lra. destruct (Req_dec (nth i u 0 - nth i v 0) 0) as [W|W]; [lra|].
  apply Rabs_no_R0 in W. contradiction.
Qed.

(** *** Compactness of the unit interval *)
Lemma unit_interval (Q : R -> R -> R -> Prop) :
  (forall t r K r' K', Q t r K -> 0 < r' <= r -> K <= K' -> Q t r' K') ->
  (forall t, 0 <= t <= 1 -> exists d r K, 0 < d /\ 0 < r /\ 0 <= K /\ forall s, 0 <= s <= 1 -> Rabs (s - t) < d -> Q s r K) ->
  exists r K, 0 < r /\ 0 <= K /\ forall s, 0 <= s <= 1 -> Q s r K.
Proof.
  intros Mono Loc.
  set (E := fun a => 0 <= a <= 1 /\ exists r K, 0 < r /\ 0 <= K /\ forall s, 0 <= s <= a -> Q s r K).
  assert (E0 : E 0).
  { split; [lra|]. destruct (Loc 0 ltac:(lra)) as (d & r & K & Hd & Hr & HK & H). exists r, K. repeat split; auto.
    intros s Hs. apply H; [lra|]. rewrite Rabs_pos_eq; lra. }
  destruct (completeness E) as (b & Ub & Lub).
  { exists 1. intros a (Ha & _). lra. }
  { now exists 0. }
  assert (Hb : 0 <= b <= 1).
  { split; [now apply Ub|]. apply Lub. intros a (Ha & _). lra. }
  destruct (Loc b Hb) as (d & r & K & Hd & Hr & HK & H).
  assert (Near : exists a, E a /\ b - d < a).
  { destruct (Classical_Prop.classic (exists a, E a /\ b - d < a)) as [|N]; auto. exfalso.
    assert (b <= b - d); [|lra]. apply Lub. intros a Ha. destruct (Rle_dec a (b - d)); auto. exfalso. apply N. exists a. split; auto. lra. }
  destruct Near as (a & (Ha & r1 & K1 & Hr1 & HK1 & H1) & Hab).
  set (c := Rmin 1 (b + d / 2)).
  assert (Ec : E c).
  { assert (c <= 1) by apply Rmin_l. assert (c <= b + d / 2) by apply Rmin_r. split; [split; [apply Rmin_glb; lra|auto]|].
    exists (Rmin r r1), (Rmax K K1). assert (0 < Rmin r r1) by now apply Rmin_pos. split; auto. split; [eapply Rle_trans; [exact HK|apply Rmax_l]|].
    intros s Hs. destruct (Rle_dec s a) as [L|L].
    - apply Mono with r1 K1; [apply H1; lra| |apply Rmax_r]. split; auto. apply Rmin_r.
    - apply Mono with r K; [apply H; [lra|]| |apply Rmax_l]; [|split; auto; apply Rmin_l]. apply Rabs_def1; lra. }
  assert (c <= b) by now apply Ub. assert (c = 1) as C1 by (unfold c, Rmin in *; destruct (Rle_dec 1 (b + d / 2)); lra).
  rewrite C1 in Ec. destruct Ec as (_ & r2 & K2 & Hr2 & HK2 & H2). exists r2, K2. auto.
Qed.
