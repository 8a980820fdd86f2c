(** Lemmas for C118: the compiled Euler approximation of written equations. *)
From Coq Require Import Reals Lra FunctionalExtensionality.
From Verif Require Import Py PyStr M_SymExpr M_Calculus S_Calculus L_Calculus S_Reduce M_Lambdify S_Lambdify M_NumbaStep L_NumbaStep
  M_Euler S_Euler S_Converge L_Euler L_Euler3 L_Converge L_Converge2 M_NumbaEuler S_Trace L_Trace L_Trace2 L_Trace3.
Local Open Scope string_scope.
Local Open Scope list_scope.
Local Open Scope R_scope.

(** *** The slope of a path of solutions *)
Lemma path_direction (F : list R -> list R -> list R) A0 B0 nv np th0 th1 X d t :
  0 <= t <= 1 -> length th0 = np -> length th1 = np -> (forall s, 0 <= s <= 1 -> length (X s) = nv) -> length d = nv ->
  is_matrix nv nv A0 -> is_matrix nv np B0 -> differentiable F A0 B0 (X t) (line th0 th1 t) ->
  (forall s, 0 <= s <= 1 -> F (X s) (line th0 th1 s) = zeros nv) ->
  (forall i, (i < nv)%nat -> derivable_pt_lim (fun s => nth i (X s) 0) t (nth i d 0)) ->
  mv A0 d = vneg (mv B0 (vsub th1 th0)).
Proof.
  intros Ht T0 T1 XL Ld HA HB DF FZ XD. set (D := vsub th1 th0).
  assert (TT : length th0 = length th1) by congruence. assert (LD : length D = np) by (unfold D; rewrite vsub_length; congruence).
  destruct (vbd_max d) as (kd & Hkd & _). destruct (vbd_max D) as (kD & HkD & _). pose proof (vbd_pos Hkd). pose proof (vbd_pos HkD).
  destruct (mbd_ex A0) as (a & Ha & HAb). set (C := kd + kD + 1).
  assert (Z : forall i eps, 0 < eps <= 1 -> Rabs (nth i (mv A0 d) 0 + nth i (mv B0 D) 0) <= eps * (C + INR nv * a)).
  { intros i eps He. destruct (DF eps ltac:(lra)) as (del & Hdel & HF).
    destruct (@all_near (fun i h => Rabs (nth i (X (t + h)) 0 - nth i (X t) 0 - h * nth i d 0) <= eps * Rabs h) nv) as (d1 & Hd1 & HX).
    { intros j Hj. apply (derivable_near (XD j Hj)). lra. }
    assert (HH : exists h, h <> 0 /\ Rabs h < d1 /\ C * Rabs h <= del /\ 0 <= t + h <= 1).
    { set (q := Rmin (1 / 2) (Rmin (d1 / 2) (del / C))).
      assert (C1 : 1 <= C) by (unfold C; lra).
      assert (Q0 : 0 < q) by (unfold q; repeat apply Rmin_pos; try lra; apply Rdiv_lt_0_compat; lra).
      assert (Q1 : q <= 1 / 2) by apply Rmin_l.
      assert (Q2 : q <= d1 / 2) by (eapply Rle_trans; [apply Rmin_r|apply Rmin_l]).
      assert (Q3 : q <= del / C) by (eapply Rle_trans; [apply Rmin_r|apply Rmin_r]).
      assert (Q4 : C * q <= del).
      { apply Rmult_le_compat_l with (r := C) in Q3; [|lra]. replace (C * (del / C)) with del in Q3 by (field; lra). exact Q3. }
      destruct (Rle_dec t (1 / 2)) as [T|T].
      - exists q. rewrite (Rabs_right q) by lra. repeat split; lra.
      - exists (- q). rewrite Rabs_Ropp, (Rabs_right q) by lra. repeat split; lra. }
    destruct HH as (h & Hn & H2 & HC & Hth). pose proof (Rabs_pos h) as Ph. pose proof (Rabs_pos_lt h Hn) as Ph'.
    assert (Lt : forall s, length (line th0 th1 s) = np) by (intros; rewrite line_length; congruence).
    assert (WX : within (C * Rabs h) (X (t + h)) (X t)).
    { split; [rewrite !XL; auto|]. intros j Hj. rewrite XL in Hj by auto. specialize (HX j h Hj H2).
      replace (nth j (X (t + h)) 0 - nth j (X t) 0) with (nth j (X (t + h)) 0 - nth j (X t) 0 - h * nth j d 0 + h * nth j d 0) by ring.
      eapply Rle_trans; [apply Rabs_triang|]. rewrite Rabs_mult. specialize (Hkd j). unfold C. nra. }
    assert (WT : within (C * Rabs h) (line th0 th1 (t + h)) (line th0 th1 t)).
    { split; [now rewrite !Lt|]. intros j Hj. rewrite Lt in Hj. rewrite !nth_line by (auto; lia). specialize (HkD j). unfold D in HkD. rewrite nth_vsub in HkD by congruence.
      replace (nth j th0 0 + (t + h) * (nth j th1 0 - nth j th0 0) - (nth j th0 0 + t * (nth j th1 0 - nth j th0 0))) with (h * (nth j th1 0 - nth j th0 0)) by ring.
      rewrite Rabs_mult. unfold C. nra. }
    assert (DL : vsub (line th0 th1 (t + h)) (line th0 th1 t) = vscale h D).
    { apply vec_ext; [rewrite vsub_length, vscale_length, Lt, LD; auto; now rewrite !Lt|]. intros j Hj. rewrite vsub_length, Lt in Hj by (now rewrite !Lt).
      rewrite nth_vsub, nth_vscale by (now rewrite !Lt). unfold D. rewrite !nth_line, nth_vsub by (auto; lia). ring. }
    assert (0 <= C * Rabs h <= del) as Hm by (split; [unfold C; nra|auto]).
    specialize (HF _ _ _ Hm WX WT). rewrite !FZ, DL, mv_vscale in HF by auto.
    assert (P : Rabs (nth i (mv A0 (vsub (X (t + h)) (X t))) 0 + h * nth i (mv B0 D) 0) <= eps * (C * Rabs h)).
    { destruct (lt_dec i nv) as [L|L].
      - destruct HF as (_ & HF). rewrite zeros_length in HF. specialize (HF i L).
        assert (E1 : length (mv A0 (vsub (X (t + h)) (X t))) = length (vscale h (mv B0 D))) by (rewrite vscale_length, !mv_length; destruct HA, HB; congruence).
        rewrite nth_vadd in HF by (rewrite zeros_length, vadd_length; rewrite ?vscale_length, ?mv_length; destruct HA, HB; congruence).
        rewrite nth_vadd, nth_zeros, nth_vscale in HF by auto.
        rewrite <- Rabs_Ropp. match type of HF with Rabs ?x <= _ => match goal with |- Rabs ?y <= _ => replace y with x by ring end end. exact HF.
      - rewrite !nth_overflow by (rewrite mv_length; destruct HA, HB; lia). rewrite Rmult_0_r, Rplus_0_r, Rabs_R0. nra. }
    set (e := vsub (vsub (X (t + h)) (X t)) (vscale h d)).
    assert (L1 : length (vsub (X (t + h)) (X t)) = nv) by (rewrite vsub_length; rewrite !XL; auto).
    assert (E1 : length (vsub (X (t + h)) (X t)) = length (vscale h d)) by (rewrite vscale_length; congruence).
    assert (He1 : vbd (eps * Rabs h) e).
    { intros j. unfold e. rewrite nth_vsub, nth_vscale by auto. destruct (lt_dec j nv) as [L|L].
      - rewrite nth_vsub by (rewrite !XL; auto). now apply HX.
      - rewrite !nth_overflow by lia. rewrite Rmult_0_r, Rminus_0_r, Rabs_R0. nra. }
    pose proof (mv_vbd HA HAb He1 i) as P2. unfold e in P2. rewrite mv_vsub, mv_vscale in P2 by auto.
    rewrite nth_vsub, nth_vscale in P2 by (now rewrite vscale_length, !mv_length).
    apply Rmult_le_reg_r with (Rabs h); [auto|]. rewrite <- Rabs_mult.
    match type of P with Rabs (?p + h * ?b) <= _ => replace ((nth i (mv A0 d) 0 + b) * h) with ((p + h * b) - (p - h * nth i (mv A0 d) 0)) by ring end.
    eapply Rle_trans; [unfold Rminus at 1; apply Rabs_triang|]. rewrite Rabs_Ropp. nra. }
  apply vec_ext; [rewrite vneg_length, !mv_length; destruct HA, HB; congruence|]. intros i _. rewrite nth_vneg.
  set (w := nth i (mv A0 d) 0 + nth i (mv B0 D) 0). enough (w = 0) by (unfold w in *; lra).
  destruct (Req_dec w 0) as [|E]; auto. exfalso. pose proof (Rabs_pos_lt w E) as PW. set (Q := C + INR nv * a).
  assert (HQ : 1 <= Q) by (unfold Q, C; assert (0 <= INR nv * a) by (apply Rmult_le_pos; auto using pos_INR); lra).
  set (eps := Rmin 1 (Rabs w / (2 * Q))). assert (P : 0 < Rabs w / (2 * Q)) by (apply Rdiv_lt_0_compat; lra).
  assert (E1 : 0 < eps <= 1) by (split; [apply Rmin_pos; lra|apply Rmin_l]). specialize (Z i eps E1). fold w Q in Z.
  assert (eps * Q <= Rabs w / (2 * Q) * Q) by (apply Rmult_le_compat_r; [lra|apply Rmin_r]). replace (Rabs w / (2 * Q) * Q) with (Rabs w / 2) in * by (field; lra). lra.
Qed.

(** *** States *)
Lemma dget_cons {V} s n (x : V) d : dget s ((n, x) :: d) = if String.eqb s n then Some x else dget s d.
Proof. reflexivity. Qed.
Lemma state_near names s : forall l l' m, length l = length names -> length l' = length names -> 0 <= m ->
  (forall i, Rabs (nth i l 0 - nth i l' 0) <= m) -> Rabs (state_of names l s - state_of names l' s) <= m.
Proof.
  unfold state_of. induction names as [|n names IH]; intros [|x l] [|x' l'] m E E' Hm H; try discriminate; cbn [combine].
  - cbn. rewrite Rminus_diag_eq, Rabs_R0 by reflexivity. auto.
  - rewrite !dget_cons. destruct (String.eqb s n); [apply (H 0%nat)|]. apply IH; auto. intros i. apply (H (S i)).
Qed.
Lemma state_out names l s : ~ In s names -> state_of names l s = 0.
Proof.
  unfold state_of. revert l. induction names as [|n names IH]; intros [|x l] H; cbn [combine]; try reflexivity. rewrite dget_cons.
  destruct (String.eqb_spec s n) as [->|]; [exfalso; apply H; now left|]. apply IH. intros I. apply H. now right.
Qed.
Lemma state_map names : forall l, NoDup names -> length l = length names -> map (state_of names l) names = l.
Proof.
  induction names as [|n names IH]; intros [|x l] N E; try discriminate; [reflexivity|]. apply NoDup_cons_iff in N as (N1 & N2). cbn [map]. f_equal.
  - unfold state_of. cbn [combine]. rewrite dget_cons, String.eqb_refl. reflexivity.
  - rewrite <- (IH l) at 2 by auto. apply map_ext_in. intros s Hs. unfold state_of. cbn [combine]. rewrite dget_cons.
    destruct (String.eqb_spec s n) as [->|]; [contradiction|reflexivity].
Qed.
Lemma app_split {A} (a a' b b' : list A) : length a = length a' -> a ++ b = a' ++ b' -> a = a' /\ b = b'.
Proof.
  revert a'. induction a as [|x a IH]; intros [|x' a'] E H; try discriminate; [auto|]. injection H as -> H. cbn in E.
  destruct (IH a') as (-> & ->); auto.
Qed.
Lemma state_split vs ps x th : NoDup (vs ++ ps) -> length x = length vs -> length th = length ps ->
  map (state_of (vs ++ ps) (x ++ th)) vs = x /\ map (state_of (vs ++ ps) (x ++ th)) ps = th.
Proof.
  intros N Ex Et. assert (E := @state_map (vs ++ ps) (x ++ th) N ltac:(rewrite !app_length; congruence)). rewrite map_app in E.
  apply app_split; auto. now rewrite map_length.
Qed.

Lemma rsum_dot {A} (f g : A -> R) l : rsum (map (fun y => f y * g y) l) = dot (map f l) (map g l).
Proof. induction l as [|a l IH]; [reflexivity|]. cbn [map rsum]. rewrite IH. reflexivity. Qed.
Lemma rsum_app l l' : rsum (l ++ l') = rsum l + rsum l'.
Proof. induction l as [|a l IH]; cbn; [ring|]. rewrite IH. ring. Qed.
Lemma map_vsub {A} (f g : A -> R) l : map (fun y => f y - g y) l = vsub (map f l) (map g l).
Proof. induction l as [|a l IH]; [reflexivity|]. cbn [map]. rewrite IH. reflexivity. Qed.
Lemma dot_combine {A} (f : A -> R) l : forall s, rsum (map (fun jx => f (fst jx) * snd jx) (combine l s)) = dot (map f l) s.
Proof. induction l as [|a l IH]; intros [|b s]; try reflexivity. cbn [combine map rsum fst snd]. rewrite IH. reflexivity. Qed.

(** Finitely many entries near one point *)
Lemma common_loclip {I} (f : I -> (string -> R) -> R) v0 l : (forall i, In i l -> loclip (f i) v0) ->
  exists r K, 0 < r /\ 0 <= K /\ forall i v v' m, In i l -> close r v v0 -> close r v' v0 -> close m v v' -> Rabs (f i v - f i v') <= K * m.
Proof.
  induction l as [|a l IH]; intros H; [exists 1, 0; split; [lra|]; split; [lra|]; intros ? ? ? ? []|].
  destruct IH as (r & K & Hr & HK & H1); [intros; apply H; now right|]. destruct (H a (or_introl eq_refl)) as (r' & K' & Hr' & HK' & H2).
  exists (Rmin r r'), (K + K'). split; [now apply Rmin_pos|]. split; [lra|]. intros i v v' m Hi C C' M. pose proof (close_pos M).
  assert (0 <= K * m) by (apply Rmult_le_pos; lra). assert (0 <= K' * m) by (apply Rmult_le_pos; lra).
  destruct Hi as [<-|Hi].
  - assert (Rabs (f a v - f a v') <= K' * m) by (apply H2; auto; eapply close_mono; eauto using Rmin_r). lra.
  - assert (Rabs (f i v - f i v') <= K * m) by (apply H1; auto; eapply close_mono; eauto using Rmin_l). lra.
Qed.

Section Model.
Context (vs ps : list string) (eqs : list sexpr).
Hypothesis ND : NoDup (vs ++ ps).
Hypothesis SQ : length eqs = length vs.
Notation nv := (length vs).
Notation np := (length ps).
Notation names := (vs ++ ps).
Notation st x th := (state_of (vs ++ ps) (x ++ th)).

Definition Am (x th : list R) : list (list R) := map (fun e => map (fun y => val (st x th) no_arrays (diff y e)) vs) eqs.
Definition Bm (x th : list R) : list (list R) := map (fun e => map (fun y => val (st x th) no_arrays (diff y e)) ps) eqs.
Definition Fm (x th : list R) : list R := values_at vs ps eqs x th.

Lemma Am_matrix x th : is_matrix nv nv (Am x th).
Proof. split; [unfold Am; now rewrite map_length|]. intros row H. apply in_map_iff in H as (e & <- & _). now rewrite map_length. Qed.
Lemma Bm_matrix x th : is_matrix nv np (Bm x th).
Proof. split; [unfold Bm; now rewrite map_length|]. intros row H. apply in_map_iff in H as (e & <- & _). now rewrite map_length. Qed.

Lemma st_close x th x' th' m : length x = nv -> length th = np -> 0 <= m -> within m x x' -> within m th th' -> close m (st x th) (st x' th').
Proof.
  clear SQ ND eqs. intros Lx Lt Hm (E1 & W1) (E2 & W2) s. apply state_near; auto; try (rewrite !app_length; congruence). intros i.
  destruct (lt_dec i nv) as [L|L].
  - rewrite !app_nth1 by lia. apply W1. lia.
  - rewrite !app_nth2 by lia. rewrite <- E1. destruct (lt_dec (i - length x) np) as [L'|L']; [apply W2; lia|].
    rewrite !nth_overflow by lia. rewrite Rminus_diag_eq, Rabs_R0 by reflexivity. auto.
Qed.

Lemma entry_map (g : string -> sexpr -> R) l i j : entry (map (fun e => map (fun y => g y e) l) eqs) i j =
  match nth_error eqs i, nth_error l j with Some e, Some y => g y e | _, _ => 0 end.
Proof.
  unfold entry. destruct (nth_error eqs i) as [e|] eqn:E.
  - rewrite (nth_error_nth _ i [] (x := map (fun y => g y e) l)) by (rewrite nth_error_map, E; reflexivity).
    destruct (nth_error l j) as [y|] eqn:Ey.
    + apply nth_error_nth. now rewrite nth_error_map, Ey.
    + apply nth_error_None in Ey. apply nth_overflow. now rewrite map_length.
  - apply nth_error_None in E. rewrite (nth_overflow (map _ eqs)) by (now rewrite map_length). now destruct j.
Qed.

Lemma model_lip x0 t0 : length x0 = nv -> length t0 = np -> Forall (smooth (st x0 t0) no_arrays) eqs -> exists r K, 0 < r /\ 0 <= K /\ forall x th x' th' m,
  within r x x0 -> within r th t0 -> within r x' x0 -> within r th' t0 -> 0 <= m -> within m x x' -> within m th th' ->
  mclose (K * m) (Am x th) (Am x' th') /\ mclose (K * m) (Bm x th) (Bm x' th').
Proof.
  intros Lx Lt S. rewrite Forall_forall in S.
  destruct (@common_loclip (sexpr * string) (fun ey v => val v no_arrays (diff (snd ey) (fst ey))) (st x0 t0) (list_prod eqs names)) as (r & K & Hr & HK & H).
  { intros (e & y) Hi. apply in_prod_iff in Hi as (He & _). apply loclip_val, smooth_diff. cbn. auto. }
  exists r, K. split; auto. split; auto. intros x th x' th' m Wx Wt Wx' Wt' Hm Mx Mt.
  assert (Lx1 : length x = nv) by (destruct Wx; congruence). assert (Lt1 : length th = np) by (destruct Wt; congruence).
  assert (Lx2 : length x' = nv) by (destruct Wx'; congruence). assert (Lt2 : length th' = np) by (destruct Wt'; congruence).
  assert (G : forall e y, In e eqs -> In y names -> Rabs (val (st x th) no_arrays (diff y e) - val (st x' th') no_arrays (diff y e)) <= K * m).
  { intros e y He Hy. apply (H (e, y)); [now apply in_prod_iff| | |]; apply st_close; auto; lra. }
  assert (0 <= K * m) by (apply Rmult_le_pos; auto).
  split; intros i j; unfold Am, Bm; rewrite !(entry_map (fun y e => val _ no_arrays (diff y e))).
  - destruct (nth_error eqs i) as [e|] eqn:E; [destruct (nth_error vs j) as [y|] eqn:Ey|]; try (rewrite Rminus_diag_eq, Rabs_R0 by reflexivity; auto).
    apply G; [eapply nth_error_In; eauto|]. apply in_or_app. left. eapply nth_error_In; eauto.
  - destruct (nth_error eqs i) as [e|] eqn:E; [destruct (nth_error ps j) as [y|] eqn:Ey|]; try (rewrite Rminus_diag_eq, Rabs_R0 by reflexivity; auto).
    apply G; [eapply nth_error_In; eauto|]. apply in_or_app. right. eapply nth_error_In; eauto.
Qed.

Lemma model_smooth_near x0 t0 : length x0 = nv -> length t0 = np -> Forall (smooth (st x0 t0) no_arrays) eqs -> exists r, 0 < r /\ forall x th,
  within r x x0 -> within r th t0 -> Forall (smooth (st x th) no_arrays) eqs.
Proof.
  intros Lx Lt S. assert (E : exists r, 0 < r /\ forall v, close r v (st x0 t0) -> Forall (smooth v no_arrays) eqs).
  { clear SQ. induction eqs as [|e l IH]; [exists 1; split; [lra|constructor]|]. apply Forall_cons_iff in S as (S1 & S2).
    destruct (IH S2) as (r & Hr & H). destruct (smooth_open no_arrays e (st x0 t0) S1) as (r' & Hr' & H').
    exists (Rmin r r'). split; [now apply Rmin_pos|]. intros v C. constructor; [apply H'|apply H]; eapply close_mono; eauto using Rmin_l, Rmin_r. }
  destruct E as (r & Hr & H). exists r. split; auto. intros x th Wx Wt. apply H. apply st_close; auto; try lra; [destruct Wx|destruct Wt]; congruence.
Qed.

Lemma gsum_split x0 t0 x th e : length x0 = nv -> length t0 = np -> length x = nv -> length th = np ->
  gsum no_arrays names (st x0 t0) (fun s => st x th s - st x0 t0 s) e =
  dot (map (fun y => val (st x0 t0) no_arrays (diff y e)) vs) (vsub x x0) + dot (map (fun y => val (st x0 t0) no_arrays (diff y e)) ps) (vsub th t0).
Proof.
  intros L1 L2 L3 L4. destruct (state_split vs ps x0 t0 ND L1 L2) as (E1 & E2). destruct (state_split vs ps x th ND L3 L4) as (E3 & E4).
  unfold gsum. rewrite map_app, rsum_app, !rsum_dot, !map_vsub, E1, E2, E3, E4. reflexivity.
Qed.

Lemma model_differentiable x0 t0 : length x0 = nv -> length t0 = np -> Forall (smooth (st x0 t0) no_arrays) eqs ->
  differentiable Fm (Am x0 t0) (Bm x0 t0) x0 t0.
Proof.
  intros Lx Lt S eps He.
  assert (E : exists del, 0 < del /\ forall e v m, In e eqs -> close m v (st x0 t0) -> m <= del -> (forall s, ~ In s names -> v s = st x0 t0 s) ->
    Rabs (val v no_arrays e - val (st x0 t0) no_arrays e - gsum no_arrays names (st x0 t0) (fun s => v s - st x0 t0 s) e) <= eps * m).
  { clear SQ. induction eqs as [|e l IH]; [exists 1; split; [lra|]; intros ? ? ? []|]. apply Forall_cons_iff in S as (S1 & S2).
    destruct (IH S2) as (d & Hd & H). destruct (@total_derivative no_arrays names ND e (st x0 t0) S1 eps He) as (d' & Hd' & H').
    exists (Rmin d d'). split; [now apply Rmin_pos|]. intros e' v m [<-|I] C M O; [apply H'|apply H]; auto; eapply Rle_trans; eauto using Rmin_l, Rmin_r. }
  destruct E as (del & Hdel & H). exists del. split; auto. intros x th m Hm Wx Wt.
  assert (L3 : length x = nv) by (destruct Wx; congruence). assert (L4 : length th = np) by (destruct Wt; congruence).
  assert (E1 : length (mv (Am x0 t0) (vsub x x0)) = length (mv (Bm x0 t0) (vsub th t0))) by (unfold Am, Bm; rewrite !mv_length, !map_length; auto).
  assert (E2 : length (Fm x0 t0) = length (vadd (mv (Am x0 t0) (vsub x x0)) (mv (Bm x0 t0) (vsub th t0)))).
  { rewrite vadd_length by auto. unfold Fm, values_at, Am. rewrite mv_length, !map_length. auto. }
  split; [rewrite vadd_length by auto; unfold Fm, values_at; now rewrite !map_length|]. intros i Hi.
  rewrite !nth_vadd, !nth_mv by auto. unfold Fm, values_at in Hi. rewrite map_length in Hi.
  destruct (nth_error eqs i) as [e|] eqn:E; [|apply nth_error_None in E; lia].
  assert (In e eqs) by (eapply nth_error_In; eauto).
  unfold Fm, values_at, Am, Bm.
  rewrite (nth_error_nth _ i 0 (x := val (st x th) no_arrays e)) by (rewrite nth_error_map, E; reflexivity).
  rewrite (nth_error_nth _ i 0 (x := val (st x0 t0) no_arrays e)) by (rewrite nth_error_map, E; reflexivity).
  rewrite (nth_error_nth _ i [] (x := map (fun y => val (st x0 t0) no_arrays (diff y e)) vs)) by (rewrite nth_error_map, E; reflexivity).
  rewrite (nth_error_nth _ i [] (x := map (fun y => val (st x0 t0) no_arrays (diff y e)) ps)) by (rewrite nth_error_map, E; reflexivity).
  rewrite <- gsum_split by auto.
  match goal with |- Rabs (?a - (?b + ?c)) <= _ => replace (a - (b + c)) with (a - b - c) by ring end.
  apply H; auto; [apply st_close; auto; lra|lra|]. intros s Hs. now rewrite !state_out.
Qed.

Lemma derivatives_unique x th J : Forall (smooth (st x th) no_arrays) eqs -> derivatives_at vs ps eqs x th J -> J = Am x th.
Proof.
  unfold derivatives_at, Am. intros S H. clear SQ. induction H as [|e row es J He HJ IH]; [reflexivity|]. apply Forall_cons_iff in S as (S1 & S2).
  cbn [map]. rewrite <- IH by auto. f_equal. clear - He S1. set (v := state_of _ _) in *. clearbody v. induction He as [|y d l row Hd _ IH]; [reflexivity|].
  cbn [map]. rewrite <- IH. f_equal. eapply uniqueness_limite; [exact Hd|]. now apply deriv_val.
Qed.
End Model.
