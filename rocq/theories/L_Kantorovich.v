(** Lemmas for C116. *)
From Coq Require Import Reals Lra.
From Verif Require Import Py PyStr NdArray M_Primitives M_Utilities M_Wrappers M_Euler M_Newton.
From Verif Require Import S_Layout S_Euler S_Newton S_Kantorovich L_Utilities L_Layout L_Wrappers L_Euler L_Euler2 L_Euler3 L_Newton L_Converge.
Local Open Scope list_scope.
Local Open Scope R_scope.

(** ** Sums of absolute values *)
Lemma abs_pos v : 0 <= abs_sum v.
Proof. induction v as [|a v IH]; cbn; [lra|]. pose proof (Rabs_pos a). unfold abs_sum in IH. lra. Qed.
Lemma abs_add a : forall b, abs_sum (vadd a b) <= abs_sum a + abs_sum b.
Proof.
  induction a as [|x a IH]; intros b.
  - unfold vadd. cbn. pose proof (abs_pos b). lra.
  - destruct b as [|y b].
    + pose proof (abs_pos (x :: a)). cbn -[abs_sum]. cbn in *. lra.
    + change (Rabs (x + y) + abs_sum (vadd a b) <= Rabs x + abs_sum a + (Rabs y + abs_sum b)).
      specialize (IH b). pose proof (Rabs_triang x y). lra.
Qed.
Lemma abs_scale k v : abs_sum (vscale k v) = Rabs k * abs_sum v.
Proof.
  induction v as [|a v IH]; [cbn; ring|].
  change (Rabs (k * a) + abs_sum (vscale k v) = Rabs k * (Rabs a + abs_sum v)). rewrite IH, Rabs_mult. ring.
Qed.
Lemma dist_sym u : forall v, dist1 u v = dist1 v u.
Proof.
  unfold dist1. induction u as [|a u IH]; intros [|b v]; try reflexivity.
  change (Rabs (a - b) + abs_sum (vsub u v) = Rabs (b - a) + abs_sum (vsub v u)). rewrite IH, Rabs_minus_sym. reflexivity.
Qed.
Lemma dist_tri u : forall v w, length u = length v -> length v = length w -> dist1 u w <= dist1 u v + dist1 v w.
Proof.
  unfold dist1. induction u as [|a u IH]; intros [|b v] [|c w] L1 L2; try discriminate; [cbn; lra|].
  change (Rabs (a - c) + abs_sum (vsub u w) <= Rabs (a - b) + abs_sum (vsub u v) + (Rabs (b - c) + abs_sum (vsub v w))).
  injection L1 as L1. injection L2 as L2. specialize (IH v w L1 L2). pose proof (Rabs_triang (a - b) (b - c)).
  replace (a - b + (b - c)) with (a - c) in * by ring. lra.
Qed.
Lemma abs_of_dist u : forall v, length u = length v -> abs_sum u <= dist1 u v + abs_sum v.
Proof.
  unfold dist1. induction u as [|a u IH]; intros [|b v] L; try discriminate; [cbn; lra|].
  change (Rabs a + abs_sum u <= Rabs (a - b) + abs_sum (vsub u v) + (Rabs b + abs_sum v)). injection L as L. specialize (IH v L).
  pose proof (Rabs_triang (a - b) b). replace (a - b + b) with a in * by ring. lra.
Qed.
Lemma abs_drop a : forall w, length a = length w -> abs_sum a <= abs_sum (vadd a w) + abs_sum w.
Proof.
  induction a as [|x a IH]; intros [|y w] L; try discriminate; [cbn; lra|].
  change (Rabs x + abs_sum a <= Rabs (x + y) + abs_sum (vadd a w) + (Rabs y + abs_sum w)). injection L as L. specialize (IH w L).
  pose proof (Rabs_triang (x + y) (- y)). rewrite Rabs_Ropp in *. replace (x + y + - y) with x in * by ring. lra.
Qed.
Lemma dist_self u : dist1 u u = 0.
Proof.
  unfold dist1. induction u as [|a u IH]; [reflexivity|].
  change (Rabs (a - a) + abs_sum (vsub u u) = 0). rewrite IH. replace (a - a) with 0 by ring. rewrite Rabs_R0. ring.
Qed.
Lemma abs_zero v : abs_sum v = 0 -> v = zeros (length v).
Proof.
  induction v as [|a v IH]; [reflexivity|]. change (Rabs a + abs_sum v = 0 -> a :: v = 0 :: zeros (length v)). intros H.
  pose proof (Rabs_pos a). pose proof (abs_pos v). f_equal; [|apply IH; lra].
  destruct (Req_dec a 0) as [|N]; [assumption|]. apply Rabs_pos_lt in N. lra.
Qed.
Lemma entry_le v : forall i, Rabs (nth i v 0) <= abs_sum v.
Proof.
  induction v as [|a v IH]; intros [|i].
  - cbn. rewrite Rabs_R0. lra.
  - cbn. rewrite Rabs_R0. lra.
  - cbn [nth]. pose proof (abs_pos v). change (Rabs a <= Rabs a + abs_sum v). lra.
  - cbn [nth]. change (Rabs (nth i v 0) <= Rabs a + abs_sum v). specialize (IH i). pose proof (Rabs_pos a). lra.
Qed.
Lemma abs_le v e : (forall i, (i < length v)%nat -> Rabs (nth i v 0) <= e) -> abs_sum v <= INR (length v) * e.
Proof.
  induction v as [|a v IH]; intros H; [cbn; lra|].
  change (Rabs a + abs_sum v <= INR (S (length v)) * e). rewrite S_INR.
  pose proof (H 0%nat ltac:(cbn; lia)) as H0. cbn in H0. specialize (IH (fun i Hi => H (S i) ltac:(cbn; lia))). lra.
Qed.
Lemma vadd_scale k a : vadd a (vscale (- k) a) = vscale (1 - k) a.
Proof.
  induction a as [|x a IH]; [reflexivity|].
  change (x + - k * x :: vadd a (vscale (- k) a) = (1 - k) * x :: vscale (1 - k) a). rewrite IH. f_equal. ring.
Qed.
Lemma sub_step k y : forall s, length s = length y -> vsub (vsub y (vscale k s)) y = vscale (- k) s.
Proof.
  induction y as [|a y IH]; intros [|b s] L; try discriminate; [reflexivity|].
  change ((a - k * b) - a :: vsub (vsub y (vscale k s)) y = - k * b :: vscale (- k) s). injection L as L. rewrite (IH s L). f_equal. ring.
Qed.
Lemma mv_bound M : exists C, 0 <= C /\ forall h, abs_sum (mv M h) <= C * abs_sum h.
Proof.
  assert (D : forall row h, Rabs (dot row h) <= abs_sum row * abs_sum h).
  { induction row as [|a row IH]; intros [|b h].
    - unfold dot. cbn. rewrite Rabs_R0. lra.
    - unfold dot. cbn. rewrite Rabs_R0. lra.
    - unfold dot. cbn. rewrite Rabs_R0. lra.
    - change (Rabs (a * b + dot row h) <= (Rabs a + abs_sum row) * (Rabs b + abs_sum h)).
      eapply Rle_trans; [apply Rabs_triang|]. rewrite Rabs_mult. specialize (IH h).
      pose proof (Rabs_pos a). pose proof (Rabs_pos b). pose proof (abs_pos row). pose proof (abs_pos h). nra. }
  induction M as [|row M (C & C0 & HC)].
  - exists 0. split; [lra|]. intros. cbn. lra.
  - exists (abs_sum row + C). pose proof (abs_pos row). split; [lra|]. intros h.
    change (Rabs (dot row h) + abs_sum (mv M h) <= (abs_sum row + C) * abs_sum h). specialize (D row h). specialize (HC h). lra.
Qed.
Lemma norm1_abs v : norm1 v = abs_sum v.
Proof. apply norm1_sum. Qed.

(** ** The iteration on vectors *)
Section Points.
  Context (f g : list R -> list R) (jac : list R -> list (list R)) (n : nat) (c : list R) (rho beta K : R).
  Definition inside (y : list R) : Prop := length y = n /\ dist1 y c <= rho.
  Hypothesis Hc : length c = n.
  Hypothesis B0 : 0 <= beta.
  Hypothesis K0 : 0 <= K.
  Hypothesis Hg : forall y, inside y -> length (f y) = n /\ length (jac y) = n /\ length (g y) = n /\ mv (jac y) (g y) = f y /\ abs_sum (g y) <= beta * abs_sum (f y).
  Hypothesis Ht : forall y z, inside y -> inside z -> dist1 (f z) (vadd (f y) (mv (jac y) (vsub z y))) <= K * dist1 z y ^ 2.

  Definition next (k : R) (y : list R) : list R := vsub y (vscale k (g y)).

  (** What is left of the distance [u0] pays for the steps to come *)
  Definition budget (u0 : R) (y : list R) : Prop := length y = n /\ dist1 y c + 2 * beta * abs_sum (f y) <= 2 * beta * u0 /\ abs_sum (f y) <= u0.

  Lemma next_length k y : inside y -> length (next k y) = n.
  Proof. intros H. destruct (Hg H) as (_ & _ & L & _). unfold next. rewrite vsub_length; [apply H|]. rewrite vscale_length, L. symmetry. apply H. Qed.

  Lemma next_dist k y : inside y -> 0 <= k -> dist1 (next k y) y <= k * beta * abs_sum (f y).
  Proof.
    intros H Hk. destruct (Hg H) as (_ & _ & L & _ & Hb). unfold next, dist1. rewrite sub_step by (rewrite L; symmetry; apply H).
    rewrite abs_scale, Rabs_Ropp, (Rabs_pos_eq k) by auto. nra.
  Qed.

  Lemma budget_inside u0 y : 2 * beta * u0 <= rho -> budget u0 y -> inside y.
  Proof. intros Hr (L & D & _). split; [exact L|]. pose proof (abs_pos (f y)). nra. Qed.

  Lemma next_inside u0 k y : 2 * beta * u0 <= rho -> 0 <= k <= 1 -> budget u0 y -> inside (next k y).
  Proof.
    intros Hr Hk Hb. pose proof (budget_inside Hr Hb) as I. split; [now apply next_length|].
    pose proof (next_dist I (proj1 Hk)) as D. destruct Hb as (L & D0 & _).
    eapply Rle_trans; [apply (@dist_tri _ y c); [rewrite next_length; auto|congruence]|].
    pose proof (abs_pos (f y)). assert (k * (beta * abs_sum (f y)) <= 1 * (beta * abs_sum (f y))) by (apply Rmult_le_compat_r; nra). nra.
  Qed.

  Lemma next_residual k y : 0 <= k <= 1 -> inside y -> inside (next k y) ->
    abs_sum (f (next k y)) <= (1 - k) * abs_sum (f y) + K * (k * beta * abs_sum (f y)) ^ 2.
  Proof.
    intros Hk I I'. pose proof (Ht I I') as T. destruct (Hg I) as (Lf & Lj & L & Em & Hb). destruct (Hg I') as (Lf' & _).
    pose proof (next_dist I (proj1 Hk)) as D.
    assert (E : vadd (f y) (mv (jac y) (vsub (next k y) y)) = vscale (1 - k) (f y)).
    { unfold next. rewrite sub_step by (rewrite L; symmetry; apply I). rewrite mv_vscale, Em. apply vadd_scale. }
    rewrite E in T. eapply Rle_trans; [apply (@abs_of_dist _ (vscale (1 - k) (f y))); rewrite vscale_length; congruence|].
    rewrite abs_scale, (Rabs_pos_eq (1 - k)) by lra.
    assert (dist1 (next k y) y ^ 2 <= (k * beta * abs_sum (f y)) ^ 2) by (apply pow_incr; split; [apply abs_pos|exact D]).
    assert (K * dist1 (next k y) y ^ 2 <= K * (k * beta * abs_sum (f y)) ^ 2) by (apply Rmult_le_compat_l; auto). lra.
  Qed.

  Lemma next_half u0 k y : 2 * (K * beta ^ 2 * u0) <= 1 -> 2 * beta * u0 <= rho -> 0 <= k <= 1 -> budget u0 y ->
    abs_sum (f (next k y)) <= (1 - k / 2) * abs_sum (f y) /\ budget u0 (next k y).
  Proof.
    intros Hq Hr Hk Hb. pose proof (budget_inside Hr Hb) as I. pose proof (next_inside Hr Hk Hb) as I'.
    pose proof (next_residual Hk I I') as R. destruct Hb as (L & D0 & U). set (u := abs_sum (f y)) in *.
    pose proof (abs_pos (f y)) as U0. fold u in U0. pose proof (abs_pos (f (next k y))) as U1.
    assert (Q : K * beta ^ 2 * u <= 1 / 2).
    { assert (K * beta ^ 2 * u <= K * beta ^ 2 * u0); [|lra]. apply Rmult_le_compat_l; [|exact U]. apply Rmult_le_pos; [auto|]. apply pow_le; auto. }
    assert (Q2 : K * (k * beta * u) ^ 2 <= k / 2 * u).
    { replace (K * (k * beta * u) ^ 2) with ((K * beta ^ 2 * u) * (k * k * u)) by ring.
      apply Rle_trans with (1 / 2 * (k * k * u)); [apply Rmult_le_compat_r; [apply Rmult_le_pos; nra|exact Q]|].
      assert (KU : 0 <= k * u) by (apply Rmult_le_pos; lra). assert (KV : 0 <= k * u * (1 - k)) by (apply Rmult_le_pos; lra). lra. }
    assert (H1 : abs_sum (f (next k y)) <= (1 - k / 2) * u) by lra.
    split; [exact H1|]. split; [apply I'|]. split; [|nra].
    pose proof (next_dist I (proj1 Hk)) as D. fold u in D.
    assert (T : dist1 (next k y) c <= dist1 (next k y) y + dist1 y c) by (apply dist_tri; [rewrite next_length; auto|congruence]).
    assert (beta * abs_sum (f (next k y)) <= beta * ((1 - k / 2) * u)) by (apply Rmult_le_compat_l; auto). nra.
  Qed.

  (** ** A solution close to every point with a budget *)
  Context (u0 : R) (Hq : 2 * (K * beta ^ 2 * u0) <= 1) (Hr : 2 * beta * u0 <= rho).

  Lemma iter_budget y m : budget u0 y -> budget u0 (Nat.iter m (next 1) y) /\ abs_sum (f (Nat.iter m (next 1) y)) <= (1 / 2) ^ m * abs_sum (f y).
  Proof.
    intros Hb. induction m as [|m (IB & IU)]; [split; [exact Hb|cbn; lra]|].
    destruct (@next_half u0 1 _ Hq Hr ltac:(lra) IB) as (H1 & H2). cbn [Nat.iter nat_rect]. split; [exact H2|].
    eapply Rle_trans; [exact H1|]. cbn [pow]. replace (1 - 1 / 2) with (1 / 2) by field.
    rewrite Rmult_assoc. apply Rmult_le_compat_l; [lra|exact IU].
  Qed.

  Lemma iter_dist y m d : budget u0 y -> dist1 (Nat.iter (d + m) (next 1) y) (Nat.iter m (next 1) y) <= 2 * beta * abs_sum (f y) * (1 / 2) ^ m * (1 - (1 / 2) ^ d).
  Proof.
    intros Hb. induction d as [|d IH].
    - cbn [Nat.add pow]. rewrite dist_self. lra.
    - destruct (iter_budget (d + m) Hb) as (B1 & U1). destruct (iter_budget m Hb) as (B2 & _).
      pose proof (budget_inside Hr B1) as I. destruct (iter_budget (S d + m) Hb) as (B3 & _).
      eapply Rle_trans; [apply (@dist_tri _ (Nat.iter (d + m) (next 1) y)); [transitivity n; [apply B3|symmetry; apply B1]|transitivity n; [apply B1|symmetry; apply B2]]|].
      change (Nat.iter (S d + m) (next 1) y) with (next 1 (Nat.iter (d + m) (next 1) y)).
      pose proof (@next_dist 1 _ I ltac:(lra)) as D. rewrite pow_add in U1. cbn [pow].
      assert (beta * abs_sum (f (Nat.iter (d + m) (next 1) y)) <= beta * ((1 / 2) ^ d * (1 / 2) ^ m * abs_sum (f y))) by (apply Rmult_le_compat_l; auto).
      lra.
  Qed.

  Lemma half_small e : 0 < e -> exists m, (1 / 2) ^ m < e.
  Proof.
    intros He. destruct (pow_lt_1_zero (1 / 2) ltac:(rewrite Rabs_pos_eq; lra) e He) as (N & HN). exists N. specialize (HN N ltac:(lia)).
    rewrite Rabs_pos_eq in HN by (apply pow_le; lra). exact HN.
  Qed.

  Lemma limit_point y : budget u0 y -> exists z, length z = n /\
    forall e, 0 < e -> exists m0, forall m, (m0 <= m)%nat -> dist1 (Nat.iter m (next 1) y) z <= e.
  Proof.
    intros Hb. set (Y := fun m => Nat.iter m (next 1) y). set (u := abs_sum (f y)).
    assert (U0 : 0 <= u) by apply abs_pos.
    assert (LY : forall m, length (Y m) = n) by (intros m; apply (iter_budget m Hb)).
    assert (CD : forall m d, dist1 (Y (d + m)%nat) (Y m) <= 2 * beta * u * (1 / 2) ^ m).
    { intros m d. eapply Rle_trans; [apply (iter_dist m d Hb)|]. fold u.
      assert (0 <= (1 / 2) ^ m) by (apply pow_le; lra). assert (0 <= (1 / 2) ^ d) by (apply pow_le; lra).
      assert (0 <= 2 * beta * u * (1 / 2) ^ m) by (apply Rmult_le_pos; [nra|auto]). nra. }
    assert (CE : forall i, Cauchy_crit (fun m => nth i (Y m) 0)).
    { intros i e He. assert (P : 0 < e / (4 * (beta * u) + 1)) by (apply Rdiv_lt_0_compat; nra).
      destruct (half_small P) as (N & HN). exists N.
      assert (Q : 4 * (beta * u) * (1 / 2) ^ N < e).
      { assert (0 <= (1 / 2) ^ N) by (apply pow_le; lra).
        apply Rle_lt_trans with ((4 * (beta * u) + 1) * (1 / 2) ^ N); [nra|].
        apply Rmult_lt_compat_l with (r := 4 * (beta * u) + 1) in HN; [|nra].
        replace ((4 * (beta * u) + 1) * (e / (4 * (beta * u) + 1))) with e in HN by (field; nra). exact HN. }
      assert (O : forall m, (m >= N)%nat -> Rabs (nth i (Y m) 0 - nth i (Y N) 0) <= 2 * beta * u * (1 / 2) ^ N).
      { intros m Hm. specialize (CD N (m - N)%nat). replace (m - N + N)%nat with m in CD by lia.
        eapply Rle_trans; [|exact CD]. destruct (Nat.lt_ge_cases i n) as [Hi|Hi].
        - unfold dist1. eapply Rle_trans; [|apply (@entry_le _ i)]. unfold vsub. rewrite nth_vmap2_0; [lra|rewrite !LY; auto|rewrite LY; auto].
        - rewrite !nth_overflow by (rewrite LY; lia). replace (0 - 0) with 0 by ring. rewrite Rabs_R0. apply abs_pos. }
      intros p q Hp Hq'. unfold R_dist. pose proof (O p Hp) as O1. pose proof (O q Hq') as O2.
      replace (nth i (Y p) 0 - nth i (Y q) 0) with ((nth i (Y p) 0 - nth i (Y N) 0) - (nth i (Y q) 0 - nth i (Y N) 0)) by ring.
      eapply Rle_lt_trans; [apply Rabs_triang|]. rewrite Rabs_Ropp. lra. }
    set (lim := fun i => proj1_sig (R_complete _ (CE i))).
    assert (HL : forall i, Un_cv (fun m => nth i (Y m) 0) (lim i)) by (intros i; unfold lim; apply (proj2_sig (R_complete _ (CE i)))).
    exists (map lim (seq 0 n)). assert (LL : length (map lim (seq 0 n)) = n) by (rewrite map_length, seq_length; auto).
    split; [exact LL|]. intros e He.
    assert (P : 0 < e / (INR n + 1)) by (apply Rdiv_lt_0_compat; [auto|pose proof (pos_INR n); lra]).
    assert (M : forall k, exists m0, forall m i, (m0 <= m)%nat -> (i < k)%nat -> Rabs (nth i (Y m) 0 - lim i) <= e / (INR n + 1)).
    { induction k as [|k (m0 & IH)]; [exists 0%nat; intros; lia|]. destruct (HL k (e / (INR n + 1)) P) as (m1 & H1).
      exists (max m0 m1). intros m i Hm Hi. destruct (Nat.eq_dec i k) as [->|Ne]; [|apply IH; lia].
      left. apply H1. lia. }
    destruct (M n) as (m0 & HM). exists m0. intros m Hm. unfold dist1. change (Nat.iter m (next 1) y) with (Y m).
    assert (LV : length (vsub (Y m) (map lim (seq 0 n))) = n) by (rewrite vsub_length; rewrite LY; auto).
    eapply Rle_trans; [apply (@abs_le _ (e / (INR n + 1)))|].
    - intros i Hi. rewrite LV in Hi. unfold vsub. rewrite nth_vmap2_0 by (rewrite ?LY, ?LL; auto).
      rewrite (nth_indep (map lim (seq 0 n)) 0 (lim 0%nat)) by (rewrite LL; auto).
      rewrite (map_nth lim), seq_nth by auto. cbn [Nat.add]. apply HM; auto.
    - rewrite LV. pose proof (pos_INR n). apply Rmult_le_reg_r with (INR n + 1); [lra|].
      replace (INR n * (e / (INR n + 1)) * (INR n + 1)) with (INR n * e) by (field; lra). nra.
  Qed.

  Lemma solution_near y : budget u0 y -> exists z, inside z /\ f z = zeros n /\ dist1 z y <= 2 * beta * abs_sum (f y).
  Proof.
    intros Hb. destruct (limit_point Hb) as (z & Lz & Hz). set (Y := fun m => Nat.iter m (next 1) y) in *.
    assert (LY : forall m, length (Y m) = n) by (intros m; apply (iter_budget m Hb)).
    assert (U0 : 0 <= abs_sum (f y)) by apply abs_pos.
    assert (D0 : dist1 z y <= 2 * beta * abs_sum (f y)).
    { apply le_epsilon. intros e He. destruct (Hz e He) as (m & Hm). specialize (Hm m ltac:(lia)).
      eapply Rle_trans; [apply (@dist_tri z (Y m) y); [rewrite LY; auto|rewrite LY; symmetry; apply Hb]|].
      rewrite (dist_sym z (Y m)). pose proof (iter_dist 0 m Hb) as D. rewrite Nat.add_0_r in D. cbn [Nat.iter nat_rect pow] in D.
      fold (Y m) in D. assert (0 <= (1 / 2) ^ m) by (apply pow_le; lra). assert (0 <= 2 * beta * abs_sum (f y)) by nra. fold (Y m) in Hm. nra. }
    assert (Iz : inside z).
    { split; [exact Lz|]. destruct Hb as (Ly & D & _). eapply Rle_trans; [apply (@dist_tri z y c); congruence|]. lra. }
    exists z. split; [exact Iz|]. split; [|exact D0].
    destruct (Hg Iz) as (Lf & Lj & _). destruct (mv_bound (jac z)) as (C & C0 & HC).
    assert (Z : abs_sum (f z) <= 0).
    { apply le_epsilon. intros e He. set (d := Rmin 1 (e / (2 * (C + K + 1)))).
      assert (Pd : 0 < d) by (unfold d; apply Rmin_pos; [lra|apply Rdiv_lt_0_compat; lra]).
      destruct (Hz d Pd) as (m0 & Hm0).
      assert (Pe : 0 < e / (2 * (abs_sum (f y) + 1))) by (apply Rdiv_lt_0_compat; lra). destruct (half_small Pe) as (m1 & Hm1).
      set (m := max m0 m1). specialize (Hm0 m ltac:(unfold m; lia)). fold (Y m) in Hm0.
      destruct (iter_budget m Hb) as (Bm & Um). fold (Y m) in Bm, Um. pose proof (budget_inside Hr Bm) as Im. destruct (Hg Im) as (Lfm & _).
      assert (Um' : abs_sum (f (Y m)) <= e / 2).
      { assert (P2 : (1 / 2) ^ m <= (1 / 2) ^ m1).
        { replace m with (m - m1 + m1)%nat by (unfold m; lia). rewrite pow_add. assert ((1 / 2) ^ (m - m1) <= 1).
          { eapply Rle_trans; [apply (pow_incr _ 1); lra|]. rewrite pow1. lra. } assert (0 <= (1 / 2) ^ m1) by (apply pow_le; lra). nra. }
        assert (Q : (1 / 2) ^ m * (abs_sum (f y) + 1) <= e / 2).
        { apply Rle_trans with (e / (2 * (abs_sum (f y) + 1)) * (abs_sum (f y) + 1)); [apply Rmult_le_compat_r; lra|].
          right. field. lra. }
        assert (0 <= (1 / 2) ^ m) by (apply pow_le; lra). lra. }
      pose proof (Ht Iz Im) as T. pose proof (HC (vsub (Y m) z)) as H1. fold (dist1 (Y m) z) in H1.
      set (w := mv (jac z) (vsub (Y m) z)) in *. assert (Lw : length w = n) by (unfold w; rewrite mv_length; auto).
      assert (Q1 : abs_sum (f z) <= abs_sum (f (Y m)) + dist1 (f (Y m)) (vadd (f z) w) + abs_sum w).
      { assert (V : abs_sum (f z) <= abs_sum (vadd (f z) w) + abs_sum w) by (apply abs_drop; congruence).
        assert (V2 : abs_sum (vadd (f z) w) <= dist1 (vadd (f z) w) (f (Y m)) + abs_sum (f (Y m))) by (apply abs_of_dist; rewrite vadd_length; congruence).
        rewrite dist_sym in V2. lra. }
      pose proof (abs_pos (vsub (Y m) z)) as Dp. fold (dist1 (Y m) z) in Dp.
      assert (d1 : d <= 1) by apply Rmin_l. assert (d2 : (C + K + 1) * d <= e / 2).
      { assert (d <= e / (2 * (C + K + 1))) by apply Rmin_r. apply Rle_trans with ((C + K + 1) * (e / (2 * (C + K + 1)))); [apply Rmult_le_compat_l; lra|]. right. field. lra. }
      assert (dist1 (Y m) z ^ 2 <= d) by (cbn [pow]; nra). nra. }
    rewrite <- Lf. apply abs_zero. pose proof (abs_pos (f z)). lra.
  Qed.
End Points.
