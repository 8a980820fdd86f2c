(** C62 and C64. *)
From Coq Require Import Reals Lra.
From Verif Require Import Py PyStr NdArray M_Euler M_Newton M_Rebalance S_Euler S_Rebalance L_Utilities L_Wrappers L_Euler L_Euler3 L_Newton L_Rebalance L_Rebalance2.
Local Open Scope string_scope.
Local Open Scope list_scope.

Lemma ok_inj {A} (a b : A) : Ok a = Ok b -> a = b.
Proof. congruence. Qed.

Lemma nth_map_lt {A B} (f : A -> B) l i d d' : i < length l -> nth i (map f l) d = f (nth i l d').
Proof. intros H. rewrite nth_indep with (d' := f d') by (now rewrite map_length). apply map_nth. Qed.

Lemma position_nth idx : NoDup idx -> forall i d, i < length idx -> position (nth i idx d) idx = i.
Proof.
  induction 1 as [|x l Hx N IH]; intros i d Hi; [simpl in Hi; lia|]. destruct i as [|i]; simpl.
  - now rewrite String.eqb_refl.
  - simpl in Hi. destruct (String.eqb_spec (nth i l d) x) as [E|_].
    + exfalso. apply Hx. rewrite <- E. apply nth_In. lia.
    + f_equal. apply IH. lia.
Qed.
Lemma in_position idx a : In a idx -> position a idx < length idx /\ nth (position a idx) idx "" = a.
Proof.
  induction idx as [|x l IH]; intros H; [destruct H|]. simpl. destruct (String.eqb_spec a x) as [->|Hne].
  - split; [lia|reflexivity].
  - destruct H as [->|H]; [congruence|]. destruct (IH H). split; [lia|assumption].
Qed.
Lemma map_position {A} idx (v : list A) d : NoDup idx -> length v = length idx -> map (fun c => nth (position c idx) v d) idx = v.
Proof.
  intros N L. apply nth_ext with (d := d) (d' := d); [now rewrite map_length|]. intros i Hi. rewrite map_length in Hi.
  rewrite nth_indep with (d' := nth (position "" idx) v d) by (now rewrite map_length).
  rewrite (map_nth (fun c => nth (position c idx) v d)). now rewrite position_nth.
Qed.

Lemma frame_row idx z a : NoDup idx -> is_table (length idx) (length idx) z -> In a idx ->
  sumR (map (scell (frame z idx idx) a) idx) = nth (position a idx) (row_sums z) 0%R.
Proof.
  intros N T Ha. unfold frame. cbn [scell]. destruct (@in_position _ _ Ha) as (Hp & _).
  assert (L : length (nth (position a idx) z []) = length idx) by (apply T, nth_In; rewrite (proj1 T); auto).
  rewrite (@map_position R idx (nth (position a idx) z []) 0%R N L). unfold row_sums. change 0%R with (sumR []) at 1. now rewrite map_nth.
Qed.
Lemma frame_col idx z a : NoDup idx -> is_table (length idx) (length idx) z -> In a idx ->
  sumR (map (fun r => scell (frame z idx idx) r a) idx) = nth (position a idx) (col_sums z (length idx)) 0%R.
Proof.
  intros N T Ha. unfold frame. cbn [scell]. destruct (@in_position _ _ Ha) as (Hp & _). unfold col_sums.
  rewrite nth_indep with (d' := sumR (map (fun row => nth 0 row 0%R) z)) by (rewrite map_length, seq_length; auto).
  rewrite (map_nth (fun j => sumR (map (fun row => nth j row 0%R) z))), seq_nth by auto. simpl (0 + _). f_equal.
  transitivity (map (fun row => nth (position a idx) row 0%R) (map (fun c => nth (position c idx) z []) idx)); [now rewrite map_map|now rewrite (@map_position (list R) idx z [] N (proj1 T))].
Qed.

(** Undoing the moves keeps an account's balance. *)
Lemma inverse_balance L idx g k a : NoDup L -> one_way L ->
  (forall i j, In i idx -> In j idx -> In (i, j) L -> g i j = 0%R) -> In a idx ->
  sumR (map (g a) idx) = sumR (map (fun b => g b a) idx) ->
  sumR (map (fun b => fold_left move_back L g a b * k)%R idx) = sumR (map (fun b => fold_left move_back L g b a * k)%R idx).
Proof.
  intros N O Hz Ha Hb. rewrite !sumR_map_mul. f_equal.
  apply Rminus_diag_uniq. rewrite <- sumR_map_sub. apply Rminus_diag_eq in Hb. rewrite <- sumR_map_sub in Hb. rewrite <- Hb.
  f_equal. apply map_ext_in. intros b Hbi. rewrite !(moves_back N O).
  destruct (inb (a, b) L) eqn:E1.
  - apply inb_spec in E1. pose proof (Hz a b Ha Hbi E1) as Z. destruct (String.eqb_spec a b) as [->|Hne].
    + rewrite String.eqb_refl. apply inb_spec in E1. rewrite E1. rewrite Z. lra.
    + destruct (inb (b, a) L) eqn:E2; [apply inb_spec in E2; exfalso; now apply (O a b)|]. rewrite Z. lra.
  - destruct (inb (b, a) L) eqn:E2; [|lra]. apply inb_spec in E2. pose proof (Hz b a Hbi Ha E2) as Z.
    destruct (String.eqb_spec b a) as [->|Hne]; [apply inb_false in E1; contradiction|]. rewrite Z. lra.
Qed.

Lemma map_mul_inj k a : forall b, k <> 0%R -> map (fun v => v * k)%R a = map (fun v => v * k)%R b -> a = b.
Proof.
  induction a as [|x a IH]; intros [|y b] Hk H; try discriminate; [reflexivity|]. simpl in H. injection H as H1 H2. f_equal; auto.
  now apply Rmult_eq_reg_r with k.
Qed.
Lemma vsub_zero a : forall b, length a = length b -> norm1 (vsub a b) = 0%R -> a = b.
Proof.
  intros b L H. apply norm1_zero_inv in H. rewrite vsub_length in H by auto. revert b L H.
  induction a as [|x a IH]; intros [|y b] L H; try discriminate; [reflexivity|]. unfold vsub, vmap2, zeros in *. simpl in *.
  injection H as H1 H2. f_equal; [lra|]. apply IH; auto.
Qed.

Lemma balanced_out s z : square s -> no_two_way s -> grand_total s <> 0%R ->
  is_table (length (sindex s)) (length (sindex s)) z ->
  (forall i j, i < length (sindex s) -> j < length (sindex s) ->
     cell (values (mkSam (sindex s) (scolumns s) (fold_left move_to (t_negative (fit s)) (fun r c => scell s r c / t_scale (fit s))%R))) i j = 0%R ->
     cell z i j = 0%R) ->
  col_sums z (length (sindex s)) = row_sums z ->
  forall out, inverse_transform (Some (fit s)) (frame z (sindex s) (scolumns s)) = Ok out ->
  sindex out = sindex s /\ scolumns out = scolumns s /\ balanced out /\
  (forall r c, In r (sindex s) -> In c (sindex s) -> scell s r c = 0%R -> scell out r c = 0%R).
Proof.
  intros Sq T Ht Tz Hz Hb out H.
  assert (Eo : out = mkSam (sindex s) (scolumns s)
    (fun r c => fold_left move_back (t_negative (fit s)) (scell (frame z (sindex s) (scolumns s))) r c * t_scale (fit s))%R) by (symmetry; apply (f_equal (fun x => match x with Ok v => v | Err _ => out end)) in H; exact H).
  subst out. clear H. cbn [sindex scolumns]. rewrite (proj2 Sq) in *.
  pose proof (negative_NoDup Sq) as N. pose proof (negative_one_way Sq T) as O. destruct Sq as (Ni & Ec).
  split; [reflexivity|]. split; [reflexivity|].
  assert (Zc : forall r c, In r (sindex s) -> In c (sindex s) ->
     fold_left move_to (t_negative (fit s)) (fun r c => scell s r c / t_scale (fit s))%R r c = 0%R ->
     scell (frame z (sindex s) (sindex s)) r c = 0%R).
  { intros r c Hr Hc H0. destruct (@in_position _ _ Hr) as (Pr & Er). destruct (@in_position _ _ Hc) as (Pc & Ecc).
    unfold frame. cbn [scell]. apply (Hz _ _ Pr Pc). unfold cell, values. cbn [sindex scolumns scell].
    set (F := fold_left move_to (t_negative (fit s)) (fun r c => scell s r c / t_scale (fit s))%R) in *.
    rewrite nth_indep with (d' := map (F "") (sindex s)) by (rewrite map_length; auto).
    rewrite (map_nth (fun r => map (F r) (sindex s))), Er.
    rewrite nth_indep with (d' := F r "") by (rewrite map_length; auto). now rewrite map_nth, Ecc. }
  split.
  - intros a Ha. unfold row_total, col_total. cbn [sindex scolumns] in *. cbn [scell]. change (fold_right Rplus 0%R) with sumR.
    apply (@inverse_balance _ _ (scell (frame z (sindex s) (sindex s))) (t_scale (fit s)) a N O); [|exact Ha|].
    + intros i j Hi Hj Hin. apply Zc; auto. rewrite (moves_to N O). apply inb_spec in Hin. now rewrite Hin.
    + rewrite (@frame_row _ _ _ Ni Tz Ha). change (sumR (map (fun b => scell (frame z (sindex s) (sindex s)) b a) (sindex s))) with
        (sumR (map (fun r => scell (frame z (sindex s) (sindex s)) r a) (sindex s))).
      rewrite (@frame_col _ _ _ Ni Tz Ha), Hb. reflexivity.
  - intros r c Hr Hc H0. cbn [scell]. rewrite (moves_back N O).
    destruct (inb (r, c) (t_negative (fit s))) eqn:E1.
    { apply inb_spec, negative_iff in E1 as (_ & _ & Hl). lra. }
    destruct (inb (c, r) (t_negative (fit s))) eqn:E2; [ring|].
    assert (E : scell (frame z (sindex s) (sindex s)) r c = 0%R).
    { apply Zc; auto. rewrite (moves_to N O), E1, E2, H0. unfold Rdiv. ring. }
    rewrite E. ring.
Qed.

(** ** C62 *)
Lemma c62_balanced__p :
  forall (how : string) (use_cvxpy : bool) (cvx scipy : sam -> res (list R * bool)) (s out : sam) (ok : bool),
  square s -> grand_total s <> 0%R ->
  (* no two opposite cells are both negative *)
  (forall r c, In r (sindex s) -> In c (sindex s) -> r <> c -> (scell s r c < 0)%R -> (0 <= scell s c r)%R) ->
  (* the optimizer's point satisfies the constraints it was given *)
  (forall n p, snd (fit_transform s) = Ok n ->
     (cvx n = Ok p -> cvx_constraints n (t_scale (fit s)) (fst p)) /\ (scipy n = Ok p -> scipy_constraints n (fst p))) ->
  balance_SAM how use_cvxpy cvx scipy s = Ok (out, ok) ->
  sindex out = sindex s /\ scolumns out = scolumns s /\ balanced out /\
  (forall r c, In r (sindex s) -> In c (sindex s) -> scell s r c = 0%R -> scell out r c = 0%R).
Proof.
  intros how use_cvxpy cvx scipy s out ok Sq Ht T Hc H. unfold balance_SAM in H.
  destruct (negb (String.eqb how "cross-entropy")); [discriminate|]. unfold fit_transform in H.
  cbn [transform bind] in H. cbn [sindex scolumns] in H.
  set (n := mkSam (sindex s) (scolumns s) (fold_left move_to (t_negative (fit s)) (fun r c => scell s r c / t_scale (fit s))%R)) in *.
  specialize (Hc n). apply bind_ok in H as ((z & ok') & H1 & H). apply bind_ok in H as (out' & H2 & H). injection H as -> ->.
  cbn [fst] in H2.
  pose proof (values_table n) as Tn. assert (En : length (scolumns n) = length (sindex s)) by (cbn [n scolumns]; now rewrite (proj2 Sq)).
  assert (Ei : length (sindex n) = length (sindex s)) by reflexivity.
  rewrite En, Ei in Tn.
  apply (@balanced_out s z Sq T Ht); auto.
  - destruct use_cvxpy.
    + apply bind_ok in H1 as (p & Hp & H1). injection H1 as <- _. destruct (Hc p eq_refl) as (C & _). destruct (C Hp) as (Cl & _).
      unfold cvx_matrix. rewrite Ei in *. destruct (@c63_sparse__p _ _ _ Tn) as (_ & _ & _ & Sc). specialize (Sc (fst p) Cl).
      destruct (sparse_to_vector_and_matrix (values n) (length (sindex s))) as (x & a). apply Sc.
    + apply bind_ok in H1 as (p & Hp & H1). apply bind_ok in H1 as (z' & Hz & H1). injection H1 as <- _.
      assert (L : length (fst p) = length (get_flat_nonzero_values n)).
      { unfold f_X in Hz. apply bind_ok in Hz as (v & Hv & _). now apply set_masked_length in Hv. }
      destruct (@c63_mask__p n (fst p) L) as (z'' & E & Tz & _). rewrite En in Tz. congruence.
  - fold n. intros i j Hi Hj Hz. destruct use_cvxpy.
    + apply bind_ok in H1 as (p & Hp & H1). injection H1 as <- _. destruct (Hc p eq_refl) as (C & _). destruct (C Hp) as (Cl & _).
      unfold cvx_matrix. rewrite Ei in *. destruct (@c63_sparse__p _ _ _ Tn) as (_ & _ & _ & Sc). specialize (Sc (fst p) Cl).
      destruct (sparse_to_vector_and_matrix (values n) (length (sindex s))) as (x & a). now apply Sc.
    + apply bind_ok in H1 as (p & Hp & H1). apply bind_ok in H1 as (z' & Hz' & H1). injection H1 as <- _.
      assert (L : length (fst p) = length (get_flat_nonzero_values n)).
      { unfold f_X in Hz'. apply bind_ok in Hz' as (v & Hv & _). now apply set_masked_length in Hv. }
      destruct (@c63_mask__p n (fst p) L) as (z'' & E & _ & _ & _ & Z0 & _). assert (z'' = z') by congruence. subst z''.
      apply Z0; [exact Hi|rewrite En; exact Hj|]. rewrite Hz. lra.
  - destruct use_cvxpy.
    + apply bind_ok in H1 as (p & Hp & H1). injection H1 as <- _. destruct (Hc p eq_refl) as (C & _).
      destruct (C Hp) as (_ & _ & _ & Cb). apply map_mul_inj in Cb; [exact Cb|]. rewrite fit_scale. exact Ht.
    + apply bind_ok in H1 as (p & Hp & H1). apply bind_ok in H1 as (z' & Hz' & H1). injection H1 as <- _.
      destruct (Hc p eq_refl) as (_ & C). destruct (C Hp) as (z'' & E & Cb & _). assert (z'' = z') by congruence. subst z''.
      assert (L : length (fst p) = length (get_flat_nonzero_values n)).
      { unfold f_X in Hz'. apply bind_ok in Hz' as (v & Hv & _). now apply set_masked_length in Hv. }
      destruct (@c63_mask__p n (fst p) L) as (z'' & E' & Tz & _). assert (z'' = z') by congruence. subst z''.
      rewrite En in *. apply vsub_zero in Cb; [exact Cb|]. unfold col_sums, row_sums. rewrite !map_length, seq_length.
      symmetry. apply Tz.
Qed.

(** Two opposite negative cells: the result is not balanced. *)
Definition cycle_sam : sam :=
  mkSam ["A"; "B"; "C"] ["A"; "B"; "C"]
        (fun r c => match r, c with "A", "B" => -1 | "B", "A" => -1 | "A", "C" => 4 | "C", "B" => 4 | _, _ => 0 end)%R.

Lemma cycle_negative : t_negative (fit cycle_sam) = [("B", "A"); ("A", "B")].
Proof. unfold fit. cbn. unfold rlt. repeat (destruct (Rlt_dec _ _); try lra). reflexivity. Qed.
Lemma cycle_scale : t_scale (fit cycle_sam) = 6%R.
Proof. unfold fit. cbn. lra. Qed.

Lemma cycle_values : values (mkSam (sindex cycle_sam) (scolumns cycle_sam)
     (fold_left move_to (t_negative (fit cycle_sam)) (fun r c => scell cycle_sam r c / t_scale (fit cycle_sam))%R)) =
  [[0 / 6; 0; 4 / 6]; [- - (-1 / 6); 0 / 6; 0 / 6]; [0 / 6; 4 / 6; 0 / 6]]%R.
Proof. rewrite cycle_negative, cycle_scale. reflexivity. Qed.

Lemma c62_two_way_refuted__p :
  exists (s : sam) (x : list R) (out : sam),
  square s /\ grand_total s = 6%R /\
  (forall n, snd (fit_transform s) = Ok n -> cvx_constraints n (t_scale (fit s)) x) /\
  balance_SAM "cross-entropy" true (fun _ => Ok (x, true)) (fun _ => Err ValueError) s = Ok (out, true) /\
  row_total out "A" = 2%R /\ col_total out "A" = 0%R.
Proof.
  exists cycle_sam, [1 / 3; 1 / 3; 1 / 3]%R. eexists.
  split; [split; [repeat constructor; simpl; intuition discriminate|reflexivity]|].
  split; [unfold grand_total, row_total; cbn; lra|].
  assert (Nz : nonzero (values (mkSam (sindex cycle_sam) (scolumns cycle_sam)
     (fold_left move_to (t_negative (fit cycle_sam)) (fun r c => scell cycle_sam r c / t_scale (fit cycle_sam))%R))) = [(0, 2); (1, 0); (2, 1)]).
  { rewrite cycle_values. unfold nonzero. cbn. unfold rnz. repeat (destruct (Req_EM_T _ _); try lra). reflexivity. }
  assert (M : cvx_matrix (mkSam (sindex cycle_sam) (scolumns cycle_sam)
     (fold_left move_to (t_negative (fit cycle_sam)) (fun r c => scell cycle_sam r c / t_scale (fit cycle_sam))%R)) [1 / 3; 1 / 3; 1 / 3]%R =
     [[0; 0; 1 / 3]; [1 / 3; 0; 0]; [0; 1 / 3; 0]]%R).
  { unfold cvx_matrix, sparse_to_vector_and_matrix. rewrite Nz. cbn. unfold dot, vmap2, slice. cbn.
    repeat (f_equal; try lra). }
  split; [|split; [|split]].
  - intros n Hn. apply ok_inj in Hn. subst n. unfold cvx_constraints. rewrite M. unfold sparse_to_vector_and_matrix. rewrite Nz.
    cbn [fst map length sindex cycle_sam]. split; [reflexivity|]. split; [unfold sumR; cbn; lra|]. split.
    + repeat constructor; lra.
    + unfold col_sums, row_sums, sumR. cbn. repeat (f_equal; try lra).
  - unfold balance_SAM, fit_transform. cbn [String.eqb Ascii.eqb Bool.eqb negb transform bind fst snd]. cbn [fst snd bind].
    rewrite M. reflexivity.
  - unfold row_total. cbn [scolumns scell frame sindex]. rewrite cycle_negative, cycle_scale. cbn. lra.
  - unfold col_total. cbn [scolumns scell frame sindex]. rewrite cycle_negative, cycle_scale. cbn. lra.
Qed.

(** ** C64 *)
Lemma sumR_filter_rnz l : sumR (filter rnz l) = sumR l.
Proof.
  induction l as [|a l IH]; [reflexivity|]. cbn [filter]. destruct (rnz a) eqn:E.
  - unfold sumR in *. simpl. now rewrite IH.
  - apply rnz_false in E. subst a. rewrite IH. unfold sumR. simpl. lra.
Qed.
Lemma sumR_filter_pos l : Forall (fun v => 0 <= v)%R l -> sumR (filter (fun v => rlt 0 v) l) = sumR l.
Proof.
  induction 1 as [|a l Ha F IH]; [reflexivity|]. cbn [filter]. destruct (rlt 0 a) eqn:E.
  - unfold sumR in *. simpl. now rewrite IH.
  - apply rlt_false in E. assert (a = 0%R) by lra. subst a. rewrite IH. unfold sumR. simpl. lra.
Qed.
Lemma sumR_concat z : sumR (List.concat z) = sumR (map sumR z).
Proof. induction z as [|r z IH]; [reflexivity|]. simpl. rewrite sumR_app, IH. reflexivity. Qed.
Lemma sum_values s : sumR (List.concat (values s)) = grand_total s.
Proof. rewrite sumR_concat. unfold values. rewrite map_map. reflexivity. Qed.
Lemma sparse_sum r c z : is_table r c z -> sumR (fst (sparse_to_vector_and_matrix z c)) = sumR (List.concat z).
Proof.
  intros T. unfold sparse_to_vector_and_matrix. cbn [fst]. rewrite (nonzero_values T). unfold gathered.
  rewrite <- (table_concat_length T), <- filter_gather. apply sumR_filter_rnz.
Qed.

Lemma sumR_nonneg l : Forall (fun v => 0 <= v)%R l -> (0 <= sumR l)%R /\ forall v, In v l -> (v <= sumR l)%R.
Proof.
  induction 1 as [|a l Ha F (IH1 & IH2)]; (split; [unfold sumR in *; simpl in *; try lra|]).
  - intros v [].
  - intros v [<-|Hv]; unfold sumR in *; simpl; [lra|]. specialize (IH2 v Hv). lra.
Qed.

Lemma values_in s v : In v (List.concat (values s)) -> exists r c, In r (sindex s) /\ In c (scolumns s) /\ v = scell s r c.
Proof.
  intros H. apply in_concat in H as (row & Hr & Hv). unfold values in Hr. apply in_map_iff in Hr as (r & <- & Hr).
  apply in_map_iff in Hv as (c & <- & Hc). eauto 6.
Qed.

Lemma no_negative s : square s -> (forall r c, In r (sindex s) -> In c (sindex s) -> 0 <= scell s r c)%R -> t_negative (fit s) = [].
Proof.
  intros Sq Hn. destruct (t_negative (fit s)) as [|(r & c) l] eqn:E; [reflexivity|].
  assert (H : In (r, c) (t_negative (fit s))) by (rewrite E; now left). apply negative_iff in H as (Hr & Hc & H).
  rewrite (proj2 Sq) in Hc. specialize (Hn r c Hr Hc). lra.
Qed.

Lemma col_sums_values s : col_sums (values s) (length (scolumns s)) = map (fun c => sumR (map (fun r => scell s r c) (sindex s))) (scolumns s).
Proof.
  unfold col_sums, values. apply nth_ext with (d := 0%R) (d' := 0%R); [now rewrite !map_length, seq_length|].
  intros j Hj. rewrite map_length, seq_length in Hj.
  rewrite (@nth_map_lt _ _ _ (seq 0 (length (scolumns s))) j 0%R 0) by (rewrite seq_length; auto).
  rewrite seq_nth by auto. simpl (0 + j). rewrite map_map.
  rewrite (@nth_map_lt _ _ _ (scolumns s) j 0%R "") by auto. f_equal. apply map_ext. intros r.
  now rewrite (@nth_map_lt _ _ _ (scolumns s) j 0%R "").
Qed.

Lemma frame_values s : NoDup (sindex s) -> NoDup (scolumns s) -> forall r c, In r (sindex s) -> In c (scolumns s) ->
  scell (frame (values s) (sindex s) (scolumns s)) r c = scell s r c.
Proof.
  intros N1 N2 r c Hr Hc. unfold frame, values. cbn [scell]. destruct (@in_position _ _ Hr) as (Pr & Er). destruct (@in_position _ _ Hc) as (Pc & Ec).
  rewrite (@nth_map_lt _ _ _ (sindex s) _ [] ""), Er by auto.
  now rewrite (@nth_map_lt _ _ _ (scolumns s) _ 0%R ""), Ec.
Qed.

Lemma c64_feasible__p :
  forall (s : sam), square s -> grand_total s <> 0%R -> balanced s ->
  (forall r c, In r (sindex s) -> In c (sindex s) -> (0 <= scell s r c)%R) ->
  exists n, snd (fit_transform s) = Ok n /\
    let x := fst (sparse_to_vector_and_matrix (values n) (length (sindex n))) in
    let y := get_flat_nonzero_values n in
    cvx_constraints n (t_scale (fit s)) x /\ scipy_constraints n y /\
    (exists out, balance_SAM "cross-entropy" true (fun _ => Ok (x, true)) (fun _ => Err ValueError) s = Ok (out, true) /\ same_sam s out) /\
    (exists out, balance_SAM "cross-entropy" false (fun _ => Err ValueError) (fun _ => Ok (y, true)) s = Ok (out, true) /\ same_sam s out).
Proof.
  intros s Sq Ht Hb Hn.
  assert (Hl : t_negative (fit s) = []) by (now apply no_negative).
  set (n := mkSam (sindex s) (scolumns s) (fun r c => scell s r c / t_scale (fit s))%R).
  exists n. split; [unfold fit_transform; cbn [snd transform]; rewrite Hl; reflexivity|].
  intros x y.
  assert (Hs : t_scale (fit s) = grand_total s) by apply fit_scale.
  assert (F0 : Forall (fun v => 0 <= v)%R (List.concat (values s))).
  { apply Forall_forall. intros v Hv. apply values_in in Hv as (r & c & Hr & Hc & ->). apply Hn; auto. now rewrite <- (proj2 Sq). }
  assert (Hpos : (0 < grand_total s)%R).
  { rewrite <- sum_values in *. destruct (sumR_nonneg F0) as (A & _). lra. }
  assert (Hinv : (0 < / grand_total s)%R) by (now apply Rinv_0_lt_compat).
  assert (Sn : grand_total n = 1%R).
  { unfold grand_total, row_total. cbn [sindex scolumns scell n]. change (fold_right Rplus 0%R) with sumR.
    rewrite Hs. unfold Rdiv. transitivity (sumR (map (fun r => sumR (map (scell s r) (scolumns s)) * / grand_total s)%R (sindex s))).
    - f_equal. apply map_ext. intros r. now rewrite sumR_map_mul.
    - rewrite sumR_map_mul. change (sumR (map (fun r => sumR (map (scell s r) (scolumns s))) (sindex s))) with (grand_total s). field. exact Ht. }
  assert (Fn : Forall (fun v => 0 <= v)%R (List.concat (values n))).
  { apply Forall_forall. intros v Hv. apply values_in in Hv as (r & c & Hr & Hc & ->). cbn [n scell]. cbn [n sindex scolumns] in Hr, Hc.
    rewrite Hs. unfold Rdiv. apply Rmult_le_pos; [|lra]. apply Hn; auto. now rewrite <- (proj2 Sq). }
  assert (Bn : col_sums (values n) (length (sindex s)) = row_sums (values n)).
  { pose proof (col_sums_values n) as C. cbn [n scolumns] in C. rewrite (proj2 Sq) in C. rewrite C.
    unfold row_sums, values. rewrite map_map. cbn [n sindex scolumns scell]. rewrite (proj2 Sq). apply map_ext_in. intros a Ha.
    unfold Rdiv. rewrite !sumR_map_mul. f_equal. specialize (Hb a Ha). unfold row_total, col_total in Hb. rewrite (proj2 Sq) in Hb. symmetry. exact Hb. }
  pose proof (values_table n) as Tn. assert (Ec : length (scolumns n) = length (sindex s)) by (cbn [n scolumns]; now rewrite (proj2 Sq)).
  assert (Ei : length (sindex n) = length (sindex s)) by reflexivity. rewrite Ec, Ei in Tn.
  assert (Mx : cvx_matrix n x = values n).
  { unfold cvx_matrix, x. rewrite Ei. destruct (@c63_sparse__p _ _ _ Tn) as (E & _).
    destruct (sparse_to_vector_and_matrix (values n) (length (sindex s))) as (x' & a). exact E. }
  assert (My : f_X n y = Ok (values n)).
  { destruct (@c63_mask__p n y eq_refl) as (z & E & _ & _ & _ & _ & G). rewrite (G eq_refl) in E; [exact E|].
    intros i j. unfold cell. destruct (Nat.lt_ge_cases i (length (values n))) as [Hi|Hi].
    - destruct (Nat.lt_ge_cases j (length (nth i (values n) []))) as [Hj|Hj].
      + rewrite Forall_forall in Fn. apply Fn. apply in_concat. exists (nth i (values n) []). split; now apply nth_In.
      + rewrite (nth_overflow _ _ Hj). lra.
    - rewrite (nth_overflow (values n) [] Hi). destruct j; simpl; lra. }
  assert (SS : forall out, inverse_transform (Some (fit s)) (frame (values n) (sindex n) (scolumns n)) = Ok out -> same_sam s out).
  { intros out H. apply ok_inj in H. subst out. split; [reflexivity|]. split; [reflexivity|]. intros r c Hr Hc. rewrite Hl. cbn [scell fold_left].
    rewrite (@frame_values n); [cbn [n scell]; rewrite Hs; field; exact Ht|apply Sq| | |]; cbn [n sindex scolumns]; auto.
    rewrite (proj2 Sq). apply Sq. }
  split; [|split; [|split]].
  - unfold cvx_constraints. rewrite Mx, Ei. split; [reflexivity|]. split.
    { unfold x. rewrite Ei, (sparse_sum Tn), sum_values. exact Sn. }
    split.
    { unfold x. rewrite Ei. unfold sparse_to_vector_and_matrix. cbn [fst]. rewrite (nonzero_values Tn). unfold gathered.
      rewrite <- (table_concat_length Tn), <- filter_gather. rewrite Forall_forall in *. intros v Hv. apply filter_In in Hv as (Hv & _). auto. }
    now rewrite Bn.
  - exists (values n). split; [exact My|]. rewrite Ec, Bn. split; [rewrite vsub_self; apply norm1_zeros|].
    assert (Sy : sumR y = 1%R) by (unfold y, get_flat_nonzero_values; rewrite (sumR_filter_pos Fn), sum_values; exact Sn).
    split; [lra|].
    assert (Fy : Forall (fun v => 0 <= v)%R y).
    { unfold y, get_flat_nonzero_values. rewrite Forall_forall in *. intros v Hv. apply filter_In in Hv as (Hv & _). auto. }
    destruct (sumR_nonneg Fy) as (_ & Up). rewrite Forall_forall in *. intros v Hv. split; [auto|]. specialize (Up v Hv). lra.
  - unfold balance_SAM, fit_transform. cbn [String.eqb Ascii.eqb Bool.eqb negb transform bind fst snd]. rewrite Hl. cbn [fold_left]. fold n.
    rewrite Mx. cbn [bind fst snd]. eexists. split; [reflexivity|]. apply SS. cbn [inverse_transform]. rewrite Hl. reflexivity.
  - unfold balance_SAM, fit_transform. cbn [String.eqb Ascii.eqb Bool.eqb negb transform bind fst snd]. rewrite Hl. cbn [fold_left]. fold n.
    rewrite My. cbn [bind fst snd]. eexists. split; [reflexivity|]. apply SS. cbn [inverse_transform]. rewrite Hl. reflexivity.
Qed.

(** A balanced SAM with a negative cell does not satisfy the constraints. *)
Definition negative_sam : sam :=
  mkSam ["A"; "B"; "C"] ["A"; "B"; "C"]
        (fun r c => match r, c with "A", "B" => 3 | "B", "A" => 2 | "A", "C" => -1 | "B", "C" => 1 | _, _ => 0 end)%R.
Lemma c64_negative_refuted__p :
  exists s n, square s /\ grand_total s = 5%R /\ balanced s /\ snd (fit_transform s) = Ok n /\
    sumR (fst (sparse_to_vector_and_matrix (values n) (length (sindex n)))) = (7 / 5)%R /\
    ~ cvx_constraints n (t_scale (fit s)) (fst (sparse_to_vector_and_matrix (values n) (length (sindex n)))).
Proof.
  exists negative_sam. eexists.
  split; [split; [repeat constructor; simpl; intuition discriminate|reflexivity]|].
  split; [unfold grand_total, row_total; cbn; lra|].
  split; [intros a [<-|[<-|[<-|[]]]]; unfold row_total, col_total; cbn; lra|].
  split; [reflexivity|].
  assert (E : sumR (fst (sparse_to_vector_and_matrix (values (mkSam (sindex negative_sam) (scolumns negative_sam)
     (fold_left move_to (t_negative (fit negative_sam)) (fun r c => scell negative_sam r c / t_scale (fit negative_sam))%R))) 3)) = (7 / 5)%R).
  { erewrite sparse_sum; [|apply values_table].
    assert (En : t_negative (fit negative_sam) = [("A", "C")]).
    { unfold fit. cbn. unfold rlt. repeat (destruct (Rlt_dec _ _); try lra). reflexivity. }
    assert (Es : t_scale (fit negative_sam) = 5%R) by (unfold fit; cbn; lra).
    rewrite En, Es. cbn. lra. }
  split; [exact E|]. intros (_ & C & _). cbn [sindex negative_sam length] in C. unfold negative_sam in C, E. cbn [sindex] in C, E.
  rewrite E in C. lra.
Qed.
