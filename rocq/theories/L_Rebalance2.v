(** Gathering and scattering (C63), balance (C62, C64). *)
From Coq Require Import Reals Lra.
From Verif Require Import Py PyStr NdArray M_Euler M_Newton M_Rebalance S_Euler S_Rebalance L_Utilities L_Wrappers L_Euler L_Euler3 L_Newton L_Rebalance.
Local Open Scope string_scope.
Local Open Scope list_scope.

Lemma table_concat_length r c z : is_table r c z -> length (List.concat z) = r * c.
Proof.
  intros (<- & H). induction z as [|row z IH]; [reflexivity|]. simpl. rewrite app_length, (H row) by now left.
  rewrite IH; [lia|]. intros; apply H; now right.
Qed.
Lemma table_nth r c z i j : is_table r c z -> i < r -> j < c -> nth (i * c + j) (List.concat z) 0%R = cell z i j.
Proof.
  intros (<- & H). unfold cell. revert i. induction z as [|row z IH]; intros i Hi Hj; [simpl in Hi; lia|].
  assert (L : length row = c) by (apply H; now left). simpl. destruct i as [|i].
  - rewrite app_nth1 by (simpl; lia). reflexivity.
  - rewrite app_nth2 by (simpl; lia). rewrite L. replace (S i * c + j - c) with (i * c + j) by (simpl; lia).
    apply IH; [intros; apply H; now right|simpl in Hi; lia|exact Hj].
Qed.

Lemma reshape2_table v r c : length v = r * c -> is_table r c (reshape2 v r c).
Proof.
  intros L. unfold reshape2. split; [now rewrite map_length, seq_length|].
  intros row H. apply in_map_iff in H as (i & <- & Hi). apply in_seq in Hi.
  unfold slice. rewrite firstn_length, skipn_length, L. apply Nat.min_l.
  assert (i * c + c <= r * c) by (replace (i * c + c) with (S i * c) by (simpl; lia); apply Nat.mul_le_mono_r; lia). lia.
Qed.
Lemma reshape2_cell v r c i j : length v = r * c -> i < r -> j < c -> cell (reshape2 v r c) i j = nth (i * c + j) v 0%R.
Proof.
  intros L Hi Hj. unfold cell, reshape2.
  rewrite nth_indep with (d' := slice v (0 * c) c) by (rewrite map_length, seq_length; auto).
  rewrite (map_nth (fun i => slice v (i * c) c)), seq_nth by auto. simpl (0 + i).
  unfold slice. rewrite <- (firstn_skipn (i * c) v) at 2. rewrite app_nth2; rewrite firstn_length.
  2:{ lia. }
  assert (i * c + c <= r * c) by (replace (i * c + c) with (S i * c) by (simpl; lia); apply Nat.mul_le_mono_r; lia).
  rewrite Nat.min_l by lia. replace (i * c + j - i * c) with j by lia.
  rewrite <- (firstn_skipn c (skipn (i * c) v)) at 2. rewrite app_nth1; [reflexivity|].
  rewrite firstn_length, skipn_length. lia.
Qed.
Lemma table_ext r c z z' : is_table r c z -> is_table r c z' ->
  (forall i j, i < r -> j < c -> cell z i j = cell z' i j) -> z = z'.
Proof.
  intros (L & H) (L' & H') E. apply nth_ext with (d := []) (d' := []); [congruence|]. intros i Hi.
  assert (A : length (nth i z []) = c) by (apply H, nth_In; auto).
  assert (B : length (nth i z' []) = c) by (apply H', nth_In; congruence).
  apply nth_ext with (d := 0%R) (d' := 0%R); [congruence|]. intros j Hj. apply E; congruence.
Qed.

(** Ranks in a filtered range *)
Lemma filter_seq_split P n p : p < n -> P p = true ->
  filter P (seq 0 n) = filter P (seq 0 p) ++ p :: filter P (seq (S p) (n - S p)).
Proof.
  intros H E. replace n with (p + S (n - S p)) at 1 by lia. rewrite seq_app, filter_app. cbn [seq filter].
  simpl (0 + p). now rewrite E.
Qed.
Lemma filter_seq_rank P n k p : nth_error (filter P (seq 0 n)) k = Some p <->
  p < n /\ P p = true /\ length (filter P (seq 0 p)) = k.
Proof.
  assert (A : forall p, p < n -> P p = true -> nth_error (filter P (seq 0 n)) (length (filter P (seq 0 p))) = Some p).
  { clear p. intros p H E. rewrite (filter_seq_split P H E), nth_error_app2, Nat.sub_diag by lia. reflexivity. }
  split.
  - intros H. assert (Hin : In p (filter P (seq 0 n))) by (eapply nth_error_In; eauto).
    apply filter_In in Hin as (Hin & E). apply in_seq in Hin. assert (Hp : p < n) by lia. split; auto. split; auto.
    pose proof (A p Hp E) as A'. eapply NoDup_nth_error.
    + apply NoDup_filter, (seq_NoDup n 0).
    + apply nth_error_Some. rewrite A'. discriminate.
    + congruence.
  - intros (H & E & <-). now apply A.
Qed.

Section Table.
  Variables (r c : nat) (z : list (list R)).
  Hypothesis Tz : is_table r c z.
  Variable selb : R -> bool.
  Let P p := selb (nth p (List.concat z) 0%R).

  Lemma kth_rank k i j : kth_cell (fun v => selb v = true) z c k i j ->
    nth_error (filter P (seq 0 (r * c))) k = Some (i * c + j).
  Proof.
    intros (Hi & Hj & Hs & before & N & L & Hb). rewrite (proj1 Tz) in *.
    assert (Hlt : i * c + j < r * c).
    { assert (i * c + c <= r * c) by (replace (i * c + c) with (S i * c) by (simpl; lia); apply Nat.mul_le_mono_r; lia). lia. }
    apply filter_seq_rank. split; [exact Hlt|]. split; [unfold P; rewrite (table_nth Tz) by auto; exact Hs|].
    rewrite <- L. clear L.
    assert (HP : Permutation.Permutation (map (fun p => fst p * c + snd p) before) (filter P (seq 0 (i * c + j)))).
    { apply Permutation.NoDup_Permutation.
      - assert (I : forall p q, In p before -> In q before -> fst p * c + snd p = fst q * c + snd q -> p = q).
        { intros (a & b) (a' & b') Hp Hq E. apply Hb in Hp as (_ & Hp & _). apply Hb in Hq as (_ & Hq & _). simpl in *.
          assert (a = a').
          { assert (Ea : (a * c + b) / c = a) by (rewrite Nat.div_add_l by lia; rewrite Nat.div_small by lia; lia).
            assert (Eb : (a' * c + b') / c = a') by (rewrite Nat.div_add_l by lia; rewrite Nat.div_small by lia; lia). congruence. }
          subst a'. f_equal. lia. }
        clear Hb. induction N as [|x l Hx N IH]; [constructor|]. simpl. constructor.
        + intros X. apply in_map_iff in X as (y & E & Hy). apply Hx. rewrite (I x y); auto; [now left|now right].
        + apply IH. intros p q Hp Hq. apply I; now right.
      - apply NoDup_filter, seq_NoDup.
      - intros x. rewrite in_map_iff, filter_In, in_seq. split.
        + intros ((a & b) & <- & Hp). apply Hb in Hp as (H1 & H2 & H3 & H4). simpl in *. split; [lia|].
          unfold P. now rewrite (table_nth Tz).
        + intros (Hx & Hs'). assert (Hc : c <> 0) by lia.
          assert (Hd : x / c < r) by (apply Nat.div_lt_upper_bound; [lia|]; rewrite Nat.mul_comm; lia).
          assert (Hm : x mod c < c) by (apply Nat.mod_upper_bound; lia).
          assert (Ex : x = x / c * c + x mod c) by (rewrite Nat.mul_comm; apply Nat.div_mod; lia).
          exists (x / c, x mod c). simpl. split; [lia|]. apply Hb. simpl. repeat split; auto; [lia|].
          unfold P in Hs'. rewrite Ex in Hs' at 1. now rewrite (table_nth Tz) in Hs'. }
    apply Permutation.Permutation_length in HP. rewrite map_length in HP. auto.
  Qed.

  Lemma rank_kth k p : nth_error (filter P (seq 0 (r * c))) k = Some p ->
    exists i j, p = i * c + j /\ kth_cell (fun v => selb v = true) z c k i j.
  Proof.
    intros H. apply filter_seq_rank in H as (Hp & E & HL). assert (Hc : c <> 0) by (intros ->; lia).
    assert (Hd : forall x, x < r * c -> x / c < r) by (intros x Hx; apply Nat.div_lt_upper_bound; [lia|]; rewrite Nat.mul_comm; lia).
    assert (Hm : forall x, x mod c < c) by (intros x; apply Nat.mod_upper_bound; lia).
    assert (Ex : forall x, x = x / c * c + x mod c) by (intros x; rewrite Nat.mul_comm; apply Nat.div_mod; lia).
    exists (p / c), (p mod c). split; [apply Ex|]. unfold kth_cell. rewrite (proj1 Tz). split; [auto|]. split; [auto|].
    assert (Cell : forall x, x < r * c -> cell z (x / c) (x mod c) = nth x (List.concat z) 0%R).
    { intros x Hx. rewrite (Ex x) at 3. symmetry. apply (table_nth Tz); auto. }
    split; [rewrite Cell by auto; exact E|].
    exists (map (fun x => (x / c, x mod c)) (filter P (seq 0 p))). split.
    { apply FinFun.Injective_map_NoDup; [|apply NoDup_filter, seq_NoDup].
      intros x y Exy. injection Exy as E1 E2. rewrite (Ex x), (Ex y). congruence. }
    split; [now rewrite map_length|]. intros (a & b). rewrite in_map_iff. simpl. split.
    - intros (x & Eab & Hx). injection Eab as <- <-. apply filter_In in Hx as (Hx & Hs). apply in_seq in Hx.
      assert (x < r * c) by lia. repeat split; auto.
      + rewrite <- (Ex x), <- (Ex p). lia.
      + rewrite Cell by auto. exact Hs.
    - intros (Ha & Hb & Hlt & Hs). exists (a * c + b).
      assert (Ea : (a * c + b) / c = a) by (rewrite Nat.div_add_l by lia; rewrite Nat.div_small by lia; lia).
      assert (Eb : (a * c + b) mod c = b) by (rewrite Nat.add_comm, Nat.mod_add by lia; apply Nat.mod_small; auto).
      rewrite Ea, Eb. split; [reflexivity|]. apply filter_In. rewrite in_seq. split; [rewrite (Ex p); lia|].
      unfold P. now rewrite (table_nth Tz).
  Qed.

  (** [out] holds [x] in the selected cells *)
  Definition scattered (x out : list R) : Prop :=
    length out = r * c /\
    (forall k p v, nth_error (filter P (seq 0 (r * c))) k = Some p -> nth_error x k = Some v -> nth p out 0%R = v) /\
    (forall p, p < r * c -> P p = false -> nth p out 0%R = 0%R).
  Definition gathered : list R := map (fun p => nth p (List.concat z) 0%R) (filter P (seq 0 (r * c))).

  Lemma scattered_kth x out : scattered x out ->
    (forall k i j v, kth_cell (fun v => selb v = true) z c k i j -> nth_error x k = Some v -> cell (reshape2 out r c) i j = v) /\
    (forall i j, i < r -> j < c -> selb (cell z i j) = false -> cell (reshape2 out r c) i j = 0%R).
  Proof.
    intros (L & S1 & S2). split.
    - intros k i j v Hk Hv. pose proof (kth_rank Hk) as Hr. destruct Hk as (Hi & Hj & _). rewrite (proj1 Tz) in Hi.
      rewrite reshape2_cell by auto. eapply S1; eauto.
    - intros i j Hi Hj Hs. rewrite reshape2_cell by auto. apply S2.
      + assert (i * c + c <= r * c) by (replace (i * c + c) with (S i * c) by (simpl; lia); apply Nat.mul_le_mono_r; lia). lia.
      + unfold P. now rewrite (table_nth Tz).
  Qed.

  Lemma scattered_gathered out : (forall v, selb v = false -> In v (List.concat z) -> v = 0%R) -> scattered gathered out -> reshape2 out r c = z.
  Proof.
    intros Hz (L & S1 & S2). apply (@table_ext r c); [now apply reshape2_table|exact Tz|]. intros i j Hi Hj.
    rewrite reshape2_cell by auto.
    assert (Hp : i * c + j < r * c).
    { assert (i * c + c <= r * c) by (replace (i * c + c) with (S i * c) by (simpl; lia); apply Nat.mul_le_mono_r; lia). lia. }
    rewrite <- (table_nth Tz Hi Hj). destruct (P (i * c + j)) eqn:E.
    - assert (R : nth_error (filter P (seq 0 (r * c))) (length (filter P (seq 0 (i * c + j)))) = Some (i * c + j)) by (apply filter_seq_rank; auto).
      eapply S1; eauto. unfold gathered. rewrite nth_error_map, R. reflexivity.
    - rewrite S2 by auto. symmetry. apply Hz; [exact E|]. apply nth_In. rewrite (table_concat_length Tz). exact Hp.
  Qed.

  Lemma gathered_length k : k < length gathered <-> exists i j, kth_cell (fun v => selb v = true) z c k i j.
  Proof.
    unfold gathered. rewrite map_length. split.
    - intros H. destruct (nth_error (filter P (seq 0 (r * c))) k) as [p|] eqn:E; [|apply nth_error_None in E; lia].
      destruct (rank_kth _ E) as (i & j & _ & K). eauto.
    - intros (i & j & K). apply kth_rank in K. apply nth_error_Some. congruence.
  Qed.
End Table.

(** ** The selection matrix *)
Lemma rnz_spec v : rnz v = true <-> v <> 0%R.
Proof. unfold rnz. destruct (Req_EM_T v 0); split; congruence || auto. Qed.
Lemma rnz_false v : rnz v = false <-> v = 0%R.
Proof. unfold rnz. destruct (Req_EM_T v 0); split; congruence || auto. Qed.

Lemma filter_map_ {A B} (f : A -> B) P l : filter P (map f l) = map f (filter (fun x => P (f x)) l).
Proof. induction l as [|x l IH]; [reflexivity|]. simpl. rewrite IH. now destruct (P (f x)). Qed.
Lemma filter_flat_map {A B} (f : A -> list B) P l : filter P (flat_map f l) = flat_map (fun x => filter P (f x)) l.
Proof. induction l as [|x l IH]; [reflexivity|]. simpl. now rewrite filter_app, IH. Qed.
Lemma seq_mul r c : seq 0 (r * c) = flat_map (fun i => map (fun j => i * c + j) (seq 0 c)) (seq 0 r).
Proof.
  induction r as [|r IH]; [reflexivity|]. rewrite seq_S, flat_map_app, <- IH.
  replace (S r * c) with (r * c + c) by lia. rewrite seq_app. simpl. rewrite app_nil_r. f_equal.
  clear. induction c as [|c IHc] in r |- *; [reflexivity|]. 
  rewrite <- (Nat.add_0_r (r * S c)) at 1. generalize (r * S c) as n. intros n. clear.
  generalize 0 as s. generalize (S c) as k. induction k as [|k IH]; intros s; [reflexivity|]. simpl. f_equal.
  rewrite <- IH. f_equal. lia.
Qed.

Lemma nonzero_rows r c z : is_table r c z ->
  map (fun p => fst p * c + snd p) (nonzero z) = filter (fun p => rnz (nth p (List.concat z) 0%R)) (seq 0 (r * c)).
Proof.
  intros T. unfold nonzero. rewrite (proj1 T), seq_mul, filter_flat_map.
  assert (G : forall l, (forall i, In i l -> i < r) ->
    map (fun p => fst p * c + snd p)
        (flat_map (fun i => map (fun j => (i, j)) (filter (fun j => rnz (nth j (nth i z []) 0%R)) (seq 0 (length (nth i z []))))) l) =
    flat_map (fun x => filter (fun p => rnz (nth p (List.concat z) 0%R)) (map (fun j => x * c + j) (seq 0 c))) l).
  { induction l as [|i l IH]; intros Hl; [reflexivity|]. cbn [flat_map]. rewrite map_app, IH by (intros; apply Hl; now right).
    f_equal. rewrite filter_map_, map_map. cbn [fst snd].
    assert (Hi : i < r) by (apply Hl; now left).
    assert (Lr : length (nth i z []) = c) by (apply (proj2 T), nth_In; rewrite (proj1 T); auto). rewrite Lr. f_equal.
    apply filter_ext_in. intros j Hj. apply in_seq in Hj. rewrite (table_nth T Hi) by lia. reflexivity. }
  apply G. intros i Hi. apply in_seq in Hi. lia.
Qed.

Lemma nonzero_values r c z : is_table r c z ->
  map (fun p => nth (snd p) (nth (fst p) z []) 0%R) (nonzero z) = gathered r c z rnz.
Proof.
  intros T. unfold gathered. rewrite <- (nonzero_rows T), map_map. apply map_ext_in. intros (i & j) H. cbn [fst snd].
  unfold nonzero in H. apply in_flat_map in H as (i' & Hi & H). apply in_map_iff in H as (j' & E & Hj). injection E as -> ->.
  apply filter_In in Hj as (Hj & _). apply in_seq in Hi, Hj. rewrite (proj1 T) in Hi.
  assert (Lr : length (nth i z []) = c) by (apply (proj2 T), nth_In; rewrite (proj1 T); lia).
  symmetry. apply (table_nth T); lia.
Qed.

Lemma dot_onehot rows : NoDup rows -> forall x p,
  dot (map (fun r => if Nat.eqb r p then 1 else 0)%R rows) x =
  match find (fun k => Nat.eqb (nth k rows 0) p) (seq 0 (length rows)) with Some k => nth k x 0%R | None => 0%R end.
Proof.
  induction 1 as [|r rows Hr N IH]; intros x p; [reflexivity|].
  cbn [map length seq find nth]. destruct x as [|v x].
  { unfold dot, vmap2. simpl. destruct (Nat.eqb r p); [reflexivity|]. destruct (find _ _) as [[|k]|]; reflexivity. }
  change (dot ((if Nat.eqb r p then 1 else 0)%R :: map (fun r => if Nat.eqb r p then 1 else 0)%R rows) (v :: x))
    with ((if Nat.eqb r p then 1 else 0) * v + dot (map (fun r => if Nat.eqb r p then 1 else 0)%R rows) x)%R.
  rewrite IH. rewrite <- seq_shift.
  assert (F : forall l, find (fun k => Nat.eqb (nth k (r :: rows) 0) p) (map S l) =
              option_map S (find (fun k => Nat.eqb (nth k rows 0) p) l)).
  { induction l as [|k l IHl]; [reflexivity|]. simpl. destruct (Nat.eqb (nth k rows 0) p); [reflexivity|exact IHl]. }
  rewrite F. destruct (Nat.eqb r p) eqn:E.
  - apply Nat.eqb_eq in E. subst r.
    destruct (find (fun k => Nat.eqb (nth k rows 0) p) (seq 0 (length rows))) as [k|] eqn:Ek.
    + apply find_some in Ek as (Hk & Ek). apply Nat.eqb_eq in Ek. apply in_seq in Hk. exfalso. apply Hr. rewrite <- Ek. apply nth_In. lia.
    + simpl. lra.
  - destruct (find (fun k => Nat.eqb (nth k rows 0) p) (seq 0 (length rows))) as [k|]; simpl; lra.
Qed.

Lemma sparse_scattered r c z x : is_table r c z -> length x = length (nonzero z) ->
  scattered r c z rnz x (mv (snd (sparse_to_vector_and_matrix z c)) x).
Proof.
  intros T Lx. unfold sparse_to_vector_and_matrix. cbn [snd]. rewrite (nonzero_rows T), (proj1 T).
  set (rows := filter (fun p => rnz (nth p (List.concat z) 0%R)) (seq 0 (r * c))).
  assert (N : NoDup rows) by (apply NoDup_filter, seq_NoDup).
  assert (Lrows : length rows = length x).
  { unfold rows. rewrite <- (nonzero_rows T), map_length. auto. }
  assert (Nth : forall p, p < r * c -> nth p (mv (map (fun i => map (fun r0 => if Nat.eqb r0 i then 1 else 0)%R rows) (seq 0 (r * c))) x) 0%R =
     dot (map (fun r0 => if Nat.eqb r0 p then 1 else 0)%R rows) x).
  { intros p Hp. unfold mv. rewrite map_map.
    rewrite nth_indep with (d' := dot (map (fun r0 => if Nat.eqb r0 0 then 1 else 0)%R rows) x) by (rewrite map_length, seq_length; auto).
    rewrite (map_nth (fun i => dot (map (fun r0 => if Nat.eqb r0 i then 1 else 0)%R rows) x)), seq_nth by auto. reflexivity. }
  split; [unfold mv; now rewrite !map_length, seq_length|]. split.
  - intros k p v Hk Hv. fold rows in Hk.
    assert (Hp : p < r * c). { apply nth_error_In in Hk. apply filter_In in Hk as (Hk & _). apply in_seq in Hk. lia. }
    rewrite Nth by auto. rewrite (dot_onehot N).
    destruct (find (fun k => Nat.eqb (nth k rows 0) p) (seq 0 (length rows))) as [k'|] eqn:Ek.
    + apply find_some in Ek as (Hk' & Ek). apply Nat.eqb_eq in Ek. apply in_seq in Hk'.
      assert (k' = k).
      { eapply NoDup_nth_error; [exact N|lia|]. rewrite Hk, <- Ek. apply nth_error_nth'. lia. }
      subst k'. now apply nth_error_nth.
    + exfalso. assert (Hkl : k < length rows) by (apply nth_error_Some; congruence).
      assert (Hks : In k (seq 0 (length rows))) by (apply in_seq; lia).
      pose proof (find_none _ _ Ek k Hks) as Hf. apply Nat.eqb_neq in Hf. apply Hf.
      now apply nth_error_nth.
  - intros p Hp Hs. rewrite Nth by auto. rewrite (dot_onehot N).
    destruct (find (fun k => Nat.eqb (nth k rows 0) p) (seq 0 (length rows))) as [k'|] eqn:Ek; [|reflexivity].
    apply find_some in Ek as (Hk' & Ek). apply Nat.eqb_eq in Ek. apply in_seq in Hk'.
    assert (In p rows) by (rewrite <- Ek; apply nth_In; lia). apply filter_In in H as (_ & H). congruence.
Qed.

(** ** The mask *)
Lemma set_masked_ok flat : forall x, length x = length (filter (fun v => rlt 0 v) flat) ->
  exists out, set_masked flat x = Ok out /\ length out = length flat /\
    (forall k p v, nth_error (filter (fun p => rlt 0 (nth p flat 0%R)) (seq 0 (length flat))) k = Some p ->
       nth_error x k = Some v -> nth p out 0%R = v) /\
    (forall p, p < length flat -> rlt 0 (nth p flat 0%R) = false -> nth p out 0%R = 0%R).
Proof.
  induction flat as [|a flat IH]; intros x L; cbn [set_masked].
  - destruct x; [|discriminate]. exists []. split; [reflexivity|]. split; [reflexivity|]. split.
    + intros [|k] p v H; discriminate.
    + intros [|p] H; simpl in H; lia.
  - assert (Sh : forall P : nat -> bool, filter P (seq 0 (length (a :: flat))) =
       (if P 0 then [0] else []) ++ map S (filter (fun p => P (S p)) (seq 0 (length flat)))).
    { intros P. cbn [length seq filter]. rewrite <- seq_shift, filter_map_. now destruct (P 0). }
    cbn [filter] in L. destruct (rlt 0 a) eqn:Ea.
    + destruct x as [|y x]; [discriminate|]. simpl in L. destruct (IH x) as (out & E & Lo & H1 & H2); [lia|].
      rewrite E. cbn [bind]. exists (y :: out). split; [reflexivity|]. split; [simpl; lia|]. rewrite Sh. cbn [nth]. rewrite Ea. split.
      * intros [|k] p v Hk Hv; simpl in Hk, Hv.
        -- injection Hk as <-. now injection Hv as ->.
        -- rewrite nth_error_map in Hk. destruct (nth_error _ k) as [q|] eqn:Eq; [|discriminate]. injection Hk as <-. simpl. eapply H1; eauto.
      * intros [|p] Hp Hs; [simpl in Hs; congruence|]. simpl. apply H2; [simpl in Hp; lia|exact Hs].
    + destruct (IH x L) as (out & E & Lo & H1 & H2). rewrite E. cbn [bind]. exists (0%R :: out). split; [reflexivity|].
      split; [simpl; lia|]. rewrite Sh. cbn [nth]. rewrite Ea. split.
      * intros k p v Hk Hv. simpl in Hk. rewrite nth_error_map in Hk. destruct (nth_error _ k) as [q|] eqn:Eq; [|discriminate].
        injection Hk as <-. simpl. eapply H1; eauto.
      * intros [|p] Hp Hs; [reflexivity|]. simpl. apply H2; [simpl in Hp; lia|exact Hs].
Qed.

Lemma set_masked_length flat : forall x out, set_masked flat x = Ok out -> length x = length (filter (fun v => rlt 0 v) flat).
Proof.
  induction flat as [|a flat IH]; intros x out H; cbn [set_masked] in H.
  - destruct x; [reflexivity|discriminate].
  - cbn [filter]. destruct (rlt 0 a).
    + destruct x; [discriminate|]. apply bind_ok in H as (q & H & _). simpl. f_equal. eapply IH; eauto.
    + apply bind_ok in H as (q & H & _). eapply IH; eauto.
Qed.

Lemma filter_gather (selb : R -> bool) (flat : list R) :
  filter selb flat = map (fun p => nth p flat 0%R) (filter (fun p => selb (nth p flat 0%R)) (seq 0 (length flat))).
Proof.
  induction flat as [|a flat IH]; [reflexivity|]. cbn [length seq filter nth].
  rewrite <- seq_shift, filter_map_. cbn [nth]. destruct (selb a); cbn [map nth]; rewrite map_map; cbn [nth]; now rewrite IH.
Qed.

Lemma values_table s : is_table (length (sindex s)) (length (scolumns s)) (values s).
Proof.
  unfold values. split; [apply map_length|]. intros row H. apply in_map_iff in H as (r & <- & _). apply map_length.
Qed.

Lemma f_X_scattered s x : length x = length (get_flat_nonzero_values s) ->
  exists out, set_masked (List.concat (values s)) x = Ok out /\
    scattered (length (sindex s)) (length (scolumns s)) (values s) (fun v => rlt 0 v) x out /\
    f_X s x = Ok (reshape2 out (length (sindex s)) (length (scolumns s))).
Proof.
  intros L. destruct (@set_masked_ok _ x L) as (out & E & Lo & H1 & H2). exists out. split; [exact E|].
  rewrite (table_concat_length (values_table s)) in *. split.
  - split; [exact Lo|]. auto.
  - unfold f_X. rewrite E. reflexivity.
Qed.

(** ** C63 *)
Lemma c63_sparse__p :
  forall (r c : nat) (z : list (list R)), is_table r c z ->
  let x := fst (sparse_to_vector_and_matrix z c) in
  let a := snd (sparse_to_vector_and_matrix z c) in
  reshape2 (mv a x) r c = z /\
  (forall k, k < length x <-> exists i j, kth_cell (fun v => v <> 0%R) z c k i j) /\
  (forall k i j, kth_cell (fun v => v <> 0%R) z c k i j -> nth_error x k = Some (cell z i j)) /\
  (forall y, length y = length x ->
     is_table r c (reshape2 (mv a y) r c) /\
     (forall k i j v, kth_cell (fun v => v <> 0%R) z c k i j -> nth_error y k = Some v -> cell (reshape2 (mv a y) r c) i j = v) /\
     (forall i j, i < r -> j < c -> cell z i j = 0%R -> cell (reshape2 (mv a y) r c) i j = 0%R)).
Proof.
  intros r c z T x a.
  assert (Ex : x = gathered r c z rnz) by (unfold x, sparse_to_vector_and_matrix; cbn [fst]; now apply nonzero_values).
  assert (Lx : length x = length (nonzero z)) by (unfold x, sparse_to_vector_and_matrix; cbn [fst]; apply map_length).
  assert (K : forall k i j, kth_cell (fun v => v <> 0%R) z c k i j <-> kth_cell (fun v => rnz v = true) z c k i j).
  { intros k i j. unfold kth_cell. split; intros (A & B & C & bf & D & E & F); (split; [exact A|]); (split; [exact B|]);
      (split; [apply rnz_spec; exact C|]); exists bf; (split; [exact D|]); (split; [exact E|]); intros p; rewrite F, rnz_spec; tauto. }
  split; [|split; [|split]].
  - apply (@scattered_gathered r c z T rnz).
    + intros v Hv _. now apply rnz_false.
    + rewrite <- Ex. now apply sparse_scattered.
  - intros k. rewrite Ex, (gathered_length T). split; intros (i & j & H); exists i, j; now apply K.
  - intros k i j H. apply K in H. pose proof (kth_rank T _ H) as Hr. destruct H as (Hi & Hj & _). rewrite (proj1 T) in Hi.
    rewrite Ex. unfold gathered. rewrite nth_error_map, Hr. cbn [option_map]. f_equal. apply (table_nth T Hi Hj).
  - intros y Ly. assert (S : scattered r c z rnz y (mv a y)) by (apply sparse_scattered; auto; congruence).
    split; [apply reshape2_table; apply S|]. destruct (scattered_kth T S) as (S1 & S2). split.
    + intros k i j v H. apply K in H. now apply S1 with (k := k).
    + intros i j Hi Hj H. apply S2; auto. now apply rnz_false.
Qed.

Lemma c63_mask__p :
  forall (s : sam) (y : list R), length y = length (get_flat_nonzero_values s) ->
  exists z, f_X s y = Ok z /\ is_table (length (sindex s)) (length (scolumns s)) z /\
  (forall k, k < length y <-> exists i j, kth_cell (fun v => 0 < v)%R (values s) (length (scolumns s)) k i j) /\
  (forall k i j v, kth_cell (fun v => 0 < v)%R (values s) (length (scolumns s)) k i j -> nth_error y k = Some v -> cell z i j = v) /\
  (forall i j, i < length (sindex s) -> j < length (scolumns s) -> ~ (0 < cell (values s) i j)%R -> cell z i j = 0%R) /\
  (y = get_flat_nonzero_values s -> (forall i j, 0 <= cell (values s) i j)%R -> z = values s).
Proof.
  intros s y L. destruct (f_X_scattered s y L) as (out & _ & S & E). eexists. split; [exact E|].
  pose proof (values_table s) as T.
  assert (Rl : forall v, rlt 0 v = true <-> (0 < v)%R) by (intros v; split; [apply rlt_true|intros H; unfold rlt; destruct (Rlt_dec 0 v); [reflexivity|lra]]).
  assert (K : forall k i j, kth_cell (fun v => 0 < v)%R (values s) (length (scolumns s)) k i j <->
                            kth_cell (fun v => rlt 0 v = true) (values s) (length (scolumns s)) k i j).
  { intros k i j. unfold kth_cell. split; intros (A & B & C & bf & D & E' & F); (split; [exact A|]); (split; [exact B|]);
      (split; [apply Rl; exact C|]); exists bf; (split; [exact D|]); (split; [exact E'|]); intros p; rewrite F, Rl; tauto. }
  assert (Eg : get_flat_nonzero_values s = gathered (length (sindex s)) (length (scolumns s)) (values s) (fun v => rlt 0 v)).
  { unfold get_flat_nonzero_values, gathered. rewrite filter_gather, (table_concat_length T). reflexivity. }
  split; [apply reshape2_table; apply S|]. split.
  { intros k. rewrite L, Eg, (gathered_length T). split; intros (i & j & H); exists i, j; now apply K. }
  destruct (scattered_kth T S) as (S1 & S2). split; [|split].
  - intros k i j v H. apply K in H. now apply S1 with (k := k).
  - intros i j Hi Hj H. apply S2; auto. destruct (rlt 0 (cell (values s) i j)) eqn:X; [apply Rl in X; contradiction|reflexivity].
  - intros -> Hn. apply (@scattered_gathered _ _ (values s) T (fun v => rlt 0 v)).
    + intros v Hv Hin. apply (In_nth _ _ 0%R) in Hin as (p & Hp & <-). rewrite (table_concat_length T) in Hp.
      assert (Hc : length (scolumns s) <> 0) by (intros X; rewrite X in Hp; lia).
      set (c := length (scolumns s)) in *. set (r := length (sindex s)) in *.
      assert (Hd : p / c < r) by (apply Nat.div_lt_upper_bound; [lia|]; rewrite Nat.mul_comm; lia).
      assert (Hm : p mod c < c) by (apply Nat.mod_upper_bound; lia).
      assert (Ex : p = p / c * c + p mod c) by (rewrite Nat.mul_comm; apply Nat.div_mod; lia).
      assert (Cv : nth p (List.concat (values s)) 0%R = cell (values s) (p / c) (p mod c)) by (rewrite Ex at 1; apply (table_nth T Hd Hm)).
      rewrite Cv in *. apply rlt_false in Hv. specialize (Hn (p / c) (p mod c)). lra.
    + rewrite <- Eg. exact S.
Qed.

(** The mask leaves out negative cells. *)
Lemma c63_mask_negative_refuted__p :
  exists s, square s /\ exists z, f_X s (get_flat_nonzero_values s) = Ok z /\ z <> values s.
Proof.
  exists (mkSam ["A"] ["A"] (fun _ _ => -1)%R). split; [split; [repeat constructor; simpl; tauto|reflexivity]|].
  assert (E : get_flat_nonzero_values (mkSam ["A"] ["A"] (fun _ _ => -1)%R) = []).
  { unfold get_flat_nonzero_values. cbn. unfold rlt. destruct (Rlt_dec 0 (-1)); [lra|reflexivity]. }
  rewrite E. unfold f_X. cbn. unfold rlt. destruct (Rlt_dec 0 (-1)); [lra|]. cbn. eexists. split; [reflexivity|].
  intros X. injection X as X. lra.
Qed.
