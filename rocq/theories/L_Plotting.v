(** Lemmas for C65, C67, C68. *)
From Coq Require Import Reals Lra.
From Verif Require Import Py PyStr M_Newton M_Plotting L_Utilities L_Newton L_Rebalance2.
Local Open Scope string_scope.
Local Open Scope list_scope.

Lemma map_flat_map {A B C} (f : B -> C) (g : A -> list B) l : map f (flat_map g l) = flat_map (fun x => map f (g x)) l.
Proof. induction l as [|a l IH]; [reflexivity|]. simpl. now rewrite map_app, IH. Qed.

Lemma grid_rows {A} (f : nat -> nat -> A) r c : c <> 0 ->
  flat_map (fun i => map (fun j => f i j) (seq 0 c)) (seq 0 r) = map (fun p => f (p / c) (p mod c)) (seq 0 (r * c)).
Proof.
  intros Hc. rewrite seq_mul, map_flat_map. rewrite !flat_map_concat_map. f_equal. apply map_ext_in. intros i _.
  rewrite map_map. apply map_ext_in. intros j Hj. apply in_seq in Hj.
  rewrite Nat.div_add_l, Nat.div_small, Nat.add_0_r by lia. f_equal.
  rewrite Nat.add_comm, Nat.mod_add, Nat.mod_small; lia.
Qed.

Lemma seq_shift_add a m : forall b, map (fun j => a + j) (seq b m) = seq (a + b) m.
Proof. induction m as [|m IH]; intros b; [reflexivity|]. simpl. f_equal. rewrite IH. f_equal. lia. Qed.

Definition grid_loc (c n k : nat) : loc :=
  let off := if Nat.ltb k (n / c * c) then 0 else c - n mod c in
  ((k / c * 2, (k / c + 1) * 2), (off + (k mod c) * 2, off + (k mod c + 1) * 2)).

Lemma gridspec_eq c n : 1 <= c -> 1 <= n ->
  prepare_gridspec_figure c n =
  Ok (2 * (n / c + if Nat.ltb 0 (n mod c) then 1 else 0), 2 * c, map (grid_loc c n) (seq 0 n)).
Proof.
  intros Hc Hn. unfold prepare_gridspec_figure. destruct c as [|c']; [lia|]. set (c := S c') in *.
  assert (En : n = n / c * c + n mod c) by (rewrite Nat.mul_comm; apply Nat.div_mod; lia).
  assert (Hm : n mod c < c) by (apply Nat.mod_upper_bound; lia).
  cbv zeta. set (h := if Nat.ltb 0 (n mod c) then 1 else 0).
  assert (Hh : (h = 1 /\ 0 < n mod c) \/ (h = 0 /\ n mod c = 0)) by (unfold h; destruct (Nat.ltb_spec 0 (n mod c)); lia).
  destruct (Nat.eqb_spec (n / c + h) 0) as [E|Hr].
  { exfalso. assert (n / c = 0) by lia. rewrite H in En. lia. }
  f_equal. f_equal. replace (n / c + h - h) with (n / c) by lia.
  rewrite grid_rows by lia. replace (seq 0 n) with (seq 0 (n / c * c) ++ seq (n / c * c) (n mod c)).
  2:{ rewrite <- (Nat.add_0_l (n / c * c)) at 2. rewrite <- seq_app. f_equal. lia. }
  rewrite map_app. f_equal.
  - apply map_ext_in. intros p Hp. apply in_seq in Hp. unfold grid_loc.
    destruct (Nat.ltb_spec p (n / c * c)); [|lia]. cbv zeta. repeat f_equal.
  - destruct Hh as [(Eh & Hp)|(Eh & E0)].
    + destruct (Nat.ltb_spec 0 (n mod c)); [|lia]. rewrite Eh.
      replace (seq (n / c * c) (n mod c)) with (map (fun j => n / c * c + j) (seq 0 (n mod c))).
      2:{ rewrite seq_shift_add, Nat.add_0_r. reflexivity. }
      rewrite map_map. apply map_ext_in. intros j Hj. apply in_seq in Hj. unfold grid_loc.
      destruct (Nat.ltb_spec (n / c * c + j) (n / c * c)); [lia|]. cbv zeta.
      rewrite Nat.div_add_l, (Nat.div_small j) by lia. rewrite (Nat.add_comm (n / c * c) j), Nat.mod_add, (Nat.mod_small j) by lia.
      f_equal; f_equal; lia.
    + rewrite E0. reflexivity.
Qed.

Lemma nth_error_map_seq {A} (f : nat -> A) n k x : nth_error (map f (seq 0 n)) k = Some x -> k < n /\ x = f k.
Proof.
  intros H. assert (Hk : k < n).
  { assert (Hl : k < length (map f (seq 0 n))) by (apply nth_error_Some; congruence). now rewrite map_length, seq_length in Hl. }
  split; [exact Hk|]. rewrite nth_error_map in H.
  assert (E : nth_error (seq 0 n) k = Some k) by (rewrite nth_error_nth' with (d := 0) by (now rewrite seq_length); now rewrite seq_nth).
  rewrite E in H. simpl in H. congruence.
Qed.

Lemma c65_grid__p :
  forall n_cols n_plots : nat, 1 <= n_cols -> 1 <= n_plots ->
  exists rows locs, prepare_gridspec_figure n_cols n_plots = Ok (2 * rows, 2 * n_cols, locs) /\
  (* as many rows as needed *)
  (rows - 1) * n_cols < n_plots <= rows * n_cols /\
  (* one location per plot, two by two cells, inside the grid, row by row *)
  length locs = n_plots /\
  (forall k r0 r1 c0 c1, nth_error locs k = Some ((r0, r1), (c0, c1)) ->
     r1 = r0 + 2 /\ c1 = c0 + 2 /\ r1 <= 2 * rows /\ c1 <= 2 * n_cols /\ r0 = 2 * (k / n_cols)) /\
  (* disjoint, in reading order *)
  (forall k k' r0 r1 c0 c1 r0' r1' c0' c1', k < k' -> nth_error locs k = Some ((r0, r1), (c0, c1)) ->
     nth_error locs k' = Some ((r0', r1'), (c0', c1')) -> r1 <= r0' \/ (r0 = r0' /\ c1 <= c0')) /\
  (* every row is centred: the margin left of its first plot is the one right of its last plot *)
  (forall k k' r0 r1 c0 c1 r1' c0' c1', nth_error locs k = Some ((r0, r1), (c0, c1)) ->
     nth_error locs k' = Some ((r0, r1'), (c0', c1')) ->
     k mod n_cols = 0 -> (k' mod n_cols = n_cols - 1 \/ k' = n_plots - 1) -> c0 = 2 * n_cols - c1').
Proof.
  intros c n Hc Hn. exists (n / c + if Nat.ltb 0 (n mod c) then 1 else 0), (map (grid_loc c n) (seq 0 n)).
  split; [now apply gridspec_eq|].
  assert (En : n = n / c * c + n mod c) by (rewrite Nat.mul_comm; apply Nat.div_mod; lia).
  assert (Hm : n mod c < c) by (apply Nat.mod_upper_bound; lia).
  set (h := if Nat.ltb 0 (n mod c) then 1 else 0).
  assert (Hh : (h = 1 /\ 0 < n mod c) \/ (h = 0 /\ n mod c = 0)) by (unfold h; destruct (Nat.ltb_spec 0 (n mod c)); lia).
  set (q := n / c) in *. set (m := n mod c) in *.
  assert (Hq : h = 0 -> 1 <= q) by (intros; destruct q; lia).
  assert (K : forall k, k < n -> k = k / c * c + k mod c /\ k mod c < c /\
              ((k / c < q /\ k < q * c) \/ (k / c = q /\ h = 1 /\ q * c <= k /\ k mod c < m))).
  { intros k Hk. assert (Ek : k = k / c * c + k mod c) by (rewrite Nat.mul_comm; apply Nat.div_mod; lia).
    assert (Hk' : k mod c < c) by (apply Nat.mod_upper_bound; lia).
    split; [exact Ek|]. split; [exact Hk'|].
    destruct (Nat.lt_ge_cases (k / c) q) as [L|G].
    - left. split; [exact L|]. assert ((k / c + 1) * c <= q * c) by (apply Nat.mul_le_mono_r; lia). lia.
    - right. assert (k / c <= q).
      { apply Nat.nlt_ge. intros X. assert ((q + 1) * c <= k / c * c) by (apply Nat.mul_le_mono_r; lia). lia. }
      assert (Eq : k / c = q) by lia. rewrite Eq in Ek. repeat split; lia. }
  split.
  { destruct Hh as [(-> & ?)|(Eh & ?)].
    - rewrite Nat.add_sub. split; [lia|]. rewrite Nat.mul_add_distr_r. lia.
    - specialize (Hq Eh). rewrite Eh, Nat.add_0_r. split; [|lia]. destruct q; [lia|]. simpl. rewrite Nat.sub_0_r. simpl in En. lia. }
  split; [now rewrite map_length, seq_length|]. split; [|split].
  - intros k r0 r1 c0 c1 H. apply nth_error_map_seq in H as (Hk & E). destruct (K k Hk) as (Ek & Hk' & Cs).
    unfold grid_loc in E. fold q m in E. cbv zeta in E. injection E as -> -> -> ->.
    destruct Cs as [(A & B)|(A & B & C & D)].
    + destruct (Nat.ltb_spec k (q * c)); [|lia]. repeat split; lia.
    + destruct (Nat.ltb_spec k (q * c)); [lia|]. repeat split; lia.
  - intros k k' r0 r1 c0 c1 r0' r1' c0' c1' Hl H H'. apply nth_error_map_seq in H as (Hk & E). apply nth_error_map_seq in H' as (Hk2 & E').
    destruct (K k Hk) as (Ek & Hk' & Cs). destruct (K k' Hk2) as (Ek2 & Hk2' & Cs').
    unfold grid_loc in E, E'. fold q m in E, E'. cbv zeta in E, E'. injection E as -> -> -> ->. injection E' as -> -> -> ->.
    destruct (Nat.lt_ge_cases (k / c) (k' / c)) as [L|G]; [left; lia|].
    assert (Eq : k / c = k' / c).
    { apply Nat.le_antisymm; [|exact G]. apply Nat.div_le_mono; lia. }
    right. split; [lia|].
    assert (k mod c < k' mod c) by (rewrite Eq in Ek; lia).
    destruct (Nat.ltb_spec k (q * c)), (Nat.ltb_spec k' (q * c)); lia.
  - intros k k' r0 r1 c0 c1 r1' c0' c1' H H' H0 Hlast. apply nth_error_map_seq in H as (Hk & E). apply nth_error_map_seq in H' as (Hk2 & E').
    destruct (K k Hk) as (Ek & Hk' & Cs). destruct (K k' Hk2) as (Ek2 & Hk2' & Cs').
    unfold grid_loc in E, E'. fold q m in E, E'. cbv zeta in E, E'. injection E as -> -> -> ->. injection E' as Er -> -> ->.
    rewrite H0. assert (Eq : k / c = k' / c) by lia.
    destruct Cs as [(A & B)|(A & B & C & D)]; destruct Cs' as [(A' & B')|(A' & B' & C' & D')]; try lia.
    + destruct (Nat.ltb_spec k (q * c)), (Nat.ltb_spec k' (q * c)); try lia.
      destruct Hlast as [X|X]; [lia|]. assert (m = 0) by lia. 
      assert (k' mod c = c - 1); [|lia]. assert (k' / c * c + k' mod c = q * c - 1) by lia.
      assert ((k' / c + 1) * c <= q * c) by (apply Nat.mul_le_mono_r; lia). lia.
    + destruct (Nat.ltb_spec k (q * c)), (Nat.ltb_spec k' (q * c)); try lia.
      
Qed.

(** ** C67 *)
Lemma pct_nth th : forall data initial k, length data = length initial -> k < length data ->
  nth k (pct_change th data initial) 0%R =
  (if rlt th (nth k initial 0%R) then ((nth k data 0%R - nth k initial 0%R) / nth k initial 0%R)%R else 0%R).
Proof.
  induction data as [|d data IH]; intros [|i initial] k L Hk; simpl in *; try lia. destruct k as [|k]; [reflexivity|].
  apply IH; lia.
Qed.
Lemma pct_length th : forall data initial, length data = length initial -> length (pct_change th data initial) = length data.
Proof. induction data as [|d data IH]; intros [|i initial] L; simpl in *; try lia. rewrite IH; lia. Qed.
Lemma pointwise_nth f : forall data initial k, length data = length initial -> k < length data ->
  nth k (pointwise f data initial) 0%R = f (nth k data 0%R) (nth k initial 0%R).
Proof. induction data as [|d data IH]; intros [|i initial] k L Hk; simpl in *; try lia. destruct k as [|k]; [reflexivity|]. apply IH; lia. Qed.
Lemma pointwise_length f : forall data initial, length data = length initial -> length (pointwise f data initial) = length data.
Proof. induction data as [|d data IH]; intros [|i initial] L; simpl in *; try lia. rewrite IH; lia. Qed.

Lemma c67_metrics__p :
  forall (data initial : list R) (threshold : R), length data = length initial -> (0 <= threshold)%R ->
  (exists v, compute_bar_data data initial "pct_change" threshold = Ok (Bars v) /\ length v = length data /\
     forall k, k < length data ->
       ((threshold < nth k initial 0%R)%R -> nth k v 0%R = (nth k data 0%R / nth k initial 0%R - 1)%R) /\
       (~ (threshold < nth k initial 0%R)%R -> nth k v 0%R = 0%R)) /\
  (exists v, compute_bar_data data initial "change" threshold = Ok (Bars v) /\ length v = length data /\
     forall k, k < length data -> nth k v 0%R = (nth k data 0%R - nth k initial 0%R)%R) /\
  (exists v, compute_bar_data data initial "abs_change" threshold = Ok (Bars v) /\ length v = length data /\
     forall k, k < length data -> nth k v 0%R = Rabs (nth k data 0%R - nth k initial 0%R)) /\
  compute_bar_data data initial "final" threshold = Ok (Bars data) /\
  compute_bar_data data initial "initial" threshold = Ok (Bars initial) /\
  compute_bar_data data initial "both" threshold = Ok (Joined data initial) /\
  (forall metric, ~ In metric ["pct_change"; "change"; "abs_change"; "final"; "initial"; "both"] ->
     compute_bar_data data initial metric threshold = Err ValueError).
Proof.
  intros data initial th L Hth.
  assert (E : forall m, compute_bar_data data initial m th =
    if String.eqb m "pct_change" then Ok (Bars (pct_change th data initial))
    else if String.eqb m "change" then Ok (Bars (pointwise Rminus data initial))
    else if String.eqb m "abs_change" then Ok (Bars (pointwise (fun d i => Rabs (d - i))%R data initial))
    else if String.eqb m "final" then Ok (Bars data)
    else if String.eqb m "initial" then Ok (Bars initial)
    else if String.eqb m "both" then Ok (Joined data initial)
    else Err ValueError) by (intros m; unfold compute_bar_data; rewrite L, Nat.eqb_refl; reflexivity).
  split; [|split; [|split; [|split; [|split; [|split]]]]].
  - exists (pct_change th data initial). split; [now rewrite E|]. split; [now apply pct_length|]. intros k Hk. rewrite pct_nth by auto.
    unfold rlt. destruct (Rlt_dec th (nth k initial 0%R)) as [H|H]; split; intros X; try contradiction; [|reflexivity].
    field. lra.
  - exists (pointwise Rminus data initial). split; [now rewrite E|]. split; [now apply pointwise_length|]. intros k Hk. now rewrite pointwise_nth.
  - eexists. split; [rewrite E; reflexivity|]. split; [now apply pointwise_length|]. intros k Hk. now rewrite pointwise_nth.
  - now rewrite E.
  - now rewrite E.
  - now rewrite E.
  - intros m Hm. rewrite E.
    repeat match goal with |- context[String.eqb m ?x] =>
      destruct (String.eqb_spec m x) as [->|_]; [exfalso; apply Hm; simpl; tauto|] end. reflexivity.
Qed.
(** A negative initial value counts as negligible. *)
Lemma c67_negative_refuted__p :
  exists data initial v, compute_bar_data data initial "pct_change" (1 / 1000000) = Ok (Bars v) /\
    nth 0 initial 0%R = (-100)%R /\ nth 0 data 0%R = (-150)%R /\ nth 0 v 0%R = 0%R.
Proof.
  exists [-150]%R, [-100]%R. eexists. split; [reflexivity|]. split; [reflexivity|]. split; [reflexivity|].
  simpl. unfold rlt. destruct (Rlt_dec _ _); lra.
Qed.

(** ** C68 *)
Lemma label_areas_unmasked : forall sizes labels mask, length sizes = length mask -> length labels = length mask ->
  label_areas (unmasked sizes mask) (unmasked labels mask) =
  map (fun p => (fst p, Some (snd p))) (unmasked (combine sizes labels) mask).
Proof.
  induction sizes as [|s sizes IH]; intros [|l labels] [|m mask] L1 L2; simpl in *; try lia; try reflexivity.
  destruct m; simpl; rewrite IH by lia; reflexivity.
Qed.
Lemma map_unmasked {A B} (f : A -> B) : forall l mask, map f (unmasked l mask) = unmasked (map f l) mask.
Proof. induction l as [|a l IH]; intros [|m mask]; try reflexivity. simpl. destruct m; simpl; now rewrite IH. Qed.
Lemma unmasked_filter {A} (f : A -> bool) : forall l, unmasked l (map f l) = filter (fun x => negb (f x)) l.
Proof. induction l as [|a l IH]; [reflexivity|]. simpl. destruct (f a); simpl; now rewrite IH. Qed.
Lemma is_close0_spec x : is_close0 x = true <-> (Rabs x <= 1 / 100000000)%R.
Proof.
  unfold is_close0. destruct (rlt (1 / 100000000) (Rabs x)) eqn:E; simpl.
  - apply rlt_true in E. split; [discriminate|lra].
  - apply rlt_false in E. split; [lra|reflexivity].
Qed.
Lemma map_seq_nth {A} (l : list A) d : map (fun k => nth k l d) (seq 0 (length l)) = l.
Proof.
  apply nth_ext with (d := d) (d' := d); [now rewrite map_length, seq_length|]. intros k Hk. rewrite map_length, seq_length in Hk.
  rewrite nth_indep with (d' := nth 0 l d) by (now rewrite map_length, seq_length).
  rewrite (map_nth (fun k => nth k l d)), seq_nth by auto. reflexivity.
Qed.

Lemma c68_one_dim__p :
  forall (dims_of coords : dict (list string)) (initial final : dict (list R)) (rename : dict string)
         (v d : string) (labels : list string) (pre post : list R),
  dget v dims_of = Some [d] -> dget d coords = Some labels -> labels <> [] ->
  dget v initial = Some pre -> dget v final = Some post -> length pre = length labels -> length post = length labels ->
  let zero x := if Rle_dec (Rabs x) (1 / 100000000) then true else false in
  let shown := filter (fun k => negb (zero (nth k pre 0%R) || zero (nth k post 0%R))) (seq 0 (length labels)) in
  let name k := match dget (nth k labels "") rename with Some r => r | None => nth k labels "" end in
  (* an element is left out when it is zero before or after; the others carry their own label *)
  plot_areas dims_of coords initial final rename [v] =
    Ok (map (fun k => (nth k pre 0%R, Some (name k))) shown, map (fun k => (nth k post 0%R, Some (name k))) shown).
Proof.
  intros dims_of coords initial final rename v d labels pre post Hd Hc Hl Hi Hf L1 L2 zero shown name.
  assert (Ez : shown = filter (fun k => negb (is_close0 (nth k pre 0%R) || is_close0 (nth k post 0%R))) (seq 0 (length labels))).
  { assert (Z : forall x, zero x = is_close0 x).
    { intros x. unfold zero. destruct (is_close0 x) eqn:E; destruct (Rle_dec (Rabs x) (1 / 100000000)) as [H|H]; try reflexivity.
      - apply is_close0_spec in E. contradiction.
      - apply is_close0_spec in H. congruence. }
    unfold shown. apply filter_ext. intros k. now rewrite !Z. }
  rewrite Ez. clear Ez zero shown. set (shown := filter _ _).
  unfold plot_areas. cbn [map_res]. unfold dgetitem. rewrite Hd. cbn [bind]. cbn [forallb dims_eqb map_res].
  rewrite String.eqb_refl. cbn [andb negb]. rewrite Hc. cbn [bind List.concat]. rewrite app_nil_r.
  destruct (map (fun l => match dget l rename with Some r => r | None => l end) labels) as [|p0 pr] eqn:E0.
  { destruct labels; [congruence|discriminate]. }
  rewrite <- E0. clear E0 p0 pr. rewrite Hi, Hf. cbn [bind List.concat]. rewrite !app_nil_r, L1, L2, Nat.eqb_refl. cbn [negb].
  assert (Ep : combine pre post = map (fun k => (nth k pre 0%R, nth k post 0%R)) (seq 0 (length labels))).
  { apply nth_ext with (d := (0%R, 0%R)) (d' := (0%R, 0%R)); [rewrite combine_length, map_length, seq_length; lia|].
    intros k Hk. rewrite combine_length in Hk. rewrite combine_nth by lia.
    rewrite nth_indep with (d' := (nth 0 pre 0%R, nth 0 post 0%R)) by (rewrite map_length, seq_length; lia).
    rewrite (map_nth (fun k => (nth k pre 0%R, nth k post 0%R))), seq_nth by lia. reflexivity. }
  assert (Em : map (fun p => is_close0 (fst p) || is_close0 (snd p)) (combine pre post) =
               map (fun k => is_close0 (nth k pre 0%R) || is_close0 (nth k post 0%R)) (seq 0 (length labels))).
  { rewrite Ep, map_map. reflexivity. }
  rewrite Em. clear Ep Em.
  assert (G : forall x, length x = length labels ->
    label_areas (unmasked x (map (fun k => is_close0 (nth k pre 0%R) || is_close0 (nth k post 0%R)) (seq 0 (length labels))))
                (unmasked (map (fun l => match dget l rename with Some r => r | None => l end) labels)
                          (map (fun k => is_close0 (nth k pre 0%R) || is_close0 (nth k post 0%R)) (seq 0 (length labels)))) =
    map (fun k => (nth k x 0%R, Some (name k))) shown).
  { intros x Lx. rewrite label_areas_unmasked by (rewrite !map_length, ?seq_length; lia).
    assert (Ec : combine x (map (fun l => match dget l rename with Some r => r | None => l end) labels) =
                 map (fun k => (nth k x 0%R, name k)) (seq 0 (length labels))).
    { apply nth_ext with (d := (0%R, "")) (d' := (0%R, "")); [rewrite combine_length, !map_length, seq_length; lia|].
      intros k Hk. rewrite combine_length, map_length in Hk. rewrite combine_nth by (rewrite map_length; lia).
      rewrite nth_indep with (d' := (fun k => (nth k x 0%R, name k)) 0) by (rewrite map_length, seq_length; lia).
      rewrite (map_nth (fun k => (nth k x 0%R, name k))), seq_nth by lia. simpl (0 + k). f_equal.
      set (f := fun l => match dget l rename with Some r => r | None => l end).
      rewrite nth_indep with (d' := f "") by (rewrite map_length; lia). now rewrite map_nth. }
    rewrite Ec, <- map_unmasked, unmasked_filter, map_map. reflexivity. }
  now rewrite !G by auto.
Qed.

(** With two variables only the first one's areas carry labels. *)
Lemma c68_two_variables_refuted__p :
  exists dims_of coords initial final,
    dget "Y" dims_of = Some ["i"] /\ dget "C" dims_of = Some ["i"] /\ dget "i" coords = Some ["a"; "b"] /\
    exists before after, plot_areas dims_of coords initial final [] ["Y"; "C"] = Ok (before, after) /\
      map fst before = [1; 2; 3; 4]%R /\ map snd before = [Some "a"; Some "b"; None; None].
Proof.
  exists [("Y", ["i"]); ("C", ["i"])], [("i", ["a"; "b"])], [("Y", [1; 2]); ("C", [3; 4])]%R, [("Y", [1; 2]); ("C", [3; 4])]%R.
  split; [reflexivity|]. split; [reflexivity|]. split; [reflexivity|].
  assert (E : forall x, (1 <= x)%R -> is_close0 x = false).
  { intros x Hx. destruct (is_close0 x) eqn:E; [|reflexivity]. apply is_close0_spec in E. rewrite Rabs_right in E; lra. }
  eexists. eexists. split.
  - cbn. rewrite !E by lra. cbn. reflexivity.
  - split; reflexivity.
Qed.
(** With two dims the labels are those of the first dim followed by those of
    the second, not one per element. *)
Lemma c68_two_dims_refuted__p :
  exists dims_of coords initial final,
    dget "X" dims_of = Some ["i"; "j"] /\ dget "i" coords = Some ["a"; "b"] /\ dget "j" coords = Some ["c"; "d"] /\
    exists before after, plot_areas dims_of coords initial final [] ["X"] = Ok (before, after) /\
      (* the elements are (a, c), (a, d), (b, c), (b, d) *)
      map fst before = [1; 2; 3; 4]%R /\ map snd before = [Some "a"; Some "b"; Some "c"; Some "d"].
Proof.
  exists [("X", ["i"; "j"])], [("i", ["a"; "b"]); ("j", ["c"; "d"])], [("X", [1; 2; 3; 4])]%R, [("X", [1; 2; 3; 4])]%R.
  split; [reflexivity|]. split; [reflexivity|]. split; [reflexivity|].
  assert (E : forall x, (1 <= x)%R -> is_close0 x = false).
  { intros x Hx. destruct (is_close0 x) eqn:E; [|reflexivity]. apply is_close0_spec in E. rewrite Rabs_right in E; lra. }
  eexists. eexists. split.
  - cbn. rewrite !E by lra. cbn. reflexivity.
  - split; reflexivity.
Qed.
