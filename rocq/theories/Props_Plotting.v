(** C65, C67, C68: figures. *)
From Coq Require Import Reals Lra.
From Verif Require Import Py PyStr M_Newton M_Plotting L_Newton L_Plotting.
Local Open Scope string_scope.
Local Open Scope list_scope.

(** ** C65 *)
Theorem c65_grid :
  forall n_cols n_plots : nat, 1 <= n_cols -> 1 <= n_plots ->
  exists rows locs, prepare_gridspec_figure n_cols n_plots = Ok (2 * rows, 2 * n_cols, locs) /\
  (* as many rows as needed *)
  (rows - 1) * n_cols < n_plots <= rows * n_cols /\
  (* one location per plot, two by two cells, inside the grid, row by row *)
  length locs = n_plots /\
  (forall k r0 r1 c0 c1, nth_error locs k = Some ((r0, r1), (c0, c1)) ->
     r1 = r0 + 2 /\ c1 = c0 + 2 /\ r1 <= 2 * rows /\ c1 <= 2 * n_cols /\ r0 = 2 * (k / n_cols)) /\
  (* disjoint, in reading order *)
  (forall k k' r0 r1 c0 c1 r0' r1' c0' c1', k < k' -> nth_error locs k = Some ((r0, r1), (c0, c1)) ->
     nth_error locs k' = Some ((r0', r1'), (c0', c1')) -> r1 <= r0' \/ (r0 = r0' /\ c1 <= c0')) /\
  (* every row is centred: the margin left of its first plot is the one right of its last plot *)
  (forall k k' r0 r1 c0 c1 r1' c0' c1', nth_error locs k = Some ((r0, r1), (c0, c1)) ->
     nth_error locs k' = Some ((r0, r1'), (c0', c1')) ->
     k mod n_cols = 0 -> (k' mod n_cols = n_cols - 1 \/ k' = n_plots - 1) -> c0 = 2 * n_cols - c1').
Proof. exact @c65_grid__p. Qed.
Print Assumptions c65_grid.
Example c65_grid_ex : exists rows locs, prepare_gridspec_figure 3 5 = Ok (2 * rows, 6, locs) /\ length locs = 5 /\ rows = 2.
Proof.
  destruct (c65_grid (n_cols := 3) (n_plots := 5)) as (rows & locs & E & R & L & _); [lia|lia|].
  exists rows, locs. split; [exact E|]. split; [exact L|]. lia.
Qed.

(** ** C67 *)
Theorem c67_metrics :
  forall (data initial : list R) (threshold : R), length data = length initial -> (0 <= threshold)%R ->
  (exists v, compute_bar_data data initial "pct_change" threshold = Ok (Bars v) /\ length v = length data /\
     forall k, k < length data ->
       ((threshold < nth k initial 0%R)%R -> nth k v 0%R = (nth k data 0%R / nth k initial 0%R - 1)%R) /\
       (~ (threshold < nth k initial 0%R)%R -> nth k v 0%R = 0%R)) /\
  (exists v, compute_bar_data data initial "change" threshold = Ok (Bars v) /\ length v = length data /\
     forall k, k < length data -> nth k v 0%R = (nth k data 0%R - nth k initial 0%R)%R) /\
  (exists v, compute_bar_data data initial "abs_change" threshold = Ok (Bars v) /\ length v = length data /\
     forall k, k < length data -> nth k v 0%R = Rabs (nth k data 0%R - nth k initial 0%R)) /\
  compute_bar_data data initial "final" threshold = Ok (Bars data) /\
  compute_bar_data data initial "initial" threshold = Ok (Bars initial) /\
  compute_bar_data data initial "both" threshold = Ok (Joined data initial) /\
  (forall metric, ~ In metric ["pct_change"; "change"; "abs_change"; "final"; "initial"; "both"] ->
     compute_bar_data data initial metric threshold = Err ValueError).
Proof. exact @c67_metrics__p. Qed.
Print Assumptions c67_metrics.
Example c67_metrics_ex : exists v, compute_bar_data [3; 5]%R [2; 0]%R "pct_change" 1 = Ok (Bars v) /\
  nth 0 v 0%R = (1 / 2)%R /\ nth 1 v 0%R = 0%R.
Proof.
  destruct (@c67_metrics [3; 5]%R [2; 0]%R 1%R eq_refl ltac:(lra)) as ((v & E & L & H) & _). exists v. split; [exact E|].
  split; [rewrite (proj1 (H 0 ltac:(simpl; lia)))|rewrite (proj2 (H 1 ltac:(simpl; lia)))]; simpl; lra.
Qed.
(** A fall from -100 to -150 is drawn as no change. *)
Theorem c67_negative_refuted :
  exists data initial v, compute_bar_data data initial "pct_change" (1 / 1000000) = Ok (Bars v) /\
    nth 0 initial 0%R = (-100)%R /\ nth 0 data 0%R = (-150)%R /\ nth 0 v 0%R = 0%R.
Proof. exact @c67_negative_refuted__p. Qed.
Print Assumptions c67_negative_refuted.

(** ** C68 *)
Theorem c68_one_dim :
  forall (dims_of coords : dict (list string)) (initial final : dict (list R)) (rename : dict string)
         (v d : string) (labels : list string) (pre post : list R),
  dget v dims_of = Some [d] -> dget d coords = Some labels -> labels <> [] ->
  dget v initial = Some pre -> dget v final = Some post -> length pre = length labels -> length post = length labels ->
  let zero x := if Rle_dec (Rabs x) (1 / 100000000) then true else false in
  let shown := filter (fun k => negb (zero (nth k pre 0%R) || zero (nth k post 0%R))) (seq 0 (length labels)) in
  let name k := match dget (nth k labels "") rename with Some r => r | None => nth k labels "" end in
  (* an element is left out when it is zero before or after; the others carry their own label *)
  plot_areas dims_of coords initial final rename [v] =
    Ok (map (fun k => (nth k pre 0%R, Some (name k))) shown, map (fun k => (nth k post 0%R, Some (name k))) shown).
Proof. exact @c68_one_dim__p. Qed.
Print Assumptions c68_one_dim.
Example c68_one_dim_ex : exists before after,
  plot_areas [("Y", ["i"])] [("i", ["a"; "b"; "c"])] [("Y", [1; 0; 3])]%R [("Y", [4; 5; 6])]%R [("c", "Sea")] ["Y"] = Ok (before, after) /\
  before = [(1%R, Some "a"); (3%R, Some "Sea")] /\ after = [(4%R, Some "a"); (6%R, Some "Sea")].
Proof.
  pose proof (@c68_one_dim [("Y", ["i"])] [("i", ["a"; "b"; "c"])] [("Y", [1; 0; 3])]%R [("Y", [4; 5; 6])]%R [("c", "Sea")]
    "Y" "i" ["a"; "b"; "c"] [1; 0; 3]%R [4; 5; 6]%R eq_refl eq_refl ltac:(discriminate) eq_refl eq_refl eq_refl eq_refl) as H.
  cbv zeta in H. eexists. eexists. split; [exact H|].
  assert (N : forall x, (1 <= x)%R -> (if Rle_dec (Rabs x) (1 / 100000000) then true else false) = false).
  { intros x Hx. destruct (Rle_dec _ _) as [L|L]; [|reflexivity]. rewrite Rabs_right in L; lra. }
  assert (Z : (if Rle_dec (Rabs 0) (1 / 100000000) then true else false) = true).
  { destruct (Rle_dec _ _) as [L|L]; [reflexivity|]. rewrite Rabs_R0 in L. lra. }
  cbn [length seq filter nth]. rewrite Z, (N 1%R), (N 4%R), (N 3%R), (N 6%R) by lra. split; reflexivity.
Qed.
(** The elements of the second variable carry no label. *)
Theorem c68_two_variables_refuted :
  exists dims_of coords initial final,
    dget "Y" dims_of = Some ["i"] /\ dget "C" dims_of = Some ["i"] /\ dget "i" coords = Some ["a"; "b"] /\
    exists before after, plot_areas dims_of coords initial final [] ["Y"; "C"] = Ok (before, after) /\
      map fst before = [1; 2; 3; 4]%R /\ map snd before = [Some "a"; Some "b"; None; None].
Proof. exact @c68_two_variables_refuted__p. Qed.
Print Assumptions c68_two_variables_refuted.
(** With two dims the labels are not those of the elements. *)
Theorem c68_two_dims_refuted :
  exists dims_of coords initial final,
    dget "X" dims_of = Some ["i"; "j"] /\ dget "i" coords = Some ["a"; "b"] /\ dget "j" coords = Some ["c"; "d"] /\
    exists before after, plot_areas dims_of coords initial final [] ["X"] = Ok (before, after) /\
      (* the elements are (a, c), (a, d), (b, c), (b, d) *)
      map fst before = [1; 2; 3; 4]%R /\ map snd before = [Some "a"; Some "b"; Some "c"; Some "d"].
Proof. exact @c68_two_dims_refuted__p. Qed.
Print Assumptions c68_two_dims_refuted.
