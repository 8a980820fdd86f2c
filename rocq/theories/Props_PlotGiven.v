(** C106: bar plots against given initial values. *)
From Coq Require Import Reals Sorting.Sorted Lra.
From Verif Require Import Py PyStr NdArray M_Newton M_Plotting M_Finalize M_PlotBars M_PlotGiven S_Finalize S_PlotBars S_PlotGiven L_PlotGiven Props_PlotBars.
Local Open Scope string_scope.
Local Open Scope list_scope.

(** The trade of the south, prepared by the caller, who kept the dim of the region. *)
Definition pg_south : given_values := MkGiven [("i", ["wheat"; "steel"; "cars"]); ("r", ["south"])] [("X", (["i"; "r"], mkArr [3; 1] [20; 40; 60]%R))].

Theorem c106_given :
  forall idata init g names sel gd n_cols metric threshold,
    n_cols <> 0 -> names <> nil -> In metric metrics ->
    (dget "optimizer"%string idata = Some g \/ (dget "optimizer"%string idata = None /\ dget "euler"%string idata = Some g)) ->
    0 < r_steps g -> NoDup (dkeys sel) ->
    (forall v, In v names -> exists dims a b, dget v (r_variables g) = Some (dims, a) /\ dget v (v_values init) = Some (dims, b) /\
       array_of (r_coords g) (r_steps g) dims a /\ prepared (r_coords g) sel (v_coords init) dims b /\
       selects (r_coords g) sel dims /\ drawable sel dims /\ has_groups (r_coords g) sel gd dims) ->
    (forall d, In d (dkeys sel) -> exists v dims a, In v names /\ dget v (r_variables g) = Some (dims, a) /\ In d dims) ->
    exists axes places,
      plot_bar_given idata init names gd sel n_cols metric threshold = Ok axes /\
      prepare_gridspec_figure (Nat.min n_cols (length names)) (length names) = Ok places /\
      length axes = length names /\
      forall i v dims a b, nth_error names i = Some v -> dget v (r_variables g) = Some (dims, a) -> dget v (v_values init) = Some (dims, b) ->
        exists ax after before,
        nth_error axes i = Some ax /\ b_title ax = v /\ nth_error (snd places) i = Some (b_place ax) /\
        bars_against (r_coords g) sel (v_coords init) gd (r_steps g) dims a b (b_labels ax) after before /\
        drawn threshold after before metric (b_bars ax).
Proof. exact @c106_given__p. Qed.
Print Assumptions c106_given.
Example c106_given_ex : exists ax, plot_bar_given pb_idata pg_south ["X"] (Some pb_sector) [("r", ["south"])] 3 "change" 0%R = Ok [ax] /\
  b_title ax = "X" /\ b_labels ax = [["farm"]; ["industry"]] /\
  b_bars ax = Bars [12 + 0 - (20 + 0); 14 + (16 + 0) - (40 + (60 + 0))]%R /\
  exists after before, bars_against pb_coords [("r", ["south"])] (v_coords pg_south) (Some pb_sector) 2 ["i"; "r"] pb_X (mkArr [3; 1] [20; 40; 60]%R) (b_labels ax) after before /\
    drawn 0%R after before "change" (b_bars ax).
Proof.
  destruct pb_south_ok as (S & D & H).
  destruct (@c106_given pb_idata pg_south pb_opt ["X"] [("r", ["south"])] (Some pb_sector) 3 "change" 0%R) as (axes & places & E & G & L & N).
  - discriminate.
  - discriminate.
  - cbn; tauto.
  - now left.
  - cbn; lia.
  - now apply pb_distinct.
  - intros v [<-|[]]. exists ["i"; "r"], pb_X, (mkArr [3; 1] [20; 40; 60]%R). split; [reflexivity|]. split; [reflexivity|]. split; [exact pb_X_ok|].
    split; [|auto]. split; [reflexivity|]. constructor; [|constructor; [|constructor]]; split; reflexivity.
  - intros d [<-|[]]. exists "X", ["i"; "r"], pb_X. cbn; tauto.
  - destruct (N 0 "X" ["i"; "r"] pb_X (mkArr [3; 1] [20; 40; 60]%R) eq_refl eq_refl eq_refl) as (ax & after & before & Nx & T & _ & B & W).
    destruct axes as [|ax' [|]]; try discriminate. injection Nx as ->. exists ax. split; [exact E|]. split; [exact T|].
    cbn in E. injection E as <-. split; [reflexivity|]. split; [reflexivity|]. eauto.
Qed.

Theorem c106_same :
  forall idata init g names gd n_cols metric threshold,
    (dget "optimizer"%string idata = Some g \/ (dget "optimizer"%string idata = None /\ dget "euler"%string idata = Some g)) ->
    v_coords init = r_coords g ->
    (forall v dims a, In v names -> dget v (r_variables g) = Some (dims, a) ->
       exists b, dget v (v_values init) = Some (dims, b) /\ forall idx, aget b idx = aget a (0%nat :: idx)) ->
    plot_bar_given idata init names gd nil n_cols metric threshold = plot_bar idata names gd nil n_cols metric threshold.
Proof. exact @c106_same__p. Qed.
Print Assumptions c106_same.
(** The first step of the results, passed as initial values. *)
Definition pg_first : given_values := MkGiven pb_coords [("X", (["i"; "r"], mkArr [3; 2] [1; 2; 3; 4; 5; 6]%R))].
Example c106_same_ex : plot_bar_given pb_idata pg_first ["X"] None [] 3 "change" 0%R = plot_bar pb_idata ["X"] None [] 3 "change" 0%R /\
  exists ax, plot_bar pb_idata ["X"] None [] 3 "change" 0%R = Ok [ax].
Proof.
  split; [|eexists; reflexivity]. apply (@c106_same pb_idata pg_first pb_opt); [now left | reflexivity |].
  intros v dims a [<-|[]] E. injection E as <- <-. eexists. split; [reflexivity|].
  intros [|i [|j [|k idx]]]; [reflexivity | destruct i as [|[|[|i]]]; reflexivity | | ].
  - destruct i as [|[|[|i]]], j as [|[|j]]; reflexivity.
  - destruct i as [|[|[|i]]], j as [|[|j]]; reflexivity.
Qed.

Theorem c106_squeezed_refuted :
  forall idata init g v sel gd n_cols metric threshold d l dims a ydims b,
    n_cols <> 0 -> (dget "optimizer"%string idata = Some g \/ (dget "optimizer"%string idata = None /\ dget "euler"%string idata = Some g)) ->
    0 < r_steps g -> sel = (d, l :: nil) :: nil -> dget v (r_variables g) = Some (dims, a) -> array_of (r_coords g) (r_steps g) dims a ->
    selects (r_coords g) sel dims -> drawable sel dims ->
    dget v (v_values init) = Some (ydims, b) -> ~ In d ydims -> arr_wf b ->
    Forall2 (fun d n => exists all, dget d (v_coords init) = Some all /\ length all = n) ydims (ashape b) ->
    plot_bar_given idata init (v :: nil) gd sel n_cols metric threshold = Err KeyError.
Proof. exact @c106_squeezed_refuted__p. Qed.
Print Assumptions c106_squeezed_refuted.
(** The caller selected the south, as the rest of the plot does. *)
Definition pg_squeezed : given_values := MkGiven [("i", ["wheat"; "steel"; "cars"])] [("X", (["i"], mkArr [3] [2; 4; 6]%R))].
Example c106_squeezed_refuted_ex : plot_bar_given pb_idata pg_squeezed ["X"] None [("r", ["south"])] 3 "change" 0%R = Err KeyError.
Proof.
  destruct pb_south_ok as (S & D & _).
  apply (@c106_squeezed_refuted pb_idata pg_squeezed pb_opt "X" [("r", ["south"])] None 3 "change" 0%R "r" "south" ["i"; "r"] pb_X ["i"] (mkArr [3] [2; 4; 6]%R));
    try reflexivity; try assumption.
  - discriminate.
  - now left.
  - cbn; lia.
  - exact pb_X_ok.
  - intros [H|[]]. discriminate.
  - constructor; [|constructor]. eexists. split; reflexivity.
Qed.

Theorem c106_unselected_refuted :
  exists idata g init v dims a b sel gd,
    dget "optimizer"%string idata = Some g /\ dget v (r_variables g) = Some (dims, a) /\ array_of (r_coords g) (r_steps g) dims a /\
    v_coords init = r_coords g /\ dget v (v_values init) = Some (dims, b) /\ (forall i j, aget b (i :: j :: nil) = aget a (0%nat :: i :: j :: nil)) /\
    exists ax ax',
      plot_bar idata (v :: nil) gd sel 3 "change"%string 0%R = Ok (ax :: nil) /\
      plot_bar_given idata init (v :: nil) gd sel 3 "change"%string 0%R = Ok (ax' :: nil) /\
      b_labels ax' = b_labels ax /\ b_bars ax' <> b_bars ax.
Proof. exact @c106_unselected_refuted__p. Qed.
Print Assumptions c106_unselected_refuted.
