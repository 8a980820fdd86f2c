(** C100: bar plots of several variables together. *)
From Coq Require Import Reals Sorting.Sorted Sorting.Permutation Lra.
From Verif Require Import Py PyStr NdArray M_Newton M_Plotting M_Finalize M_PlotBars M_PlotTogether S_Finalize S_PlotBars L_PlotTogether Props_PlotBars.
Local Open Scope string_scope.
Local Open Scope list_scope.

Theorem c100_together :
  forall idata g names sel gd metric threshold rest,
    names <> nil -> NoDup names -> In metric metrics ->
    (dget "optimizer"%string idata = Some g \/ (dget "optimizer"%string idata = None /\ dget "euler"%string idata = Some g)) ->
    0 < r_steps g -> NoDup (dkeys sel) -> rest <> nil ->
    (forall v, In v names -> exists dims a, dget v (r_variables g) = Some (dims, a) /\ array_of (r_coords g) (r_steps g) dims a /\
       selects (r_coords g) sel dims /\ plotted sel dims = rest /\ has_groups (r_coords g) sel gd dims) ->
    (forall d, In d (dkeys sel) -> exists v dims a, In v names /\ dget v (r_variables g) = Some (dims, a) /\ In d dims) ->
    exists labels columns,
      plot_together idata names gd sel metric threshold = Ok (labels, columns) /\ map fst columns = names /\
      forall i v dims a, nth_error names i = Some v -> dget v (r_variables g) = Some (dims, a) -> exists b after before,
        nth_error columns i = Some (v, b) /\
        bars_of (r_coords g) sel gd (r_steps g) dims a labels after before /\
        drawn threshold after before metric b.
Proof. exact @c100_together__p. Qed.
Print Assumptions c100_together.
(** The trade of the south and the prices, which have no region, by sector. *)
Example c100_together_ex : exists bX bP,
  plot_together pb_idata ["X"; "P"] (Some pb_sector) [("r", ["south"])] "change" 0%R = Ok ([["farm"]; ["industry"]], [("X", bX); ("P", bP)]) /\
  bX = Bars [12 + 0 - (2 + 0); 14 + (16 + 0) - (4 + (6 + 0))]%R /\ bP = Bars [2 + 0 - (1 + 0); 3 + (4 + 0) - (1 + (1 + 0))]%R /\
  exists after before, bars_of pb_coords [("r", ["south"])] (Some pb_sector) 2 ["i"] pb_P [["farm"]; ["industry"]] after before /\ drawn 0%R after before "change" bP.
Proof.
  destruct pb_south_ok as (S & D & H).
  destruct (@c100_together pb_idata pb_opt ["X"; "P"] [("r", ["south"])] (Some pb_sector) "change" 0%R ["i"]) as (labels & columns & E & N & B).
  - discriminate.
  - now apply pb_distinct.
  - cbn; tauto.
  - now left.
  - cbn; lia.
  - now apply pb_distinct.
  - discriminate.
  - intros v [<-|[<-|[]]].
    + exists ["i"; "r"], pb_X. split; [reflexivity|]. split; [exact pb_X_ok|]. auto.
    + exists ["i"], pb_P. split; [reflexivity|]. split; [exact pb_P_ok|]. split; [|split; [reflexivity|]].
      * intros d ls [<-|[]] E. discriminate.
      * intros d cd E. cbn in E. injection E as <- <-. cbn. tauto.
  - intros d [<-|[]]. exists "X", ["i"; "r"], pb_X. cbn; tauto.
  - destruct (B 1 "P" ["i"] pb_P eq_refl eq_refl) as (b & after & before & Nb & Bs & W).
    cbn in E. injection E as <- <-. cbn in Nb. injection Nb as <-. do 2 eexists. split; [reflexivity|]. split; [reflexivity|]. split; [reflexivity|]. eauto.
Qed.
(** Plotted separately the prices are an error, see c97_missing_dim_refuted. *)
Example c100_together_plain_ex : plot_together pb_idata ["P"; "X"] None [("r", ["north"])] "both" 0%R =
  Ok ([["wheat"]; ["steel"]; ["cars"]], [("P", Joined [2; 3; 4]%R [1; 1; 1]%R); ("X", Joined [11; 13; 15]%R [1; 3; 5]%R)]).
Proof. reflexivity. Qed.

Theorem c100_scalars :
  forall idata g names gd metric threshold,
    names <> nil -> NoDup names -> In metric metrics ->
    (dget "optimizer"%string idata = Some g \/ (dget "optimizer"%string idata = None /\ dget "euler"%string idata = Some g)) ->
    0 < r_steps g -> (forall d, gd = Some d -> ~ In "name"%string (dkeys d)) ->
    (forall v, In v names -> exists a, dget v (r_variables g) = Some (nil, a) /\ array_of (r_coords g) (r_steps g) nil a) ->
    exists b after before,
      plot_together idata names gd nil metric threshold = Ok (map (fun v => v :: nil) names, ("data"%string, b) :: nil) /\
      drawn threshold after before metric b /\
      Forall2 (fun v r => exists a, dget v (r_variables g) = Some (nil, a) /\ aget a ((r_steps g - 1)%nat :: nil) = Ok r) names after /\
      Forall2 (fun v r => exists a, dget v (r_variables g) = Some (nil, a) /\ aget a (0%nat :: nil) = Ok r) names before.
Proof. exact @c100_scalars__p. Qed.
Print Assumptions c100_scalars.
(** Two scalars over two steps. *)
Definition pt_opt : results := MkResults 2 [] [("Y", ([], mkArr [2] [4; 6]%R)); ("C", ([], mkArr [2] [1; 2]%R))].
Example c100_scalars_ex : exists b, plot_together [("optimizer", pt_opt)] ["Y"; "C"] None [] "change" 0%R = Ok ([["Y"]; ["C"]], [("data", b)]) /\ b = Bars [6 - 4; 2 - 1]%R.
Proof.
  destruct (@c100_scalars [("optimizer", pt_opt)] pt_opt ["Y"; "C"] None "change" 0%R) as (b & after & before & E & _).
  - discriminate.
  - now apply pb_distinct.
  - cbn; tauto.
  - now left.
  - cbn; lia.
  - discriminate.
  - intros v [<-|[<-|[]]]; (eexists; split; [reflexivity|]; split; [constructor|]; split; [reflexivity|]; exists []; split; [reflexivity | constructor]).
  - cbn in E. injection E as <-. eexists. split; reflexivity.
Qed.

Theorem c100_rejected :
  forall idata g names sel gd metric threshold v w dv av dw aw,
    NoDup names -> NoDup (dkeys sel) ->
    (dget "optimizer"%string idata = Some g \/ (dget "optimizer"%string idata = None /\ dget "euler"%string idata = Some g)) ->
    0 < r_steps g ->
    (forall u, In u names -> exists dims a, dget u (r_variables g) = Some (dims, a) /\ array_of (r_coords g) (r_steps g) dims a /\ selects (r_coords g) sel dims) ->
    (forall d, In d (dkeys sel) -> exists u dims a, In u names /\ dget u (r_variables g) = Some (dims, a) /\ In d dims) ->
    In v names -> In w names -> dget v (r_variables g) = Some (dv, av) -> dget w (r_variables g) = Some (dw, aw) ->
    plotted sel dv <> plotted sel dw ->
    plot_together idata names gd sel metric threshold = Err ValueError.
Proof. exact @c100_rejected__p. Qed.
Print Assumptions c100_rejected.
(** The trade has a region and the prices have none. *)
Example c100_rejected_ex : plot_together pb_idata ["X"; "P"] None [] "change" 0%R = Err ValueError.
Proof.
  apply (@c100_rejected pb_idata pb_opt ["X"; "P"] [] None "change" 0%R "X" "P" ["i"; "r"] pb_X ["i"] pb_P).
  - now apply pb_distinct.
  - constructor.
  - now left.
  - cbn; lia.
  - intros u [<-|[<-|[]]].
    + exists ["i"; "r"], pb_X. split; [reflexivity|]. split; [exact pb_X_ok|]. intros d ls _ E. discriminate.
    + exists ["i"], pb_P. split; [reflexivity|]. split; [exact pb_P_ok|]. intros d ls _ E. discriminate.
  - intros d [].
  - now left.
  - right; now left.
  - reflexivity.
  - reflexivity.
  - discriminate.
Qed.

Theorem c100_order_refuted :
  exists idata g v w d1 d2 a1 a2, dget "optimizer"%string idata = Some g /\ 0 < r_steps g /\
    dget v (r_variables g) = Some (d1, a1) /\ dget w (r_variables g) = Some (d2, a2) /\
    array_of (r_coords g) (r_steps g) d1 a1 /\ array_of (r_coords g) (r_steps g) d2 a2 /\ Permutation d1 d2 /\
    forall gd metric threshold, plot_together idata (v :: w :: nil) gd nil metric threshold = Err ValueError.
Proof. exact @c100_order_refuted__p. Qed.
Print Assumptions c100_order_refuted.

Theorem c100_repeated :
  forall (idata : dict results) (var_names : list string) (group_dict : option (dict (dict string))) (sel : dict (list string)) (metric : string) (threshold : R),
  plot_together idata var_names group_dict sel metric threshold = plot_together idata (dedup var_names) group_dict sel metric threshold.
Proof. exact @c100_repeated__p. Qed.
Print Assumptions c100_repeated.
Example c100_repeated_ex :
  forall (idata : dict results) (sel : dict (list string)) (threshold : R),
  plot_together idata ["Y"; "X"; "Y"; "X"] None sel "pct_change" threshold = plot_together idata ["Y"; "X"] None sel "pct_change" threshold.
Proof. intros. rewrite c100_repeated. reflexivity. Qed.
