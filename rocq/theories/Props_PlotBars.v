(** C97: bar plots of selected labels and of groups. *)
From Coq Require Import Reals Sorting.Sorted Lra.
From Verif Require Import Py PyStr NdArray M_Newton M_Plotting M_Finalize M_PlotBars S_Finalize S_PlotBars L_PlotBars.
Local Open Scope string_scope.
Local Open Scope list_scope.

(** Trade between two regions in three goods, and prices of the goods, over two steps. *)
Definition pb_coords : dict (list string) := [("i", ["wheat"; "steel"; "cars"]); ("r", ["north"; "south"])].
Definition pb_X : arr R := mkArr [2; 3; 2] [1; 2; 3; 4; 5; 6; 11; 12; 13; 14; 15; 16]%R.
Definition pb_P : arr R := mkArr [2; 3] [1; 1; 1; 2; 3; 4]%R.
Definition pb_opt : results := MkResults 2 pb_coords [("X", (["i"; "r"], pb_X)); ("P", (["i"], pb_P))].
Definition pb_idata : dict results := [("optimizer", pb_opt)].
Definition pb_sector : dict (dict string) := [("i", [("wheat", "farm"); ("steel", "industry"); ("cars", "industry")])].

Lemma pb_distinct (l : list string) : (if list_eq_dec string_dec (nodup string_dec l) l then true else false) = true -> NoDup l.
Proof. destruct (list_eq_dec string_dec (nodup string_dec l) l) as [<-|]; [intros _; apply NoDup_nodup | discriminate]. Qed.
Lemma pb_X_ok : array_of pb_coords 2 ["i"; "r"] pb_X.
Proof.
  split; [now apply pb_distinct|]. split; [reflexivity|]. exists [3; 2]. split; [reflexivity|].
  constructor; [|constructor; [|constructor]]; (eexists; split; [reflexivity|]; split; [reflexivity|]; split; [now apply pb_distinct | discriminate]).
Qed.
Lemma pb_P_ok : array_of pb_coords 2 ["i"] pb_P.
Proof.
  split; [now apply pb_distinct|]. split; [reflexivity|]. exists [3]. split; [reflexivity|].
  constructor; [|constructor]; (eexists; split; [reflexivity|]; split; [reflexivity|]; split; [now apply pb_distinct | discriminate]).
Qed.

Theorem c97_bars :
  forall idata g names sel gd n_cols metric threshold,
    n_cols <> 0 -> names <> nil -> In metric metrics ->
    (dget "optimizer"%string idata = Some g \/ (dget "optimizer"%string idata = None /\ dget "euler"%string idata = Some g)) ->
    0 < r_steps g -> NoDup (dkeys sel) ->
    (forall v, In v names -> exists dims a, dget v (r_variables g) = Some (dims, a) /\ array_of (r_coords g) (r_steps g) dims a /\
       selects (r_coords g) sel dims /\ drawable sel dims /\ has_groups (r_coords g) sel gd dims) ->
    (forall d, In d (dkeys sel) -> exists v dims a, In v names /\ dget v (r_variables g) = Some (dims, a) /\ In d dims) ->
    exists axes places,
      plot_bar idata names gd sel n_cols metric threshold = Ok axes /\
      prepare_gridspec_figure (Nat.min n_cols (length names)) (length names) = Ok places /\
      length axes = length names /\
      forall i v dims a, nth_error names i = Some v -> dget v (r_variables g) = Some (dims, a) -> exists ax after before,
        nth_error axes i = Some ax /\ b_title ax = v /\ nth_error (snd places) i = Some (b_place ax) /\
        bars_of (r_coords g) sel gd (r_steps g) dims a (b_labels ax) after before /\
        drawn threshold after before metric (b_bars ax).
Proof. exact @c97_bars__p. Qed.
Print Assumptions c97_bars.
(** The trade of the south, by sector: the change of the totals from the first step to the last. *)
Lemma pb_south_ok : selects pb_coords [("r", ["south"])] ["i"; "r"] /\ drawable [("r", ["south"])] ["i"; "r"] /\ has_groups pb_coords [("r", ["south"])] (Some pb_sector) ["i"; "r"].
Proof.
  split; [|split].
  - intros d ls I E. cbn in E. destruct (String.eqb_spec d "r") as [->|]; [|discriminate]. injection E as <-.
    split; [discriminate|]. split; [now apply pb_distinct|]. eexists. split; [reflexivity|]. cbn. tauto.
  - split; [discriminate|]. intros d l E. cbn in E. destruct (String.eqb_spec d "r") as [->|]; [cbn; tauto | discriminate].
  - intros d cd E. cbn in E. injection E as <- <-. cbn. tauto.
Qed.
Example c97_bars_ex : exists ax, plot_bar pb_idata ["X"] (Some pb_sector) [("r", ["south"])] 3 "change" 0%R = Ok [ax] /\
  b_title ax = "X" /\ b_labels ax = [["farm"]; ["industry"]] /\
  b_bars ax = Bars [12 + 0 - (2 + 0); 14 + (16 + 0) - (4 + (6 + 0))]%R /\
  exists after before, bars_of pb_coords [("r", ["south"])] (Some pb_sector) 2 ["i"; "r"] pb_X (b_labels ax) after before /\ drawn 0%R after before "change" (b_bars ax).
Proof.
  destruct pb_south_ok as (S & D & H).
  destruct (@c97_bars pb_idata pb_opt ["X"] [("r", ["south"])] (Some pb_sector) 3 "change" 0%R) as (axes & places & E & G & L & N).
  - discriminate.
  - discriminate.
  - cbn; tauto.
  - now left.
  - cbn; lia.
  - now apply pb_distinct.
  - intros v [<-|[]]. exists ["i"; "r"], pb_X. split; [reflexivity|]. split; [exact pb_X_ok|]. auto.
  - intros d [<-|[]]. exists "X", ["i"; "r"], pb_X. cbn; tauto.
  - destruct (N 0 "X" ["i"; "r"] pb_X eq_refl eq_refl) as (ax & after & before & Nx & T & _ & B & W).
    destruct axes as [|ax' [|]]; try discriminate. injection Nx as ->. exists ax. split; [exact E|]. split; [exact T|].
    cbn in E. injection E as <-. split; [reflexivity|]. split; [reflexivity|]. eauto.
Qed.
(** Without groups: the goods traded by the south, wheat and cars only. *)
Example c97_bars_plain_ex : exists ax, plot_bar pb_idata ["X"] None [("r", ["south"]); ("i", ["cars"; "wheat"])] 3 "both" 0%R = Ok [ax] /\
  b_labels ax = [["cars"]; ["wheat"]] /\ b_bars ax = Joined [16; 12]%R [6; 2]%R.
Proof. eexists. split; [reflexivity|]. split; reflexivity. Qed.
(** With all labels: a bar for every good and region. *)
Example c97_bars_all_ex : exists ax, plot_bar pb_idata ["X"] (Some pb_sector) [] 3 "final" 0%R = Ok [ax] /\
  b_labels ax = [["wheat"; "north"]; ["wheat"; "south"]; ["steel"; "north"]; ["steel"; "south"]; ["cars"; "north"]; ["cars"; "south"]] /\
  b_bars ax = Bars [11; 12; 13; 14; 15; 16]%R.
Proof. eexists. split; [reflexivity|]. split; reflexivity. Qed.

Theorem c97_missing_dim_refuted :
  forall idata g v w sel gd n_cols metric threshold d l dims a,
    n_cols <> 0 -> (dget "optimizer"%string idata = Some g \/ (dget "optimizer"%string idata = None /\ dget "euler"%string idata = Some g)) ->
    0 < r_steps g -> sel = (d, l :: nil) :: nil -> dget v (r_variables g) = Some (dims, a) -> array_of (r_coords g) (r_steps g) dims a ->
    selects (r_coords g) sel dims -> ~ In d dims -> In w (dkeys (r_variables g)) ->
    plot_bar idata (v :: w :: nil) gd sel n_cols metric threshold = Err KeyError.
Proof. exact @c97_missing_dim_refuted__p. Qed.
Print Assumptions c97_missing_dim_refuted.
(** Prices do not depend on the region. *)
Example c97_missing_dim_refuted_ex : plot_bar pb_idata ["P"; "X"] None [("r", ["south"])] 3 "change" 0%R = Err KeyError.
Proof.
  apply (@c97_missing_dim_refuted pb_idata pb_opt "P" "X" [("r", ["south"])] None 3 "change" 0%R "r" "south" ["i"] pb_P).
  - discriminate.
  - now left.
  - cbn; lia.
  - reflexivity.
  - reflexivity.
  - exact pb_P_ok.
  - intros d ls [<-|[]] E. discriminate.
  - intros [H|[]]. discriminate.
  - cbn; tauto.
Qed.

Theorem c97_all_selected_refuted :
  forall idata g v sel gd n_cols metric threshold d l a,
    n_cols <> 0 -> (dget "optimizer"%string idata = Some g \/ (dget "optimizer"%string idata = None /\ dget "euler"%string idata = Some g)) ->
    0 < r_steps g -> sel = (d, l :: nil) :: nil -> dget v (r_variables g) = Some (d :: nil, a) -> array_of (r_coords g) (r_steps g) (d :: nil) a ->
    selects (r_coords g) sel (d :: nil) ->
    plot_bar idata (v :: nil) gd sel n_cols metric threshold = Err AttributeError.
Proof. exact @c97_all_selected_refuted__p. Qed.
Print Assumptions c97_all_selected_refuted.
(** The price of wheat alone. *)
Example c97_all_selected_refuted_ex : plot_bar pb_idata ["P"] None [("i", ["wheat"])] 3 "change" 0%R = Err AttributeError.
Proof.
  apply (@c97_all_selected_refuted pb_idata pb_opt "P" [("i", ["wheat"])] None 3 "change" 0%R "i" "wheat" pb_P).
  - discriminate.
  - now left.
  - cbn; lia.
  - reflexivity.
  - reflexivity.
  - exact pb_P_ok.
  - intros d ls [<-|[]] E. cbn in E. injection E as <-. split; [discriminate|]. split; [now apply pb_distinct|]. eexists. split; [reflexivity|]. cbn. tauto.
Qed.
