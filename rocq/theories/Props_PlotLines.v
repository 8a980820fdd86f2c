(** C91: the data of the plots. *)
From Coq Require Import Reals Lra.
From Verif Require Import Py PyStr NdArray M_Newton M_Plotting M_PlotLines S_PlotLines L_PlotLines.
Local Open Scope string_scope.
Local Open Scope list_scope.

(** Two prices and an income, over three steps and over two. *)
Definition pl_euler : group := MkGroup [0; 1; 2]%R [("P", mkArr [3; 2] [1; 2; 3; 4; 5; 6]%R); ("Y", mkArr [3] [7; 8; 9]%R)].
Definition pl_opt : group := MkGroup [0; 1]%R [("P", mkArr [2; 2] [1; 2; 5; 7]%R); ("Y", mkArr [2] [7; 10]%R)].
Definition pl_idata : dict group := [("euler", pl_euler); ("optimizer", pl_opt)].

Lemma pl_euler_ok : group_ok pl_euler.
Proof.
  split; [discriminate|]. intros v a H. cbn [dget pl_euler g_variables] in H.
  destruct (String.eqb v "P"); [injection H as <-; split; [reflexivity|now exists [2]]|].
  destruct (String.eqb v "Y"); [injection H as <-; split; [reflexivity|now exists []]|discriminate].
Qed.
Lemma pl_opt_ok : group_ok pl_opt.
Proof.
  split; [discriminate|]. intros v a H. cbn [dget pl_opt g_variables] in H.
  destruct (String.eqb v "P"); [injection H as <-; split; [reflexivity|now exists [2]]|].
  destruct (String.eqb v "Y"); [injection H as <-; split; [reflexivity|now exists []]|discriminate].
Qed.

Theorem c91_lines :
  forall idata names n_cols vs initial_values (pe po : bool) rename legends chosen,
    n_cols <> 0 -> chosen = match vs with Some l => l | None => names end -> chosen <> nil ->
    (pe = true -> exists g, dget "euler"%string idata = Some g /\ group_ok g /\ forall v, In v chosen -> In v (dkeys (g_variables g))) ->
    (po = true -> exists g, dget "optimizer"%string idata = Some g /\ group_ok g /\ forall v, In v chosen -> In v (dkeys (g_variables g))) ->
    exists axes places,
      plot_lines idata names n_cols vs initial_values pe po rename legends = Ok axes /\
      prepare_gridspec_figure (Nat.min n_cols (length chosen)) (length chosen) = Ok places /\
      length axes = length chosen /\
      forall i v, nth_error chosen i = Some v -> exists ax, nth_error axes i = Some ax /\
        nth_error (snd places) i = Some (ax_place ax) /\
        ax_title ax = match dget v rename with Some t => t | None => v end /\
        (forall g, pe = true -> dget "euler"%string idata = Some g -> traces g v (ax_lines ax) /\
           ax_legend ax = Some match legends with NoLegends => false | AllLegends b => b | SomeLegends l => if in_dec string_dec v l then true else false end) /\
        (forall g, po = true -> dget "optimizer"%string idata = Some g -> marks g v 0 0%R (ax_start ax) /\
           exists T, marks g v (length (g_step g) - 1) T (ax_end ax) /\ (pe = false -> T = 1%R) /\
             (forall e, pe = true -> dget "euler"%string idata = Some e -> greatest e T)) /\
        (pe = false -> ax_lines ax = nil) /\ (po = false -> ax_start ax = nil /\ ax_end ax = nil).
Proof. exact @c91_lines__p. Qed.
Print Assumptions c91_lines.
Example c91_lines_ex : exists axes p y T,
  plot_lines pl_idata ["P"; "Y"] 5 None None true true [("Y", "Income")] (SomeLegends ["P"]) = Ok axes /\ axes = [p; y] /\
  ax_lines p = [[(0, 1); (1, 3); (2, 5)]; [(0, 2); (1, 4); (2, 6)]]%R /\ ax_start p = [(0, 1); (0, 2)]%R /\ ax_end p = [(T, 5); (T, 7)]%R /\
  ax_legend p = Some true /\ ax_legend y = Some false /\ ax_title y = "Income" /\ T = 2%R /\ traces pl_euler "P" (ax_lines p).
Proof.
  destruct (@c91_lines pl_idata ["P"; "Y"] 5 None None true true [("Y", "Income")] (SomeLegends ["P"]) ["P"; "Y"]) as (axes & places & E & _ & _ & N).
  - discriminate.
  - reflexivity.
  - discriminate.
  - intros _. exists pl_euler. split; [reflexivity|]. split; [exact pl_euler_ok|]. intros v [<-|[<-|[]]]; cbn; tauto.
  - intros _. exists pl_opt. split; [reflexivity|]. split; [exact pl_opt_ok|]. intros v [<-|[<-|[]]]; cbn; tauto.
  - destruct (N 0 "P" eq_refl) as (p & Np & _ & _ & A & _). pose proof (proj1 (A pl_euler eq_refl eq_refl)) as Tr.
    exists axes. cbn -[Rmax Rmult] in E. injection E as <-. cbn in Np. injection Np as <-.
    do 3 eexists. split; [reflexivity|]. split; [reflexivity|]. cbn [ax_lines ax_start ax_end ax_legend ax_title].
    split; [reflexivity|]. split; [reflexivity|]. split; [reflexivity|]. split; [reflexivity|]. split; [reflexivity|]. split; [reflexivity|].
    split; [|exact Tr]. rewrite (Rmax_right 0 1) by lra. rewrite Rmax_right by lra. lra.
Qed.

Theorem c91_missing_group :
  forall idata names n_cols vs initial_values (pe po : bool) rename legends,
    (pe = true /\ dget "euler"%string idata = None) \/ (po = true /\ dget "optimizer"%string idata = None) ->
    plot_lines idata names n_cols vs initial_values pe po rename legends = Err ValueError.
Proof. exact @c91_missing_group__p. Qed.
Print Assumptions c91_missing_group.
Example c91_missing_group_ex : plot_lines [("euler", pl_euler)] ["P"] 5 None None true true [] NoLegends = Err ValueError.
Proof. apply c91_missing_group. right. split; reflexivity. Qed.

Theorem c91_initial_refuted :
  forall idata names n_cols vs (i1 i2 : option (dict (arr R))) (pe po : bool) rename legends,
    plot_lines idata names n_cols vs i1 pe po rename legends = plot_lines idata names n_cols vs i2 pe po rename legends.
Proof. exact @c91_initial_refuted__p. Qed.
Print Assumptions c91_initial_refuted.
(** Other initial prices leave the plot as it is. *)
Example c91_initial_refuted_ex : exists axes, plot_lines pl_idata ["P"] 5 None (Some [("P", mkArr [2] [100; 200]%R)]) false true [] NoLegends = Ok axes /\
  plot_lines pl_idata ["P"] 5 None None false true [] NoLegends = Ok axes /\ map ax_start axes = [[(0, 1); (0, 2)]]%R.
Proof.
  eexists. split; [rewrite (@c91_initial_refuted pl_idata ["P"] 5 None _ None false true [] NoLegends); reflexivity|]. split; reflexivity.
Qed.

Theorem c91_no_variables_refuted :
  forall idata names n_cols initial_values rename legends,
    plot_lines idata names n_cols (Some nil) initial_values false false rename legends = Err ZeroDivisionError.
Proof. exact @c91_no_variables_refuted__p. Qed.
Print Assumptions c91_no_variables_refuted.
Example c91_no_variables_refuted_ex : plot_lines pl_idata ["P"] 5 (Some []) None false false [] NoLegends = Err ZeroDivisionError.
Proof. apply c91_no_variables_refuted. Qed.

Theorem c91_bars :
  forall idata l n_cols metric threshold g,
    n_cols <> 0 -> l <> nil ->
    In metric ("pct_change" :: "change" :: "abs_change" :: "final" :: "initial" :: "both" :: nil)%string ->
    (dget "optimizer"%string idata = Some g \/ (dget "optimizer"%string idata = None /\ dget "euler"%string idata = Some g)) ->
    group_ok g ->
    (forall v, In v l -> exists a n m shape, dget v (g_variables g) = Some a /\ ashape a = n :: m :: shape) ->
    exists panels places,
      plot_bar idata (Some l) None n_cols metric threshold = Ok panels /\
      prepare_gridspec_figure (Nat.min n_cols (length l)) (length l) = Ok places /\
      length panels = length l /\
      forall i v, nth_error l i = Some v -> exists place b after before,
        nth_error panels i = Some (v, place, b) /\ nth_error (snd places) i = Some place /\
        listed g v (length (g_step g) - 1) after /\ listed g v 0 before /\
        compute_bar_data after before metric threshold = Ok b.
Proof. exact @c91_bars__p. Qed.
Print Assumptions c91_bars.
Example c91_bars_ex : exists panels, plot_bar pl_idata (Some ["P"]) None 3 "change" 0%R = Ok panels /\
  map (fun p => (fst (fst p), snd p)) panels = [("P", Bars [5 - 1; 7 - 2]%R)].
Proof.
  destruct (@c91_bars pl_idata ["P"] 3 "change" 0%R pl_opt) as (panels & places & E & _).
  - discriminate.
  - discriminate.
  - right. now left.
  - now left.
  - exact pl_opt_ok.
  - intros v [<-|[]]. exists (mkArr [2; 2] [1; 2; 5; 7]%R), 2, 2, []. split; reflexivity.
  - exists panels. split; [exact E|]. cbn in E. injection E as <-. reflexivity.
Qed.

Theorem c91_bars_all_refuted :
  forall idata n_cols metric threshold g, (dget "optimizer"%string idata = Some g \/ dget "euler"%string idata = Some g) ->
    plot_bar idata None None n_cols metric threshold = Err KeyError.
Proof. exact @c91_bars_all_refuted__p. Qed.
Print Assumptions c91_bars_all_refuted.
Example c91_bars_all_refuted_ex : plot_bar pl_idata None None 3 "change" 0%R = Err KeyError.
Proof. apply (@c91_bars_all_refuted pl_idata 3 "change" 0%R pl_opt). now left. Qed.

Theorem c91_bars_scalar_refuted :
  forall idata v n_cols metric threshold g a n,
    dget "optimizer"%string idata = Some g -> group_ok g -> dget v (g_variables g) = Some a -> ashape a = n :: nil ->
    n_cols <> 0 -> plot_bar idata (Some (v :: nil)) None n_cols metric threshold = Err AttributeError.
Proof. exact @c91_bars_scalar_refuted__p. Qed.
Print Assumptions c91_bars_scalar_refuted.
Example c91_bars_scalar_refuted_ex : plot_bar pl_idata (Some ["Y"]) None 3 "change" 0%R = Err AttributeError.
Proof. apply (@c91_bars_scalar_refuted pl_idata "Y" 3 "change" 0%R pl_opt (mkArr [2] [7; 10]%R) 2); first [reflexivity|exact pl_opt_ok|discriminate]. Qed.
