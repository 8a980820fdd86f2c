(** Proofs of C91. *)
From Coq Require Import Reals Lra.
From Verif Require Import Py PyStr NdArray M_Newton M_Plotting M_PlotLines S_PlotLines L_Plotting.
Local Open Scope string_scope.
Local Open Scope list_scope.

Lemma nth_error_slice {V} (x : list V) a n j : j < n -> nth_error (slice x a n) j = nth_error x (a + j).
Proof.
  intros H. unfold slice.
  assert (F : forall (l : list V) n j, j < n -> nth_error (firstn n l) j = nth_error l j).
  { clear. induction l as [|y l IH]; intros n j H; [now destruct n, j|]. destruct n; [lia|]. destruct j; [reflexivity|]. cbn. apply IH. lia. }
  rewrite F by exact H. clear F H. revert x. induction a as [|a IH]; intros x; [reflexivity|].
  destruct x; cbn; [now destruct j|apply IH].
Qed.

Lemma nth_error_seq_lt n k : k < n -> nth_error (seq 0 n) k = Some k.
Proof. intros H. rewrite nth_error_nth' with (d := 0) by (now rewrite seq_length). now rewrite seq_nth. Qed.

Section Group.
Variables (g : group) (v : string) (a : arr R) (shape : list nat).
Hypotheses (Ha : dget v (g_variables g) = Some a) (W : arr_wf a) (S : ashape a = length (g_step g) :: shape).

Lemma n_lines_shape : n_lines a = prodn shape.
Proof. unfold n_lines. now rewrite S. Qed.

Lemma data_length : length (adata a) = length (g_step g) * prodn shape.
Proof. unfold arr_wf in W. rewrite W, S. reflexivity. Qed.

Lemma position_inv idx j : position g v idx j -> in_range shape idx /\ offset shape idx = j.
Proof.
  intros (a' & n & s & Ga & Sa & N). rewrite Ha in Ga. injection Ga as <-. rewrite S in Sa. injection Sa as _ <-.
  now apply offset_nth_ndindex.
Qed.

Lemma value_nth idx j k : in_range shape idx -> offset shape idx = j -> k < length (g_step g) ->
  exists x, nth_error (adata a) (k * prodn shape + j) = Some x /\ value_at g v k idx x.
Proof.
  intros Hi Hj Hk. pose proof (offset_lt Hi) as L.
  destruct (nth_error (adata a) (k * prodn shape + j)) as [x|] eqn:E.
  - exists x. split; auto. exists a. split; auto. unfold aget. rewrite S.
    rewrite (proj2 (in_rangeb_spec _ _)) by (constructor; auto). cbn [offset]. now rewrite Hj, E.
  - exfalso. apply nth_error_None in E. rewrite data_length in E. subst j. nia.
Qed.

Lemma at_step_listed k : k < length (g_step g) -> listed g v k (at_step a k).
Proof.
  intros Hk. unfold at_step. rewrite n_lines_shape. split.
  - exists a, (length (g_step g)), shape. split; auto. split; auto. apply slice_length. rewrite data_length. nia.
  - intros idx j P. apply position_inv in P as [Hi Hj]. pose proof (offset_lt Hi) as L.
    destruct (value_nth Hi Hj Hk) as (x & N & V). exists x. split; auto.
    rewrite nth_error_slice by lia. exact N.
Qed.

Lemma lines_trace : traces g v (lines_of g a).
Proof.
  unfold lines_of. rewrite n_lines_shape. split.
  - exists a, (length (g_step g)), shape. rewrite map_length, seq_length. auto.
  - intros idx j P. apply position_inv in P as [Hi Hj]. pose proof (offset_lt Hi) as L. rewrite Hj in L.
    eexists. rewrite nth_error_map, (nth_error_seq_lt L). split; [reflexivity|]. split.
    + rewrite combine_length, map_length, seq_length. lia.
    + intros k t Ht. assert (Hk : k < length (g_step g)) by (apply nth_error_Some; congruence).
      destruct (value_nth Hi Hj Hk) as (x & N & V). exists x. split; auto.
      assert (C : forall (l1 : list R) (l2 : list R) k t x, nth_error l1 k = Some t -> nth_error l2 k = Some x -> nth_error (combine l1 l2) k = Some (t, x)).
      { clear. induction l1 as [|y l1 IH]; intros [|z l2] [|k] t x A B; cbn in *; try discriminate; [congruence|auto]. }
      apply C; auto. rewrite nth_error_map, (nth_error_seq_lt Hk). cbn. f_equal. now apply nth_error_nth.
Qed.
End Group.

Lemma fold_max l x : In (fold_left Rmax l x) (x :: l) /\ forall t, In t (x :: l) -> (t <= fold_left Rmax l x)%R.
Proof.
  revert x. induction l as [|y l IH]; intros x; cbn [fold_left].
  - split; [now left|]. intros t [<-|[]]. lra.
  - destruct (IH (Rmax x y)) as [I U]. split.
    + destruct I as [I|I]; [|right; now right]. rewrite <- I. unfold Rmax. destruct (Rle_dec x y); [right; now left|now left].
    + intros t [<-|[<-|H]].
      * eapply Rle_trans; [apply (Rmax_l x y)|]. apply U. now left.
      * eapply Rle_trans; [apply (Rmax_r x y)|]. apply U. now left.
      * apply U. now right.
Qed.

Lemma max_step_greatest g : g_step g <> [] -> exists T, max_step g = Ok T /\ greatest g T.
Proof.
  unfold max_step, greatest. destruct (g_step g) as [|x l]; [tauto|]. intros _. eexists. split; [reflexivity|]. apply fold_max.
Qed.

Lemma known_array g v : group_ok g -> In v (dkeys (g_variables g)) ->
  exists a shape, dget v (g_variables g) = Some a /\ arr_wf a /\ ashape a = length (g_step g) :: shape.
Proof.
  intros (_ & G) H. apply dget_Some_key in H as (a & Ha). destruct (G v a Ha) as (W & shape & S). eauto.
Qed.

Definition asked_ok (wanted : bool) (name : string) (idata : dict group) (vs : list string) : Prop :=
  wanted = true -> exists g, dget name idata = Some g /\ group_ok g /\ forall v, In v vs -> In v (dkeys (g_variables g)).

Lemma asked_group_ok wanted name idata vs :
  asked_ok wanted name idata vs ->
  exists o, asked_group wanted name idata = Ok o /\
    match o with
    | Some g => wanted = true /\ dget name idata = Some g /\ group_ok g /\ forall v, In v vs -> In v (dkeys (g_variables g))
    | None => wanted = false
    end.
Proof.
  intros H. unfold asked_group. destruct wanted; [|eexists; split; reflexivity].
  destruct (H eq_refl) as (g & E & K). rewrite E. eexists. split; [reflexivity|]. cbn. tauto.
Qed.

Definition axis_ok (idata : dict group) (rename : dict string) (legends : legends_arg) (pe po : bool) (v : string) (ax : axis) : Prop :=
  ax_title ax = match dget v rename with Some t => t | None => v end /\
  (forall g, pe = true -> dget "euler" idata = Some g -> traces g v (ax_lines ax) /\ ax_legend ax = Some (legend_of legends v)) /\
  (forall g, po = true -> dget "optimizer" idata = Some g -> marks g v 0 0%R (ax_start ax) /\
     exists T, marks g v (length (g_step g) - 1) T (ax_end ax) /\ (pe = false -> T = 1%R) /\
       (forall e, pe = true -> dget "euler" idata = Some e -> greatest e T)) /\
  (pe = false -> ax_lines ax = []) /\ (po = false -> ax_start ax = [] /\ ax_end ax = []).

Lemma plot_one_ok idata rename legends (pe po : bool) (euler optimizer : option group) v place :
  match euler with
  | Some g => pe = true /\ dget "euler" idata = Some g /\ group_ok g /\ In v (dkeys (g_variables g))
  | None => pe = false
  end ->
  match optimizer with
  | Some g => po = true /\ dget "optimizer" idata = Some g /\ group_ok g /\ In v (dkeys (g_variables g))
  | None => po = false
  end ->
  exists ax, plot_one euler optimizer rename legends v place = Ok ax /\ ax_place ax = place /\ axis_ok idata rename legends pe po v ax.
Proof.
  intros HE HO.
  assert (EL : exists lines, match euler with
                | None => Ok ([], None)
                | Some g => let* a := dgetitem v (g_variables g) in Ok (lines_of g a, Some (legend_of legends v))
                end = Ok lines /\
               (forall g, pe = true -> dget "euler" idata = Some g -> traces g v (fst lines) /\ snd lines = Some (legend_of legends v)) /\
               (pe = false -> fst lines = [])).
  { destruct euler as [g|].
    - destruct HE as (-> & Eg & Gok & Hv). destruct (known_array v Gok Hv) as (a & shape & Ha & W & S).
      unfold dgetitem. rewrite Ha. cbn [bind]. eexists. split; [reflexivity|]. cbn [fst snd]. split; [|discriminate].
      intros g' _ E'. rewrite Eg in E'. injection E' as <-. split; auto. exact (@lines_trace g v a shape Ha W S).
    - subst pe. eexists. split; [reflexivity|]. split; [discriminate|reflexivity]. }
  assert (EO : exists stars, match optimizer with
                | None => Ok ([], [])
                | Some g =>
                    let* a := dgetitem v (g_variables g) in
                    let* initial := first_step g a in
                    let* final := last_step g a in
                    let* T := match euler with None => Ok 1%R | Some e => let* m := max_step e in Ok (1 * m)%R end in
                    Ok (map (fun v => (0%R, v)) initial, map (fun v => (T, v)) final)
                end = Ok stars /\
               (forall g, po = true -> dget "optimizer" idata = Some g -> marks g v 0 0%R (fst stars) /\
                  exists T, marks g v (length (g_step g) - 1) T (snd stars) /\ (pe = false -> T = 1%R) /\
                    (forall e, pe = true -> dget "euler" idata = Some e -> greatest e T)) /\
               (po = false -> fst stars = [] /\ snd stars = [])).
  { destruct optimizer as [g|].
    - destruct HO as (-> & Eg & Gok & Hv). destruct (known_array v Gok Hv) as (a & shape & Ha & W & S).
      assert (Ns : g_step g <> []) by apply Gok.
      unfold dgetitem. rewrite Ha. cbn [bind].
      assert (F : first_step g a = Ok (at_step a 0)) by (unfold first_step; destruct (g_step g); [tauto|reflexivity]).
      assert (F' : last_step g a = Ok (at_step a (length (g_step g) - 1))) by (unfold last_step; destruct (g_step g); [tauto|reflexivity]).
      rewrite F, F'. cbn [bind].
      assert (ET : exists T, match euler with None => Ok 1%R | Some e => let* m := max_step e in Ok (1 * m)%R end = Ok T /\
         (pe = false -> T = 1%R) /\ (forall e, pe = true -> dget "euler" idata = Some e -> greatest e T)).
      { destruct euler as [e|].
        - destruct HE as (-> & Ee & Eok & _). destruct (max_step_greatest e) as (T & M & Gr); [apply Eok|].
          rewrite M. cbn [bind]. exists (1 * T)%R. split; auto. split; [discriminate|].
          intros e' _ E'. rewrite Ee in E'. injection E' as <-. now rewrite Rmult_1_l.
        - subst pe. exists 1%R. split; auto. split; [auto|discriminate]. }
      destruct ET as (T & ET & T1 & T2). rewrite ET. cbn [bind]. eexists. split; [reflexivity|]. cbn [fst snd].
      split; [|discriminate]. intros g' _ E'. rewrite Eg in E'. injection E' as <-.
      assert (L0 : 0 < length (g_step g)) by (destruct (g_step g); [tauto|cbn; lia]).
      split.
      + exists (at_step a 0). split; [|reflexivity]. apply (@at_step_listed g v a _ Ha W S). exact L0.
      + exists T. split; [|auto]. exists (at_step a (length (g_step g) - 1)). split; [|reflexivity].
        apply (@at_step_listed g v a _ Ha W S). lia.
    - subst po. eexists. split; [reflexivity|]. split; [discriminate|]. auto. }
  destruct EL as (lines & EL & L1 & L2). destruct EO as (stars & EO & O1 & O2).
  unfold plot_one. rewrite EL. cbn [bind]. rewrite EO. cbn [bind]. eexists. split; [reflexivity|].
  split; [reflexivity|]. unfold axis_ok. cbn [ax_title ax_lines ax_legend ax_start ax_end]. auto.
Qed.

Lemma map_res_combine {A B C} (f : A * B -> res C) (P : A -> B -> C -> Prop) l1 : forall l2,
  length l2 = length l1 ->
  (forall x y, In x l1 -> exists z, f (x, y) = Ok z /\ P x y z) ->
  exists out, map_res f (combine l1 l2) = Ok out /\ length out = length l1 /\
    forall i x, nth_error l1 i = Some x -> exists y z, nth_error l2 i = Some y /\ nth_error out i = Some z /\ P x y z.
Proof.
  induction l1 as [|x l1 IH]; intros [|y l2] L H; try discriminate.
  - exists []. split; [reflexivity|]. split; [reflexivity|]. intros [|i] x Hx; discriminate.
  - cbn in L. injection L as L. destruct (IH l2 L) as (out & E & Lo & N); [intros; apply H; now right|].
    destruct (H x y) as (z & Ez & Pz); [now left|].
    exists (z :: out). cbn [combine map_res]. rewrite Ez. cbn [bind]. rewrite E. cbn [bind]. split; [reflexivity|].
    split; [cbn; congruence|]. intros [|i] x' Hx; cbn in Hx.
    + injection Hx as <-. exists y, z. auto.
    + destruct (N i x' Hx) as (y' & z' & ? & ? & ?). exists y', z'. auto.
Qed.

Lemma c91_lines__p :
  forall idata names n_cols vs initial_values (pe po : bool) rename legends chosen,
    n_cols <> 0 -> chosen = match vs with Some l => l | None => names end -> chosen <> nil ->
    (pe = true -> exists g, dget "euler"%string idata = Some g /\ group_ok g /\ forall v, In v chosen -> In v (dkeys (g_variables g))) ->
    (po = true -> exists g, dget "optimizer"%string idata = Some g /\ group_ok g /\ forall v, In v chosen -> In v (dkeys (g_variables g))) ->
    exists axes places,
      plot_lines idata names n_cols vs initial_values pe po rename legends = Ok axes /\
      prepare_gridspec_figure (Nat.min n_cols (length chosen)) (length chosen) = Ok places /\
      length axes = length chosen /\
      forall i v, nth_error chosen i = Some v -> exists ax, nth_error axes i = Some ax /\
        nth_error (snd places) i = Some (ax_place ax) /\
        ax_title ax = match dget v rename with Some t => t | None => v end /\
        (forall g, pe = true -> dget "euler"%string idata = Some g -> traces g v (ax_lines ax) /\
           ax_legend ax = Some match legends with NoLegends => false | AllLegends b => b | SomeLegends l => if in_dec string_dec v l then true else false end) /\
        (forall g, po = true -> dget "optimizer"%string idata = Some g -> marks g v 0 0%R (ax_start ax) /\
           exists T, marks g v (length (g_step g) - 1) T (ax_end ax) /\ (pe = false -> T = 1%R) /\
             (forall e, pe = true -> dget "euler"%string idata = Some e -> greatest e T)) /\
        (pe = false -> ax_lines ax = nil) /\ (po = false -> ax_start ax = nil /\ ax_end ax = nil).
Proof.
  intros idata names n_cols vs iv pe po rename legends chosen Hn Hc Hne HE HO.
  destruct (@asked_group_ok pe "euler" idata chosen HE) as (euler & Ee & Ke).
  destruct (@asked_group_ok po "optimizer" idata chosen HO) as (optimizer & Eo & Ko).
  assert (Lc : 1 <= length chosen) by (destruct chosen; [tauto|cbn; lia]).
  destruct (@c65_grid__p (Nat.min n_cols (length chosen)) (length chosen)) as (rows & locs & G & _ & Ll & _); [lia|lia|].
  destruct (@map_res_combine string loc axis (fun p => plot_one euler optimizer rename legends (fst p) (snd p))
    (fun v place ax => ax_place ax = place /\ axis_ok idata rename legends pe po v ax) chosen locs Ll) as (axes & EA & LA & NA).
  { intros v place Hv. cbn [fst snd]. apply plot_one_ok.
    - destruct euler; [|exact Ke]. destruct Ke as (? & ? & ? & K). auto.
    - destruct optimizer; [|exact Ko]. destruct Ko as (? & ? & ? & K). auto. }
  eexists axes, _. split; [|split; [exact G|split; [exact LA|]]].
  - unfold plot_lines. rewrite <- Hc, Ee. cbn [bind]. rewrite Eo. cbn [bind]. rewrite G. cbn [bind snd]. exact EA.
  - intros i v Hv. destruct (NA i v Hv) as (place & ax & Np & Nx & <- & (A1 & A2 & A3 & A4 & A5)). exists ax.
    split; auto. split; auto. split; auto. split; [|auto].
    intros g Pe Eg. destruct (A2 g Pe Eg) as (T & L). split; auto. rewrite L. f_equal.
    unfold legend_of. destruct legends as [|b|l]; auto. destruct (in_dec string_dec v l) as [I|I].
    + now apply mem_str_In.
    + now apply mem_str_nIn.
Qed.

Lemma c91_missing_group__p :
  forall idata names n_cols vs initial_values (pe po : bool) rename legends,
    (pe = true /\ dget "euler"%string idata = None) \/ (po = true /\ dget "optimizer"%string idata = None) ->
    plot_lines idata names n_cols vs initial_values pe po rename legends = Err ValueError.
Proof.
  intros idata names n_cols vs iv pe po rename legends H. unfold plot_lines, asked_group.
  destruct H as [(-> & H)|(-> & H)]; rewrite H; [reflexivity|].
  destruct pe; [|reflexivity]. destruct (dget "euler" idata); reflexivity.
Qed.

(** The initial values that are passed are not used. *)
Lemma c91_initial_refuted__p :
  forall idata names n_cols vs (i1 i2 : option (dict (arr R))) (pe po : bool) rename legends,
    plot_lines idata names n_cols vs i1 pe po rename legends = plot_lines idata names n_cols vs i2 pe po rename legends.
Proof. reflexivity. Qed.

Lemma c91_no_variables_refuted__p :
  forall idata names n_cols initial_values rename legends,
    plot_lines idata names n_cols (Some nil) initial_values false false rename legends = Err ZeroDivisionError.
Proof. intros. unfold plot_lines. cbn. now rewrite Nat.min_0_r. Qed.

(** ** Bars *)

Lemma read_ok step k g l :
  group_ok g -> (forall a, step g a = Ok (at_step a k)) -> k < length (g_step g) ->
  (forall v, In v l -> In v (dkeys (g_variables g))) ->
  exists d, read_variables step g (Some l) = Ok d /\
    forall v, In v l -> exists a shape, dget v (g_variables g) = Some a /\ arr_wf a /\ ashape a = length (g_step g) :: shape /\
      dget v d = Some (shape, at_step a k).
Proof.
  intros G St Hk. induction l as [|v l IH]; intros H.
  - exists []. split; [reflexivity|]. intros v [].
  - destruct IH as (d & E & N); [intros; apply H; now right|].
    destruct (@known_array g v G (H v (or_introl eq_refl))) as (a & shape & Ha & W & S).
    unfold read_variables in *. cbn [map_res]. unfold dgetitem at 1. rewrite Ha. cbn [bind]. rewrite St. cbn [bind].
    rewrite E. cbn [bind]. eexists. split; [reflexivity|]. intros u [<-|Hu].
    + exists a, shape. rewrite S. cbn [tl dget]. rewrite String.eqb_refl. auto.
    + cbn [dget]. destruct (String.eqb u v) eqn:Euv.
      * apply String.eqb_eq in Euv. subst u. exists a, shape. rewrite S. auto.
      * now apply N.
Qed.

Lemma c91_bars__p :
  forall idata l n_cols metric threshold g,
    n_cols <> 0 -> l <> nil ->
    In metric ("pct_change" :: "change" :: "abs_change" :: "final" :: "initial" :: "both" :: nil)%string ->
    (dget "optimizer"%string idata = Some g \/ (dget "optimizer"%string idata = None /\ dget "euler"%string idata = Some g)) ->
    group_ok g ->
    (forall v, In v l -> exists a n m shape, dget v (g_variables g) = Some a /\ ashape a = n :: m :: shape) ->
    exists panels places,
      plot_bar idata (Some l) None n_cols metric threshold = Ok panels /\
      prepare_gridspec_figure (Nat.min n_cols (length l)) (length l) = Ok places /\
      length panels = length l /\
      forall i v, nth_error l i = Some v -> exists place b after before,
        nth_error panels i = Some (v, place, b) /\ nth_error (snd places) i = Some place /\
        listed g v (length (g_step g) - 1) after /\ listed g v 0 before /\
        compute_bar_data after before metric threshold = Ok b.
Proof.
  intros idata l n_cols metric threshold g Hn Hl Hm Hg G Hv.
  assert (Ns : g_step g <> []) by apply G.
  assert (L0 : 0 < length (g_step g)) by (destruct (g_step g); [tauto|cbn; lia]).
  assert (Hk : forall v, In v l -> In v (dkeys (g_variables g))).
  { intros v H. destruct (Hv v H) as (a & _ & _ & _ & Ha & _). apply dget_Some_key. eauto. }
  destruct (@read_ok last_step (length (g_step g) - 1) g l G) as (d & Ed & Nd); auto.
  { intros a. unfold last_step. destruct (g_step g); [tauto|reflexivity]. }
  { lia. }
  destruct (@read_ok first_step 0 g l G) as (i & Ei & Ni); auto.
  { intros a. unfold first_step. destruct (g_step g); [tauto|reflexivity]. }
  assert (BV : bar_values idata None (Some l) = Ok (d, i)).
  { unfold bar_values. destruct Hg as [Hg|[Hg Hg']].
    - rewrite Hg, Ed. cbn [bind]. rewrite Ei. cbn [bind fst snd]. destruct (dget "euler" idata); reflexivity.
    - rewrite Hg. cbn [bind fst snd]. rewrite Hg', Ed. cbn [bind]. rewrite Ei. reflexivity. }
  assert (Lc : 1 <= length l) by (destruct l; [tauto|cbn; lia]).
  destruct (@c65_grid__p (Nat.min n_cols (length l)) (length l)) as (rows & locs & GR & _ & Ll & _); [lia|lia|].
  destruct (@map_res_combine string loc (string * loc * bars)
    (fun p => let* after := dgetitem (fst p) d in
              let* before := dgetitem (fst p) i in
              let* b := plot_one_bar after before metric threshold in
              Ok (fst p, snd p, b))
    (fun v place z => exists b after before, z = (v, place, b) /\ listed g v (length (g_step g) - 1) after /\ listed g v 0 before /\
        compute_bar_data after before metric threshold = Ok b) l locs Ll) as (panels & EP & LP & NP).
  { intros v place H. cbn [fst snd]. destruct (Nd v H) as (a & shape & Ha & W & S & D).
    destruct (Ni v H) as (a' & shape' & Ha' & W' & S' & D'). rewrite Ha in Ha'. injection Ha' as <-.
    rewrite S in S'. injection S' as <-. unfold dgetitem. rewrite D, D'. cbn [bind].
    assert (A1 : listed g v (length (g_step g) - 1) (at_step a (length (g_step g) - 1))) by (apply (@at_step_listed g v a _ Ha W S); lia).
    assert (A2 : listed g v 0 (at_step a 0)) by (apply (@at_step_listed g v a _ Ha W S); lia).
    destruct (Hv v H) as (a' & n & m & sh & Ha' & Sh). rewrite Ha in Ha'. injection Ha' as <-.
    rewrite S in Sh. injection Sh as _ ->. unfold plot_one_bar. cbn [fst snd].
    assert (LL : length (at_step a (length (g_step g) - 1)) = length (at_step a 0)).
    { destruct A1 as ((x1 & n1 & s1 & X1 & Y1 & Z1) & _), A2 as ((x2 & n2 & s2 & X2 & Y2 & Z2) & _).
      rewrite X1 in X2. injection X2 as <-. rewrite Y1 in Y2. injection Y2 as _ <-. congruence. }
    assert (C : exists b, compute_bar_data (at_step a (length (g_step g) - 1)) (at_step a 0) metric threshold = Ok b).
    { unfold compute_bar_data. rewrite LL, Nat.eqb_refl. cbn [negb].
      destruct Hm as [<-|[<-|[<-|[<-|[<-|[<-|[]]]]]]]; cbn; eexists; reflexivity. }
    destruct C as (b & C). rewrite C. cbn [bind]. eexists. split; [reflexivity|]. exists b, (at_step a (length (g_step g) - 1)), (at_step a 0). auto. }
  exists panels. eexists. split; [|split; [exact GR|split; [exact LP|]]].
  - unfold plot_bar. rewrite BV. cbn [bind fst snd]. rewrite GR. cbn [bind snd]. exact EP.
  - intros k v Hk'. destruct (NP k v Hk') as (place & z & N1 & N2 & b & after & before & -> & A & B & C).
    exists place, b, after, before. auto.
Qed.

Lemma c91_bars_all_refuted__p :
  forall idata n_cols metric threshold g, (dget "optimizer"%string idata = Some g \/ dget "euler"%string idata = Some g) ->
    plot_bar idata None None n_cols metric threshold = Err KeyError.
Proof.
  intros idata n_cols metric threshold g H. unfold plot_bar, bar_values.
  destruct (dget "optimizer" idata) as [g'|]; [reflexivity|]. destruct H as [H|H]; [discriminate|]. rewrite H. reflexivity.
Qed.

Lemma c91_bars_scalar_refuted__p :
  forall idata v n_cols metric threshold g a n,
    dget "optimizer"%string idata = Some g -> group_ok g -> dget v (g_variables g) = Some a -> ashape a = n :: nil ->
    n_cols <> 0 -> plot_bar idata (Some (v :: nil)) None n_cols metric threshold = Err AttributeError.
Proof.
  intros idata v n_cols metric threshold g a n Hg (Ns & _) Ha S Hn. unfold plot_bar, bar_values. rewrite Hg.
  unfold read_variables. cbn [map_res]. unfold dgetitem. rewrite Ha. cbn [bind].
  unfold last_step, first_step. destruct (g_step g); [tauto|]. cbn [bind fst snd].
  destruct n_cols as [|n_cols]; [tauto|]. cbn [length Nat.min]. rewrite Nat.min_0_r, S. cbn [tl].
  destruct (dget "euler" idata); cbn; rewrite String.eqb_refl; reflexivity.
Qed.
