(** Lemmas for C106. *)
From Coq Require Import Reals Lra Sorting.Sorted Sorting.Permutation.
From Verif Require Import Py PyStr NdArray M_Newton M_Plotting M_Finalize M_PlotBars M_PlotGiven S_Finalize S_PlotBars S_PlotGiven L_Finalize L_NumbaModel L_Tensor L_Plotting L_PlotBars.
From Verif Require L_PlotLines.
Local Open Scope string_scope.
Local Open Scope list_scope.

(** An array without steps as one with one step *)
Definition lift (b : arr R) : arr R := mkArr (1 :: ashape b) (adata b).
Lemma aget_lift b idx : aget (lift b) (0 :: idx) = aget b idx.
Proof. unfold aget, lift, in_rangeb. cbn [ashape adata length combine forallb fst snd offset]. cbn. reflexivity. Qed.
Lemma lift_wf b : arr_wf b -> arr_wf (lift b).
Proof. unfold arr_wf, lift, prodn. cbn. intros ->. now rewrite Nat.add_0_r. Qed.

Lemma index_of_nth (l : list string) : NoDup l -> forall i x, nth_error l i = Some x -> index_of String.eqb x l = Ok i.
Proof.
  induction l as [|y l IH]; intros N [|i] x E; try discriminate; cbn in E |- *; inversion N as [|? ? N1 N2]; subst.
  - injection E as ->. now rewrite String.eqb_refl.
  - destruct (String.eqb_spec x y) as [->|D].
    + exfalso. apply N1. eapply nth_error_In, E.
    + rewrite (IH N2 i x E). reflexivity.
Qed.
Lemma positions (all : list string) : NoDup all -> forall l n pre, all = pre ++ l -> length pre = n ->
  map_res (fun l => match index_of String.eqb l all with Ok i => Ok (l, i) | Err _ => Err KeyError end) l = Ok (combine l (seq n (length l))).
Proof.
  intros N l. induction l as [|x l IH]; intros n pre E L; [reflexivity|]. cbn [map_res length seq combine].
  rewrite (@index_of_nth all N n x).
  - cbn [bind]. rewrite (IH (S n) (pre ++ [x])); [reflexivity | now rewrite <- app_assoc | rewrite app_length; cbn; lia].
  - rewrite E, nth_error_app2 by lia. now rewrite L, Nat.sub_diag.
Qed.
(** Selecting the labels that an array has changes nothing. *)
Lemma labels_at_prepared gc sel d all : dget d gc = Some all -> NoDup all -> (forall ls, dget d sel = Some ls -> ls = all) ->
  labels_at gc sel d = labels_at gc [] d.
Proof.
  intros D N S. unfold labels_at, dgetitem. rewrite D. cbn [bind]. change (dget d []) with (@None (list string)). destruct (dget d sel) as [ls|]; [|reflexivity].
  rewrite (S ls eq_refl). apply (@positions all N all 0 []); reflexivity.
Qed.

Lemma shown_ok c sel steps dims a : array_of c steps dims a -> selects c sel dims -> forall d, In d dims -> NoDup (shown c sel d) /\ shown c sel d <> [].
Proof.
  intros (_ & _ & shape & _ & F) S d I. unfold shown. destruct (dget d sel) as [ls|] eqn:E.
  - destruct (S d ls I E) as (X & Y & _). auto.
  - clear S E. induction F as [|d0 n dims shape (all & D & _ & N & Q) F IH]; [destruct I|]. destruct I as [->|I]; [rewrite D; auto | auto].
Qed.

Lemma map_res_eq {A B} (f g : A -> res B) l : (forall x, In x l -> f x = g x) -> map_res f l = map_res g l.
Proof.
  induction l as [|x l IH]; intros H; [reflexivity|]. cbn. rewrite (H x (or_introl eq_refl)), IH; [reflexivity|]. intros y I. apply H. now right.
Qed.

Section Given.
Variables (c sel gc : dict (list string)).
Hypothesis keys : NoDup (dkeys sel).
Variables (steps : nat) (dims : list string) (a b : arr R).
Hypothesis arr_a : array_of c steps dims a.
Hypothesis sel_ok : selects c sel dims.
Hypothesis prep : prepared c sel gc dims b.

Lemma prep_dget d : In d dims -> dget d gc = Some (shown c sel d).
Proof.
  destruct prep as (_ & F). clear - F. induction F as [|d0 n dims shape (D & _) F IH]; [intros []|]. intros [->|I]; auto.
Qed.
Lemma prep_shown d : In d dims -> shown gc sel d = shown c sel d.
Proof. intros I. unfold shown at 1. rewrite (@prep_dget d I). unfold shown. now destruct (dget d sel). Qed.
Lemma prep_array : array_of gc 1 dims (lift b).
Proof.
  destruct arr_a as (N & _). split; [exact N|]. split; [apply lift_wf, prep|]. exists (ashape b). split; [reflexivity|].
  pose proof (@shown_ok c sel steps dims a arr_a sel_ok) as Sh. destruct prep as (_ & F). clear - F Sh.
  induction F as [|d n dims shape (D & L) F IH]; constructor.
  - exists (shown c sel d). destruct (Sh d (or_introl eq_refl)). auto.
  - apply IH. intros d' I. apply Sh. now right.
Qed.
Lemma prep_selects : selects gc sel dims.
Proof.
  intros d ls I E. destruct (@sel_ok d ls I E) as (X & Y & _). split; [exact X|]. split; [exact Y|]. exists (shown c sel d).
  split; [now apply prep_dget|]. unfold shown. rewrite E. auto.
Qed.
Lemma given_frame_eq : given_frame gc sel (dims, b) = frame_of gc sel 0 (dims, lift b).
Proof.
  unfold given_frame, frame_of, to_dataframe. cbn [fst snd].
  rewrite (@map_res_eq _ _ (labels_at gc sel) (labels_at gc []) dims).
  - destruct (map_res (labels_at gc []) dims) as [ps|e]; [|destruct e; reflexivity]. cbn [bind].
    rewrite (@map_res_eq _ _ (fun p => let* r := aget (lift b) (0 :: map snd p) in Ok (map fst p, r)) (fun p => let* r := aget b (map snd p) in Ok (map fst p, r)) (product ps)).
    + destruct (map_res _ (product ps)) as [rows|e]; [reflexivity|destruct e; reflexivity].
    + intros p _. now rewrite aget_lift.
  - intros d I. apply (@labels_at_prepared gc sel d (shown c sel d)).
    + now apply prep_dget.
    + now apply (@shown_ok c sel steps dims a).
    + intros ls E. unfold shown. now rewrite E.
Qed.
Lemma given_spec : (forall d l, dget d sel = Some [l] -> In d dims) -> plotted sel dims <> [] ->
  exists rows, given_frame gc sel (dims, b) = Ok (MkFrame (plotted sel dims) rows) /\
    map fst rows = product (map (shown c sel) (plotted sel dims)) /\
    Forall2 (fun ls r => given_element gc dims b (bar_label c sel dims ls) r) (map fst rows) (map snd rows).
Proof.
  intros D P. rewrite given_frame_eq.
  destruct (@frame_spec gc sel keys 1 dims (lift b) 0 prep_array prep_selects ltac:(lia) D P) as (rows & E & L & V).
  exists rows. split; [exact E|]. split.
  - rewrite L. f_equal. apply map_ext_in. intros d I. apply prep_shown. unfold plotted in I. now apply filter_In in I.
  - clear L. unfold bar_values in V. clear E. revert V. generalize (map fst rows) (map snd rows). intros ls rs V.
    induction V as [|l r ls rs (idx & F & G) V IH]; constructor; [|exact IH].
    exists idx. split; [exact F|]. now rewrite aget_lift in G.
Qed.
End Given.

Lemma same_labels_refl l : same_labels l l = true.
Proof. induction l as [|x l IH]; [reflexivity|]. cbn. destruct (list_eq_dec string_dec x x); [exact IH | contradiction]. Qed.

Lemma one_given c sel gc gd steps dims a b metric threshold : NoDup (dkeys sel) -> array_of c steps dims a -> selects c sel dims -> 0 < steps -> drawable sel dims ->
  has_groups c sel gd dims -> prepared c sel gc dims b -> In metric metrics ->
  exists labels after before bs, plot_one_given c sel gd steps (dims, a) gc (dims, b) metric threshold = Ok (labels, bs) /\
    bars_against c sel gc gd steps dims a b labels after before /\ drawn threshold after before metric bs.
Proof.
  intros K A S St (P & D) G Pr M.
  destruct (@frame_spec c sel K steps dims a (steps - 1) A S ltac:(lia) D P) as (r1 & E1 & L1 & V1).
  destruct (@given_spec c sel gc K steps dims a b A S Pr D P) as (r0 & E0 & L0 & V0).
  pose proof (@rows_nonempty c sel steps dims a A S) as Ne.
  unfold plot_one_given. rewrite E1. cbn [bind]. rewrite E0. cbn [bind]. unfold grouped, grouped_with. cbn [f_levels].
  unfold has_groups in G. unfold bars_against.
  destruct (group_for gd (plotted sel dims)) as [(d, cd)|] eqn:Gf.
  - unfold group_for in Gf. destruct gd as [gd|]; [|discriminate].
    destruct (plotted sel dims) as [|d1 [|d2 rest]] eqn:Pl; try discriminate.
    destruct (dget d1 gd) as [cd1|] eqn:Dg; [|discriminate]. injection Gf as <- <-. specialize (G d1 cd1 eq_refl).
    cbn [map product] in L1, L0, Ne |- *.
    assert (Sg : flat_map (fun x : string => [[x]]) (shown c sel d1) = map (fun l => [l]) (shown c sel d1)).
    { clear. induction (shown c sel d1) as [|x l IH]; [reflexivity|]. cbn in *. now rewrite IH. }
    rewrite Sg in L1, L0, Ne |- *.
    destruct (@group_sum_spec cd1 (MkFrame [d1] r1) d1 (shown c sel d1) eq_refl L1 G) as (n1 & N1 & Q1).
    destruct (@group_sum_spec cd1 (MkFrame [d1] r0) d1 (shown c sel d1) eq_refl L0 G) as (n0 & N0 & Q0).
    assert (n0 = n1) as -> by congruence. cbn [f_rows] in Q1, Q0. rewrite Q0. cbn [bind]. rewrite Q1. cbn [bind f_rows]. rewrite !map_map. cbn [fst snd].
    rewrite same_labels_refl. cbn [negb].
    destruct (@drawn_spec (map (total cd1 (shown c sel d1) (map snd r1)) n1) (map (total cd1 (shown c sel d1) (map snd r0)) n1) metric threshold ltac:(now rewrite !map_length) M) as (bs & Eb & Db).
    exists (map (fun g => [g]) n1), (map (total cd1 (shown c sel d1) (map snd r1)) n1), (map (total cd1 (shown c sel d1) (map snd r0)) n1), bs.
    split; [|split; [|exact Db]].
    + change (fun x : string => total cd1 (shown c sel d1) (map snd r1) x) with (total cd1 (shown c sel d1) (map snd r1)).
      change (fun x : string => total cd1 (shown c sel d1) (map snd r0) x) with (total cd1 (shown c sel d1) (map snd r0)).
      rewrite Eb. cbn [bind]. destruct n1 as [|g n1]; [|reflexivity]. exfalso.
      destruct (shown c sel d1) as [|l ls]; [now apply Ne|].
      destruct (group_names_spec (map (fun l => match dget l cd1 with Some g => g | None => "" end) (l :: ls))) as (_ & X).
      rewrite N1 in X. apply (X (match dget l cd1 with Some g => g | None => "" end)). now left.
    + exists (map (fun l => [l]) (shown c sel d1)), (map snd r1), (map snd r0). rewrite L1 in V1. rewrite L0 in V0. split; [reflexivity|].
      split; [exact V1|]. split; [exact V0|]. exists n1. split; [|auto]. rewrite <- N1. now apply groups_of_names.
  - assert (Gr : match gd, plotted sel dims with
                 | Some gd, [n] => match dget n gd with Some cd => group_sum cd (MkFrame (plotted sel dims) r1) | None => Ok (MkFrame (plotted sel dims) r1) end
                 | _, _ => Ok (MkFrame (plotted sel dims) r1) end = Ok (MkFrame (plotted sel dims) r1)).
    { unfold group_for in Gf. destruct gd as [gd|]; [|reflexivity]. destruct (plotted sel dims) as [|d1 [|]]; try reflexivity.
      now destruct (dget d1 gd). }
    assert (Gi : match gd, plotted sel dims with
                 | Some gd, [n] => match dget n gd with
                                   | Some cd => match plotted sel dims with [_] => group_sum cd (MkFrame (plotted sel dims) r0) | _ => Err KeyError end
                                   | None => Ok (MkFrame (plotted sel dims) r0) end
                 | _, _ => Ok (MkFrame (plotted sel dims) r0) end = Ok (MkFrame (plotted sel dims) r0)).
    { unfold group_for in Gf. destruct gd as [gd|]; [|reflexivity]. destruct (plotted sel dims) as [|d1 [|]]; try reflexivity.
      now destruct (dget d1 gd). }
    rewrite Gi. cbn [bind]. rewrite Gr. cbn [bind f_rows]. rewrite L1, L0, same_labels_refl. cbn [negb].
    destruct (@drawn_spec (map snd r1) (map snd r0) metric threshold) as (bs & Eb & Db); [|exact M|].
    { rewrite !map_length. rewrite <- (map_length fst r1), <- (map_length fst r0). now rewrite L1, L0. }
    rewrite Eb. cbn [bind]. exists (map fst r1), (map snd r1), (map snd r0), bs. split; [|split; [|exact Db]].
    + rewrite <- L1. destruct r1; [exfalso; apply Ne; now rewrite <- L1 | reflexivity].
    + exists (map fst r1), (map snd r1), (map snd r0). split; [exact L1|]. split; [exact V1|]. split; [|auto]. rewrite L1, <- L0. exact V0.
Qed.

Lemma c106_given__p :
  forall idata init g names sel gd n_cols metric threshold,
    n_cols <> 0 -> names <> nil -> In metric metrics ->
    (dget "optimizer"%string idata = Some g \/ (dget "optimizer"%string idata = None /\ dget "euler"%string idata = Some g)) ->
    0 < r_steps g -> NoDup (dkeys sel) ->
    (forall v, In v names -> exists dims a b, dget v (r_variables g) = Some (dims, a) /\ dget v (v_values init) = Some (dims, b) /\
       array_of (r_coords g) (r_steps g) dims a /\ prepared (r_coords g) sel (v_coords init) dims b /\
       selects (r_coords g) sel dims /\ drawable sel dims /\ has_groups (r_coords g) sel gd dims) ->
    (forall d, In d (dkeys sel) -> exists v dims a, In v names /\ dget v (r_variables g) = Some (dims, a) /\ In d dims) ->
    exists axes places,
      plot_bar_given idata init names gd sel n_cols metric threshold = Ok axes /\
      prepare_gridspec_figure (Nat.min n_cols (length names)) (length names) = Ok places /\
      length axes = length names /\
      forall i v dims a b, nth_error names i = Some v -> dget v (r_variables g) = Some (dims, a) -> dget v (v_values init) = Some (dims, b) ->
        exists ax after before,
        nth_error axes i = Some ax /\ b_title ax = v /\ nth_error (snd places) i = Some (b_place ax) /\
        bars_against (r_coords g) sel (v_coords init) gd (r_steps g) dims a b (b_labels ax) after before /\
        drawn threshold after before metric (b_bars ax).
Proof.
  intros idata init g names sel gd n_cols metric threshold Hn Hl Hm Hg Hs K Hv Hd.
  set (f := fun v => dgetitem v (r_variables g)).
  destruct (@map_res_exists _ _ f names) as (xs & Ex & Fx).
  { intros v I. destruct (Hv v I) as (dims & a & b & D & _). exists (dims, a). unfold f, dgetitem. now rewrite D. }
  assert (D : forall v x, f v = Ok x -> dget v (r_variables g) = Some x) by (intros v x; unfold f, dgetitem; destruct (dget v (r_variables g)); congruence).
  assert (Lx : length (combine names xs) = length names) by (rewrite combine_length; apply Forall2_length in Fx; lia).
  assert (Lc : 1 <= length names) by (destruct names; [tauto | cbn; lia]).
  destruct (@c65_grid__p (Nat.min n_cols (length names)) (length names)) as (rows & locs & GR & _ & Ll & _); [lia | lia |].
  destruct (@L_PlotLines.map_res_combine (string * (list string * arr R)) loc bar_axis
    (fun p => let* y := dgetitem (fst (fst p)) (v_values init) in
              let* b := plot_one_given (r_coords g) sel gd (r_steps g) (snd (fst p)) (v_coords init) y metric threshold in
              Ok (MkBarAxis (fst (fst p)) (snd p) (fst b) (snd b)))
    (fun v place ax => b_title ax = fst v /\ b_place ax = place /\ exists b after before,
        dget (fst v) (v_values init) = Some (fst (snd v), b) /\
        bars_against (r_coords g) sel (v_coords init) gd (r_steps g) (fst (snd v)) (snd (snd v)) b (b_labels ax) after before /\
        drawn threshold after before metric (b_bars ax)) (combine names xs) locs ltac:(congruence)) as (axes & EA & LA & NA).
  { intros (v, (dims, a)) place I. cbn [fst snd].
    assert (Hd' : dget v (r_variables g) = Some (dims, a)).
    { apply D. clear - Fx I. induction Fx as [|v0 x0 names xs E F IH]; [destruct I|]. destruct I as [I|I]; [injection I as -> ->; exact E | auto]. }
    destruct (Hv v (in_combine_l _ _ _ _ I)) as (dims' & a' & b & D' & Db & A & Pr & S & Dr & G). rewrite Hd' in D'. injection D' as <- <-.
    destruct (@one_given (r_coords g) sel (v_coords init) gd (r_steps g) dims a b metric threshold K A S Hs Dr G Pr Hm) as (labels & after & before & bs & E & B & W).
    unfold dgetitem. rewrite Db. cbn [bind]. rewrite E. cbn [bind fst snd]. eexists. split; [reflexivity|]. cbn. split; [reflexivity|]. split; [reflexivity|]. eauto 7. }
  exists axes. eexists. split; [|split; [exact GR | split; [congruence|]]].
  - unfold plot_bar_given. replace (match dget "optimizer" idata with Some g0 => Some g0 | None => dget "euler" idata end) with (Some g) by (destruct Hg as [->|[-> ->]]; reflexivity).
    fold f. rewrite Ex. cbn [bind]. replace (Nat.eqb (r_steps g) 0) with false by (symmetry; apply Nat.eqb_neq; lia).
    replace (forallb (fun d => existsb (fun x => mem_str d (fst x)) xs) (dkeys sel)) with true.
    + cbn [negb]. rewrite GR. cbn [bind snd]. exact EA.
    + symmetry. apply forallb_forall. intros d I. destruct (Hd d I) as (v & dims & a & Iv & Dv & Id). apply existsb_exists. exists (dims, a). split.
      * clear - Fx Iv Dv D. induction Fx as [|v0 x0 names xs E F IH]; [destruct Iv|]. destruct Iv as [->|Iv]; [left | right; auto].
        apply D in E. congruence.
      * now apply mem_str_In.
  - intros i v dims a b Ni Dv Db.
    assert (Nc : nth_error (combine names xs) i = Some (v, (dims, a))).
    { clear - Fx Ni Dv D. revert i Ni. induction Fx as [|v0 x0 names xs E F IH]; intros [|i] Ni; try discriminate; cbn in *.
      - injection Ni as ->. apply D in E. congruence.
      - auto. }
    destruct (NA i _ Nc) as (place & ax & Np & Nx & T & <- & b' & after & before & Db' & B & W). cbn [fst snd] in *.
    rewrite Db in Db'. injection Db' as <-. exists ax, after, before. auto.
Qed.

(** Given values of which the dim with the selected label was dropped *)
Lemma c106_squeezed_refuted__p :
  forall idata init g v sel gd n_cols metric threshold d l dims a ydims b,
    n_cols <> 0 -> (dget "optimizer"%string idata = Some g \/ (dget "optimizer"%string idata = None /\ dget "euler"%string idata = Some g)) ->
    0 < r_steps g -> sel = (d, l :: nil) :: nil -> dget v (r_variables g) = Some (dims, a) -> array_of (r_coords g) (r_steps g) dims a ->
    selects (r_coords g) sel dims -> drawable sel dims ->
    dget v (v_values init) = Some (ydims, b) -> ~ In d ydims -> arr_wf b ->
    Forall2 (fun d n => exists all, dget d (v_coords init) = Some all /\ length all = n) ydims (ashape b) ->
    plot_bar_given idata init (v :: nil) gd sel n_cols metric threshold = Err KeyError.
Proof.
  intros idata init g v sel gd n_cols metric threshold d l dims a ydims b Hn Hg Hs Es Dv A S (P & D) Db Nd W F.
  assert (K : NoDup (dkeys sel)) by (subst sel; repeat constructor; cbn; tauto).
  unfold plot_bar_given. replace (match dget "optimizer" idata with Some g0 => Some g0 | None => dget "euler" idata end) with (Some g) by (destruct Hg as [->|[-> ->]]; reflexivity).
  cbn [map_res]. unfold dgetitem at 1. rewrite Dv. cbn [bind]. replace (Nat.eqb (r_steps g) 0) with false by (symmetry; apply Nat.eqb_neq; lia).
  assert (Id : In d dims) by (apply (D d l); subst sel; cbn; now rewrite String.eqb_refl).
  replace (forallb (fun d => existsb (fun x => mem_str d (fst x)) [(dims, a)]) (dkeys sel)) with true.
  2:{ subst sel. cbn [dkeys map fst forallb existsb]. apply mem_str_In in Id. rewrite Id. reflexivity. }
  cbn [negb length].
  destruct (@c65_grid__p (Nat.min n_cols 1) 1) as (rows & locs & GR & _ & Ll & _); [lia | lia |]. rewrite GR. cbn [bind snd].
  destruct locs as [|loc [|]]; try discriminate. cbn [combine map_res fst snd]. unfold dgetitem. rewrite Db. cbn [bind].
  unfold plot_one_given.
  destruct (@frame_spec (r_coords g) sel K (r_steps g) dims a (r_steps g - 1) A S ltac:(lia) D P) as (r1 & E1 & _). rewrite E1. cbn [bind].
  unfold given_frame. cbn [fst snd].
  assert (X : exists pss, map_res (labels_at (v_coords init) []) ydims = Ok pss /\ Forall2 (fun ps n => forall p, In p ps -> snd p < n) pss (ashape b)).
  { clear - F. revert F. generalize (ashape b). intros shape F. induction F as [|d n dims shape (all & D & L) F (pss & E & G)]; [exists []; split; [reflexivity | constructor]|].
    cbn [map_res]. unfold labels_at at 1, dgetitem. rewrite D. cbn [bind dget]. rewrite E. cbn [bind]. eexists. split; [reflexivity|]. constructor; [|exact G].
    intros (s, i) I. apply in_combine_r, in_seq in I. cbn. lia. }
  destruct X as (pss & E & G). rewrite E. cbn [bind].
  assert (Y : exists rows, map_res (fun p => let* r := aget b (map snd p) in Ok (map fst p, r)) (product pss) = Ok rows).
  { destruct (@map_res_exists _ _ (fun p : list (string * nat) => let* r := aget b (map snd p) in Ok (map fst p, r)) (product pss)) as (rs & R & _); [|eauto].
    intros p I.
    assert (Rg : in_range (ashape b) (map snd p)).
    { clear - G I. revert p I. generalize dependent (ashape b). induction pss as [|ps pss IH]; intros shape G p I; inversion G as [|? n ? shape' H G']; subst.
      - destruct I as [<-|[]]. constructor.
      - cbn in I. apply in_flat_map in I as (x & Ix & I). apply in_map_iff in I as (q & <- & Iq). cbn. constructor; [now apply H | now apply IH]. }
    destruct (@aget_ok _ b (map snd p) W Rg) as (r & ->). cbn. eauto. }
  destruct Y as (rs & ->). cbn [bind]. unfold droplevel. cbn [f_levels].
  replace (forallb (fun d => mem_str d ydims) (drop_vars sel)) with false; [reflexivity|].
  subst sel. cbn [drop_vars filter snd length Nat.eqb map fst forallb]. destruct (mem_str d ydims) eqn:M; [apply mem_str_In in M; contradiction | reflexivity].
Qed.

(** ** Without selection the given values of the first step give the same plot. *)
Lemma Ok_inj {A} (x y : A) : Ok x = Ok y -> x = y.
Proof. now intros [= ->]. Qed.
Lemma rows_labels (f : list nat -> res R) (pss : list (list (string * nat))) rows :
  map_res (fun p => let* r := f (map snd p) in Ok (map fst p, r)) pss = Ok rows -> map fst rows = map (map fst) pss.
Proof.
  revert rows. induction pss as [|p pss IH]; intros rows H; cbn in H; [injection H as <-; reflexivity|].
  destruct (f (map snd p)) as [r|]; [|discriminate]. cbn in H. destruct (map_res _ pss) as [rs|]; [|discriminate]. cbn in H. injection H as <-.
  cbn. now rewrite (IH rs eq_refl).
Qed.
Lemma frame_labels c sel dims a j k f1 f0 : frame_of c sel j (dims, a) = Ok f1 -> frame_of c sel k (dims, a) = Ok f0 ->
  f_levels f1 = f_levels f0 /\ map fst (f_rows f1) = map fst (f_rows f0).
Proof.
  unfold frame_of, to_dataframe. cbn [fst snd]. destruct (map_res (labels_at c sel) dims) as [ps|]; [|discriminate]. cbn [bind].
  destruct (map_res _ (product ps)) as [r1|] eqn:E1 at 1; [|discriminate]. cbn [bind]. intros H1.
  destruct (map_res _ (product ps)) as [r0|] eqn:E0 at 1; [|discriminate]. cbn [bind]. intros H0.
  apply (@rows_labels (fun l => aget a (j :: l))) in E1. apply (@rows_labels (fun l => aget a (k :: l))) in E0.
  unfold droplevel in H1, H0. cbn [f_levels f_rows] in H1, H0.
  destruct (negb _); [discriminate|]. destruct (Nat.leb _ _); [discriminate|]. apply Ok_inj in H1. apply Ok_inj in H0. subst f1 f0. cbn. split; [reflexivity|].
  rewrite !map_map. cbn. rewrite <- (map_map fst (fun l => kept (drop_vars sel) dims l) r1), <- (map_map fst (fun l => kept (drop_vars sel) dims l) r0). now rewrite E1, E0.
Qed.
Lemma group_sum_labels cd f1 f0 : map fst (f_rows f1) = map fst (f_rows f0) ->
  match group_sum cd f1, group_sum cd f0 with
  | Ok g1, Ok g0 => map fst (f_rows g1) = map fst (f_rows g0)
  | Err e1, Err e0 => e1 = e0
  | _, _ => False
  end.
Proof.
  intros H. unfold group_sum.
  assert (X : match map_res (fun r : list string * R => let* g := dgetitem (hd "" (fst r)) cd in Ok (g, snd r)) (f_rows f1),
                    map_res (fun r : list string * R => let* g := dgetitem (hd "" (fst r)) cd in Ok (g, snd r)) (f_rows f0) with
              | Ok g1, Ok g0 => map fst g1 = map fst g0 | Err e1, Err e0 => e1 = e0 | _, _ => False end).
  { revert H. generalize (f_rows f1) (f_rows f0). intros l1. induction l1 as [|(x1, y1) l1 IH]; intros [|(x0, y0) l0] H; try discriminate; [reflexivity|].
    cbn [map fst] in H. assert (H1 : x1 = x0) by congruence. assert (H2 : map fst l1 = map fst l0) by congruence. subst x1.
    cbn [map_res fst snd]. destruct (dgetitem (hd "" x0) cd) as [g|e]; [|reflexivity]. cbn [bind]. specialize (IH l0 H2).
    destruct (map_res _ l1), (map_res _ l0); cbn [bind]; auto. cbn. now rewrite IH. }
  destruct (map_res _ (f_rows f1)), (map_res _ (f_rows f0)); cbn [bind]; auto. cbn [f_rows]. rewrite !map_map. cbn. now rewrite X.
Qed.
Lemma one_same c gd steps dims a b metric threshold : (forall idx, aget b idx = aget a (0 :: idx)) ->
  plot_one_given c [] gd steps (dims, a) c (dims, b) metric threshold = plot_one_bar c [] gd steps (dims, a) metric threshold.
Proof.
  intros H. unfold plot_one_given, plot_one_bar.
  assert (E : given_frame c [] (dims, b) = frame_of c [] 0 (dims, a)).
  { unfold given_frame, frame_of, to_dataframe. cbn [fst snd]. destruct (map_res (labels_at c []) dims) as [ps|e]; [|destruct e; reflexivity]. cbn [bind].
    rewrite (@map_res_eq _ _ (fun p => let* r := aget b (map snd p) in Ok (map fst p, r)) (fun p => let* r := aget a (0 :: map snd p) in Ok (map fst p, r)) (product ps)).
    - destruct (map_res _ (product ps)) as [rows|e]; [reflexivity|destruct e; reflexivity].
    - intros p _. now rewrite H. }
  rewrite E. destruct (frame_of c [] (steps - 1) (dims, a)) as [f1|] eqn:F1; [|reflexivity]. cbn [bind].
  destruct (frame_of c [] 0 (dims, a)) as [f0|] eqn:F0; [|reflexivity]. cbn [bind].
  destruct (@frame_labels c [] dims a (steps - 1) 0 f1 f0 F1 F0) as (L & R).
  unfold grouped_with, grouped. rewrite <- L.
  assert (Plain : (if negb (same_labels (map fst (f_rows f1)) (map fst (f_rows f0))) then Err NotImplementedError
      else let* b0 := compute_bar_data (map snd (f_rows f1)) (map snd (f_rows f0)) metric threshold in
           match f_rows f1 with [] => Err TypeError | _ => Ok (map fst (f_rows f1), b0) end) =
      (let* b0 := compute_bar_data (map snd (f_rows f1)) (map snd (f_rows f0)) metric threshold in
       match f_rows f1 with [] => Err TypeError | _ => Ok (map fst (f_rows f1), b0) end)) by (rewrite R, same_labels_refl; reflexivity).
  destruct gd as [gd|]; [|cbn [bind]; exact Plain].
  destruct (f_levels f1) as [|n [|n2 ns]]; cbn [bind]; try exact Plain.
  destruct (dget n gd) as [cd|]; cbn [bind]; [|exact Plain].
  pose proof (@group_sum_labels cd f1 f0 R) as Q.
  destruct (group_sum cd f1) as [g1|e1], (group_sum cd f0) as [g0|e0]; try contradiction; cbn [bind].
  - rewrite Q, same_labels_refl. reflexivity.
  - now subst.
Qed.

Lemma c106_same__p :
  forall idata init g names gd n_cols metric threshold,
    (dget "optimizer"%string idata = Some g \/ (dget "optimizer"%string idata = None /\ dget "euler"%string idata = Some g)) ->
    v_coords init = r_coords g ->
    (forall v dims a, In v names -> dget v (r_variables g) = Some (dims, a) ->
       exists b, dget v (v_values init) = Some (dims, b) /\ forall idx, aget b idx = aget a (0%nat :: idx)) ->
    plot_bar_given idata init names gd nil n_cols metric threshold = plot_bar idata names gd nil n_cols metric threshold.
Proof.
  intros idata init g names gd n_cols metric threshold Hg Hc Hv. unfold plot_bar_given, plot_bar.
  replace (match dget "optimizer" idata with Some g0 => Some g0 | None => dget "euler" idata end) with (Some g) by (destruct Hg as [->|[-> ->]]; reflexivity).
  destruct (map_res (fun v => dgetitem v (r_variables g)) names) as [xs|] eqn:Ex; [|reflexivity]. cbn [bind].
  destruct (Nat.eqb (r_steps g) 0); [reflexivity|]. destruct (negb _); [reflexivity|].
  destruct (prepare_gridspec_figure _ _) as [grid|]; [|reflexivity]. cbn [bind]. apply map_res_eq.
  intros ((v, (dims, a)), place) I. apply in_combine_l in I. cbn [fst snd].
  assert (D : dget v (r_variables g) = Some (dims, a)).
  { clear - Ex I. revert xs Ex I. induction names as [|n names IH]; intros xs Ex I; cbn in Ex; [injection Ex as <-; destruct I|].
    destruct (dgetitem n (r_variables g)) as [x|] eqn:Dn; [|discriminate]. cbn in Ex. destruct (map_res _ names) as [xs'|]; [|discriminate]. cbn in Ex. injection Ex as <-.
    destruct I as [I|I]; [|now apply (IH xs')]. injection I as -> ->. unfold dgetitem in Dn. destruct (dget v (r_variables g)); congruence. }
  destruct (Hv v dims a (in_combine_l _ _ _ _ I) D) as (b & Db & Hb). unfold dgetitem. rewrite Db. cbn [bind]. rewrite Hc.
  now rewrite (@one_same (r_coords g) gd (r_steps g) dims a b metric threshold Hb).
Qed.

(** The given values are not selected: with groups they are summed over all labels. *)
Lemma c106_unselected_refuted__p :
  exists idata g init v dims a b sel gd,
    dget "optimizer"%string idata = Some g /\ dget v (r_variables g) = Some (dims, a) /\ array_of (r_coords g) (r_steps g) dims a /\
    v_coords init = r_coords g /\ dget v (v_values init) = Some (dims, b) /\ (forall i j, aget b (i :: j :: nil) = aget a (0%nat :: i :: j :: nil)) /\
    exists ax ax',
      plot_bar idata (v :: nil) gd sel 3 "change"%string 0%R = Ok (ax :: nil) /\
      plot_bar_given idata init (v :: nil) gd sel 3 "change"%string 0%R = Ok (ax' :: nil) /\
      b_labels ax' = b_labels ax /\ b_bars ax' <> b_bars ax.
Proof.
  set (c := [("i", ["w"; "s"]); ("r", ["n"; "m"])]). set (a := mkArr [2; 2; 2] [1; 1; 1; 1; 1; 1; 1; 1]%R). set (b := mkArr [2; 2] [1; 1; 1; 1]%R).
  set (g := MkResults 2 c [("X", (["i"; "r"], a))]).
  exists [("optimizer", g)], g, (MkGiven c [("X", (["i"; "r"], b))]), "X", ["i"; "r"], a, b, [("r", ["m"])], (Some [("i", [("w", "f"); ("s", "h")])]).
  split; [reflexivity|]. split; [reflexivity|]. split.
  { split; [constructor; [intros [H|[]]; discriminate | constructor; [intros [] | constructor]]|]. split; [reflexivity|]. exists [2; 2]. split; [reflexivity|].
    constructor; [|constructor; [|constructor]]; (eexists; split; [reflexivity|]; split; [reflexivity|]; split; [|discriminate]);
      (constructor; [intros [H|[]]; discriminate | constructor; [intros [] | constructor]]). }
  split; [reflexivity|]. split; [reflexivity|]. split.
  { intros [|[|i]] [|[|j]]; reflexivity. }
  eexists _, _. split; [reflexivity|]. split; [reflexivity|]. split; [reflexivity|]. cbn. intros H. injection H as H _. lra.
Qed.
