(** Lemmas for C100. *)
From Coq Require Import Reals Sorting.Sorted Sorting.Permutation.
From Verif Require Import Py PyStr NdArray M_Newton M_Plotting M_Finalize M_PlotBars M_PlotTogether S_Finalize S_PlotBars L_Finalize L_NumbaModel L_Tensor L_Plotting L_PlotBars.
From Verif Require L_PlotLines.
Local Open Scope string_scope.
Local Open Scope list_scope.

(** ** Columns *)
Lemma pairs_In c sel dims pss p : Forall2 (pairs_ok c sel) dims pss -> Forall2 (fun x l => In x l) p pss ->
  forall d l i, In (d, (l, i)) (combine dims p) -> exists all, dget d c = Some all /\ nth_error all i = Some l.
Proof.
  intros G. revert p. induction G as [|d0 ps0 dims pss (_ & all & D & X) G IH]; intros p R2 d l i H; [destruct H|].
  inversion R2 as [|x ? p' ? Hx R2']; subst. cbn in H. destruct H as [H|H]; [|eapply IH; eauto]. injection H as -> ->. exists all. split; [exact D | auto].
Qed.
Lemma Forall2_weaken {A B} (P Q : A -> B -> Prop) l1 l2 : (forall x y, P x y -> Q x y) -> Forall2 P l1 l2 -> Forall2 Q l1 l2.
Proof. intros H F. induction F; constructor; auto. Qed.
Lemma combine_map_snd (dims : list string) (p : list (string * nat)) d i : dget d (combine dims (map snd p)) = Some i -> exists l, In (d, (l, i)) (combine dims p).
Proof.
  revert p. induction dims as [|d0 dims IH]; intros [|(l0, i0) p] H; try discriminate. cbn in H.
  destruct (String.eqb_spec d d0) as [->|]; [injection H as ->; exists l0; now left|]. destruct (IH p H) as (l & I). exists l. now right.
Qed.
Lemma dget_combine (dims : list string) (ix : list nat) d : length dims = length ix -> In d dims -> exists i, dget d (combine dims ix) = Some i.
Proof.
  revert ix. induction dims as [|d0 dims IH]; intros [|i0 ix] L I; try discriminate; [destruct I|]. cbn.
  destruct (String.eqb_spec d d0) as [->|N]; [eauto|]. destruct I as [I|I]; [congruence|]. apply IH; [now injection L | exact I].
Qed.

(** The shapes of known dims *)
Definition known (c : dict (list string)) (d : string) : Prop := exists all, dget d c = Some all /\ NoDup all /\ all <> [].
Lemma known_shape c dims : (forall d, In d dims -> known c d) -> exists shape, Forall2 (fun d n => exists all, dget d c = Some all /\ length all = n /\ NoDup all /\ all <> []) dims shape.
Proof.
  induction dims as [|d dims IH]; intros H; [exists []; constructor|].
  destruct IH as (shape & F); [intros d' I; apply H; now right|]. destruct (H d (or_introl eq_refl)) as (all & D & N & E).
  exists (length all :: shape). constructor; [exists all; auto | exact F].
Qed.

Lemma column_spec c sel steps all_dims dims a k : NoDup (dkeys sel) -> NoDup all_dims -> (forall d, In d all_dims -> known c d) -> selects c sel all_dims ->
  array_of c steps dims a -> (forall d, In d dims -> In d all_dims) -> plotted sel dims = plotted sel all_dims -> k < steps ->
  (forall d l, dget d sel = Some [l] -> In d all_dims) -> plotted sel all_dims <> [] ->
  exists rows, (let* f := column c sel k all_dims (dims, a) in droplevel (drop_vars sel) f) = Ok (MkFrame (plotted sel dims) rows) /\
    map fst rows = product (map (shown c sel) (plotted sel dims)) /\
    bar_values c sel dims a k (map fst rows) (map snd rows).
Proof.
  intros K N Kn S (Nd & W & shape & Sh & F) Inc Pl Lt I P.
  destruct (@known_shape c all_dims Kn) as (sh0 & F0).
  destruct (@all_labels c sel all_dims sh0 F0 S) as (pss & E & G).
  assert (Len : forall p, In p (product pss) -> length all_dims = length p).
  { intros p Hp. apply in_product in Hp. apply Forall2_length in Hp. apply Forall2_length in G. congruence. }
  assert (Ix : forall p, In p (product pss) -> exists ix, map_res (fun d => dgetitem d (combine all_dims (map snd p))) dims = Ok ix /\
      in_range shape ix /\ Forall2 (fun d i => exists all l, dget d c = Some all /\ nth_error all i = Some l /\ bar_label c sel all_dims (kept (drop_vars sel) all_dims (map fst p)) d = Some l) dims ix).
  { intros p Hp. pose proof (Len p Hp) as L. apply in_product in Hp.
    destruct (@map_res_exists _ _ (fun d => dgetitem d (combine all_dims (map snd p))) dims) as (ix & Ei & Fi).
    { intros d Hd. destruct (@dget_combine all_dims (map snd p) d) as (i & Di); [now rewrite map_length | auto |].
      exists i. unfold dgetitem. now rewrite Di. }
    exists ix. split; [exact Ei|].
    assert (Q : Forall2 (fun d i => exists all l, dget d c = Some all /\ nth_error all i = Some l /\ bar_label c sel all_dims (kept (drop_vars sel) all_dims (map fst p)) d = Some l) dims ix).
    { clear - K G Hp Fi N. induction Fi as [|d i ds ix0 H Fi IH]; constructor; auto.
      unfold dgetitem in H. destruct (dget d (combine all_dims (map snd p))) as [j|] eqn:Dj; [|discriminate]. injection H as ->.
      destruct (@combine_map_snd all_dims p d i Dj) as (l & Il). destruct (@pairs_In c sel all_dims pss p G Hp d l i Il) as (all & D & X).
      exists all, l. split; [exact D|]. split; [exact X|]. eapply row_labels; eauto. }
    split; [|exact Q]. clear - Q F. revert shape F. induction Q as [|d i dims ix (all & l & D & X & _) Q IH]; intros shape F; inversion F as [|? n ? shape' (all' & D' & L & _) F']; subst; constructor.
    - rewrite D in D'. injection D' as <-. apply nth_error_Some. congruence.
    - now apply IH. }
  destruct (@map_res_exists _ _ (fun p : list (string * nat) => let* ix := map_res (fun d => dgetitem d (combine all_dims (map snd p))) dims in
      let* r := aget a (k :: ix) in Ok (map fst p, r)) (product pss)) as (rows & Er & Fr).
  { intros p Hp. destruct (Ix p Hp) as (ix & Ei & R1 & _). rewrite Ei. cbn [bind]. destruct (@aget_ok _ a (k :: ix) W) as (v & ->); [|cbn; eauto].
    rewrite Sh. constructor; [exact Lt | exact R1]. }
  assert (M1 : map fst rows = product (map (shown c sel) all_dims)).
  { rewrite <- (@product_fst c sel all_dims pss G). clear Er Len Ix. induction Fr as [|p (ls, r) pp rows H Fr IH]; [reflexivity|].
    destruct (map_res _ dims) as [ix|]; [|discriminate]. cbn [bind] in H. destruct (aget a (k :: ix)); [|discriminate]. cbn in H. injection H as <- <-. cbn. now rewrite IH. }
  exists (map (fun r => (kept (drop_vars sel) all_dims (fst r), snd r)) rows). split; [|split].
  - unfold column. cbn [fst snd]. rewrite E. cbn [bind]. rewrite Er. cbn [bind]. unfold droplevel. cbn [f_levels f_rows].
    assert (A : forallb (fun d => mem_str d all_dims) (drop_vars sel) = true).
    { apply forallb_forall. intros d H. apply (@in_drop sel K) in H as (l & H). apply mem_str_In. eauto. }
    rewrite A. cbn [negb]. pose proof (@drop_shorter sel K all_dims N I P) as L.
    assert (B : Nat.leb (length all_dims) (length (drop_vars sel)) = false) by (apply Nat.leb_gt; exact L).
    rewrite B, (@plotted_filter sel K), Pl. reflexivity.
  - rewrite map_map. cbn [fst]. rewrite Pl, <- (@kept_product c sel K), <- M1, map_map. reflexivity.
  - rewrite !map_map. cbn [fst snd]. unfold bar_values. clear Er M1.
    assert (Bl : forall ls d, bar_label c sel dims ls d = bar_label c sel all_dims ls d) by (intros ls d; unfold bar_label; now rewrite Pl).
    assert (Sub : forall p, In p (product pss) -> In p (product pss)) by auto. revert Fr Sub.
    generalize (product pss) at 1 2. intros pp Fr Sub.
    induction Fr as [|p (ls, r) pp rows H Fr IH]; [constructor|]. cbn [map fst snd].
    destruct (Ix p (Sub p (or_introl eq_refl))) as (ix & Ei & _ & Q). rewrite Ei in H. cbn [bind] in H.
    destruct (aget a (k :: ix)) as [r'|] eqn:Ea; [|discriminate]. cbn in H. injection H as <- <-.
    constructor; [|apply IH; intros q Hq; apply Sub; now right].
    exists ix. split; [|exact Ea]. eapply Forall2_weaken; [|exact Q]. intros d i (all & l & D & X & B). exists all, l. rewrite Bl. auto.
Qed.

(** ** The bars of one column *)
Lemma column_bars_spec c sel gd steps dims a r1 r0 metric threshold :
  map fst r1 = product (map (shown c sel) (plotted sel dims)) -> map fst r0 = product (map (shown c sel) (plotted sel dims)) ->
  bar_values c sel dims a (steps - 1) (map fst r1) (map snd r1) -> bar_values c sel dims a 0 (map fst r0) (map snd r0) ->
  product (map (shown c sel) (plotted sel dims)) <> [] -> has_groups c sel gd dims -> In metric metrics ->
  exists labels after before b, column_bars gd (MkFrame (plotted sel dims) r1) (MkFrame (plotted sel dims) r0) metric threshold = Ok (labels, b) /\
    bars_of c sel gd steps dims a labels after before /\ drawn threshold after before metric b /\
    labels = match group_for gd (plotted sel dims) with
             | None => product (map (shown c sel) (plotted sel dims))
             | Some (d, cd) => map (fun g => [g]) (group_names (map (fun l => match dget l cd with Some g => g | None => "" end) (shown c sel d)))
             end.
Proof.
  intros L1 L0 V1 V0 Ne G M.
  unfold column_bars, grouped. cbn [f_levels]. unfold has_groups in G. unfold bars_of.
  destruct (group_for gd (plotted sel dims)) as [(d, cd)|] eqn:Gf.
  - unfold group_for in Gf. destruct gd as [gd|]; [|discriminate].
    destruct (plotted sel dims) as [|d1 [|d2 rest]] eqn:Pl; try discriminate.
    destruct (dget d1 gd) as [cd1|] eqn:Dg; [|discriminate]. injection Gf as <- <-. specialize (G d1 cd1 eq_refl).
    cbn [map product] in L1, L0, Ne |- *.
    assert (Sg : flat_map (fun x : string => [[x]]) (shown c sel d1) = map (fun l => [l]) (shown c sel d1)).
    { clear. induction (shown c sel d1) as [|x l IH]; [reflexivity|]. cbn in *. now rewrite IH. }
    rewrite Sg in L1, L0, Ne |- *.
    destruct (@group_sum_spec cd1 (MkFrame [d1] r1) d1 (shown c sel d1) eq_refl L1 G) as (n1 & N1 & Q1).
    destruct (@group_sum_spec cd1 (MkFrame [d1] r0) d1 (shown c sel d1) eq_refl L0 G) as (n0 & N0 & Q0).
    assert (n0 = n1) as -> by congruence. cbn [f_rows] in Q1, Q0. rewrite Q1. cbn [bind]. rewrite Q0. cbn [bind f_rows]. rewrite !map_map. cbn [fst snd].
    destruct (@drawn_spec (map (total cd1 (shown c sel d1) (map snd r1)) n1) (map (total cd1 (shown c sel d1) (map snd r0)) n1) metric threshold ltac:(now rewrite !map_length) M) as (b & Eb & Db).
    exists (map (fun g => [g]) n1), (map (total cd1 (shown c sel d1) (map snd r1)) n1), (map (total cd1 (shown c sel d1) (map snd r0)) n1), b.
    split; [|split; [|split; [exact Db | now rewrite N1]]].
    + change (fun x : string => total cd1 (shown c sel d1) (map snd r1) x) with (total cd1 (shown c sel d1) (map snd r1)).
      change (fun x : string => total cd1 (shown c sel d1) (map snd r0) x) with (total cd1 (shown c sel d1) (map snd r0)).
      rewrite Eb. cbn [bind]. destruct n1 as [|g n1]; [|reflexivity]. exfalso.
      destruct (shown c sel d1) as [|l ls]; [now apply Ne|].
      destruct (group_names_spec (map (fun l => match dget l cd1 with Some g => g | None => "" end) (l :: ls))) as (_ & X).
      rewrite N1 in X. apply (X (match dget l cd1 with Some g => g | None => "" end)). now left.
    + exists (map (fun l => [l]) (shown c sel d1)), (map snd r1), (map snd r0). rewrite L1 in V1. rewrite L0 in V0. split; [reflexivity|].
      split; [exact V1|]. split; [exact V0|]. exists n1. split; [|auto]. rewrite <- N1. now apply groups_of_names.
  - assert (Gr : forall r, match gd, plotted sel dims with
                 | Some gd, [n] => match dget n gd with Some cd => group_sum cd (MkFrame (plotted sel dims) r) | None => Ok (MkFrame (plotted sel dims) r) end
                 | _, _ => Ok (MkFrame (plotted sel dims) r) end = Ok (MkFrame (plotted sel dims) r)).
    { intros r. unfold group_for in Gf. destruct gd as [gd|]; [|reflexivity]. destruct (plotted sel dims) as [|d1 [|]]; try reflexivity.
      now destruct (dget d1 gd). }
    rewrite !Gr. cbn [bind f_rows].
    destruct (@drawn_spec (map snd r1) (map snd r0) metric threshold) as (b & Eb & Db); [|exact M|].
    { rewrite !map_length. rewrite <- (map_length fst r1), <- (map_length fst r0). now rewrite L1, L0. }
    rewrite Eb. cbn [bind]. exists (map fst r1), (map snd r1), (map snd r0), b. split; [|split; [|split; [exact Db | exact L1]]].
    + destruct r1; [exfalso; apply Ne; now rewrite <- L1 | reflexivity].
    + exists (map fst r1), (map snd r1), (map snd r0). split; [exact L1|]. split; [exact V1|]. split; [|auto]. rewrite L1, <- L0. exact V0.
Qed.

(** ** The dims of the Dataset *)
Lemma same_dims_eq l1 l2 : same_dims l1 l2 = true <-> l1 = l2.
Proof.
  revert l2. induction l1 as [|a l1 IH]; intros [|b l2]; cbn; try (split; [discriminate | discriminate]); [tauto|].
  rewrite Bool.andb_true_iff, String.eqb_eq, IH. split; [intros (-> & ->); reflexivity | intros E; injection E; auto].
Qed.
Lemma filter_dedup_acc (f : string -> bool) l : forall seen, filter f (dedup_acc seen l) = dedup_acc (filter f seen) (filter f l).
Proof.
  induction l as [|x l IH]; intros seen; [reflexivity|]. cbn.
  assert (M : f x = true -> mem_str x (filter f seen) = mem_str x seen).
  { intros H. destruct (mem_str x seen) eqn:E.
    - apply mem_str_In. apply filter_In. split; [now apply mem_str_In | exact H].
    - apply mem_str_nIn. intros I. apply filter_In in I as (I & _). apply mem_str_nIn in E. contradiction. }
  destruct (mem_str x seen) eqn:E.
  - rewrite IH. destruct (f x) eqn:H; [|reflexivity]. cbn. now rewrite (M eq_refl).
  - cbn. destruct (f x) eqn:H; [|rewrite IH; cbn; now rewrite H]. cbn. rewrite (M eq_refl), IH. cbn. now rewrite H.
Qed.
Lemma dedup_acc_app seen l1 l2 : dedup_acc seen (l1 ++ l2) = dedup_acc seen l1 ++ dedup_acc (l1 ++ seen) l2.
Proof.
  assert (Ext : forall l s1 s2, (forall x, In x s1 <-> In x s2) -> dedup_acc s1 l = dedup_acc s2 l).
  { induction l as [|x l IH]; intros s1 s2 H; [reflexivity|]. cbn. assert (M : mem_str x s1 = mem_str x s2).
    { destruct (mem_str x s2) eqn:E; [apply mem_str_In in E; apply mem_str_In; now apply H|].
      apply mem_str_nIn in E. apply mem_str_nIn. intros I. apply E. now apply H. }
    rewrite M. destruct (mem_str x s2); [now apply IH|]. f_equal. apply IH. intros y. cbn. now rewrite H. }
  revert seen. induction l1 as [|x l1 IH]; intros seen; [reflexivity|]. cbn. destruct (mem_str x seen) eqn:E.
  - rewrite IH. f_equal. apply Ext. intros y. rewrite !in_app_iff. cbn. rewrite !in_app_iff. split; [tauto|].
    intros [<-|[H|H]]; auto. right. now apply mem_str_In.
  - cbn. rewrite IH. do 2 f_equal. apply Ext. intros y. rewrite !in_app_iff. cbn. rewrite !in_app_iff. tauto.
Qed.
Lemma dedup_acc_seen l : forall seen, (forall x, In x l -> In x seen) -> dedup_acc seen l = [].
Proof.
  induction l as [|x l IH]; intros seen H; [reflexivity|]. cbn.
  assert (M : mem_str x seen = true) by (apply mem_str_In, H; now left). rewrite M. apply IH. intros y I. apply H. now right.
Qed.
Lemma plotted_dataset sel rest (xs : list (list string * arr R)) : xs <> [] -> NoDup rest -> (forall x, In x xs -> plotted sel (fst x) = rest) ->
  plotted sel (dataset_dims xs) = rest.
Proof.
  intros Ne N H. unfold dataset_dims, dedup, plotted. rewrite filter_dedup_acc. cbn [filter].
  assert (X : forall l : list (list string * arr R), (forall x, In x l -> plotted sel (fst x) = rest) -> forall y, In y (plotted sel (flat_map fst l)) -> In y rest).
  { clear. induction l as [|x l IH]; intros H y I; [destruct I|]. cbn in I. unfold plotted in I. rewrite filter_app in I. apply in_app_iff in I as [I|I].
    - rewrite <- (H x (or_introl eq_refl)). exact I.
    - apply IH; [intros z Hz; apply H; now right | exact I]. }
  destruct xs as [|x xs]; [contradiction|]. cbn [flat_map]. rewrite filter_app, dedup_acc_app.
  pose proof (H x (or_introl eq_refl)) as Hx. unfold plotted in Hx. rewrite Hx, app_nil_r.
  rewrite (@dedup_acc_id [] rest N) by auto. rewrite dedup_acc_seen, app_nil_r; [reflexivity|].
  apply X. intros z Hz. apply H. now right.
Qed.

(** ** plot_together *)
Lemma combine_nth {A B} (l1 : list A) (l2 : list B) i x y : nth_error l1 i = Some x -> nth_error l2 i = Some y -> nth_error (combine l1 l2) i = Some (x, y).
Proof.
  revert l2 i. induction l1 as [|a l1 IH]; intros [|b l2] [|i] H1 H2; try discriminate; cbn in *; [congruence | now apply IH].
Qed.
Lemma Forall2_nth {A B} (P : A -> B -> Prop) l1 l2 i x : Forall2 P l1 l2 -> nth_error l1 i = Some x -> exists y, nth_error l2 i = Some y /\ P x y.
Proof.
  intros F. revert i. induction F as [|a b l1 l2 H F IH]; intros [|i] N; try discriminate; cbn in *; [injection N as <-; eauto | auto].
Qed.
Lemma Forall2_In_r {A B} (P : A -> B -> Prop) l1 l2 y : Forall2 P l1 l2 -> In y l2 -> exists x, In x l1 /\ P x y.
Proof. intros F. induction F as [|a b l1 l2 H F IH]; intros I; [destruct I|]. destruct I as [<-|I]; [exists a; cbn; auto|]. destruct (IH I) as (x & J & Q). exists x. cbn. auto. Qed.

Lemma c100_together__p :
  forall idata g names sel gd metric threshold rest,
    names <> nil -> NoDup names -> In metric metrics ->
    (dget "optimizer"%string idata = Some g \/ (dget "optimizer"%string idata = None /\ dget "euler"%string idata = Some g)) ->
    0 < r_steps g -> NoDup (dkeys sel) -> rest <> nil ->
    (forall v, In v names -> exists dims a, dget v (r_variables g) = Some (dims, a) /\ array_of (r_coords g) (r_steps g) dims a /\
       selects (r_coords g) sel dims /\ plotted sel dims = rest /\ has_groups (r_coords g) sel gd dims) ->
    (forall d, In d (dkeys sel) -> exists v dims a, In v names /\ dget v (r_variables g) = Some (dims, a) /\ In d dims) ->
    exists labels columns,
      plot_together idata names gd sel metric threshold = Ok (labels, columns) /\ map fst columns = names /\
      forall i v dims a, nth_error names i = Some v -> dget v (r_variables g) = Some (dims, a) -> exists b after before,
        nth_error columns i = Some (v, b) /\
        bars_of (r_coords g) sel gd (r_steps g) dims a labels after before /\
        drawn threshold after before metric b.
Proof.
  intros idata g names sel gd metric threshold rest Hl Hn Hm Hg Hs K Hr Hv Hd.
  set (f := fun v => dgetitem v (r_variables g)).
  destruct (@map_res_exists _ _ f names) as (xs & Ex & Fx).
  { intros v I. destruct (Hv v I) as (dims & a & D & _). exists (dims, a). unfold f, dgetitem. now rewrite D. }
  assert (D : forall v x, f v = Ok x -> dget v (r_variables g) = Some x) by (intros v x; unfold f, dgetitem; destruct (dget v (r_variables g)); congruence).
  assert (Hx : forall x, In x xs -> array_of (r_coords g) (r_steps g) (fst x) (snd x) /\ selects (r_coords g) sel (fst x) /\ plotted sel (fst x) = rest /\ has_groups (r_coords g) sel gd (fst x)).
  { intros x I. destruct (@Forall2_In_r _ _ _ _ _ x Fx I) as (v & Iv & E). apply D in E. destruct (Hv v Iv) as (dims & a & E' & A).
    rewrite E in E'. injection E' as ->. exact A. }
  assert (Nx : xs <> []) by (intros ->; inversion Fx; subst; contradiction).
  assert (Nr : NoDup rest).
  { destruct xs as [|x xs]; [contradiction|]. destruct (Hx x (or_introl eq_refl)) as ((N & _) & _ & <- & _). now apply NoDup_filter. }
  pose proof (@plotted_dataset sel rest xs Nx Nr (fun x I => proj1 (proj2 (proj2 (Hx x I))))) as Pl.
  set (ds := dataset_dims xs) in *.
  assert (Ids : forall d, In d ds <-> exists x, In x xs /\ In d (fst x)).
  { intros d. unfold ds, dataset_dims. rewrite in_dedup, in_flat_map. reflexivity. }
  assert (Nds : NoDup ds) by apply NoDup_dedup.
  assert (Kds : forall d, In d ds -> known (r_coords g) d).
  { intros d I. apply Ids in I as (x & I & J). destruct (Hx x I) as ((_ & _ & shape & _ & F) & _).
    clear - F J. induction F as [|d0 n dims shape (all & E & _ & N & Q) F IH]; [destruct J|]. destruct J as [->|J]; [exists all; auto | auto]. }
  assert (Sds : selects (r_coords g) sel ds).
  { intros d ls I E. apply Ids in I as (x & I & J). destruct (Hx x I) as (_ & S & _). exact (S d ls J E). }
  assert (Dds : forall d l, dget d sel = Some [l] -> In d ds).
  { intros d l E. apply Ids. assert (I : In d (dkeys sel)) by (apply dget_In in E; apply in_map_iff; exists (d, [l]); auto).
    destruct (Hd d I) as (v & dims & a & Iv & Dv & J). apply In_nth_error in Iv as (i & Iv).
    destruct (@Forall2_nth _ _ _ _ _ i v Fx Iv) as (x & Nx' & E'). apply D in E'. rewrite Dv in E'. injection E' as <-.
    exists (dims, a). split; [eapply nth_error_In; eauto | exact J]. }
  set (lab := match group_for gd rest with
              | None => product (map (shown (r_coords g) sel) rest)
              | Some (d, cd) => map (fun g => [g]) (group_names (map (fun l => match dget l cd with Some g => g | None => "" end) (shown (r_coords g) sel d)))
              end).
  assert (One : forall x, In x xs -> exists after before b, variable_bars (r_coords g) sel gd (r_steps g) ds metric threshold x = Ok (lab, b) /\
             bars_of (r_coords g) sel gd (r_steps g) (fst x) (snd x) lab after before /\ drawn threshold after before metric b).
  { intros (dims, a) I. destruct (Hx _ I) as (A & S & P & G). cbn [fst snd] in *.
    assert (Inc : forall d, In d dims -> In d ds) by (intros d J; apply Ids; exists (dims, a); auto).
    destruct (@column_spec (r_coords g) sel (r_steps g) ds dims a (r_steps g - 1) K Nds Kds Sds A Inc ltac:(congruence) ltac:(lia) Dds ltac:(congruence)) as (r1 & E1 & L1 & V1).
    destruct (@column_spec (r_coords g) sel (r_steps g) ds dims a 0 K Nds Kds Sds A Inc ltac:(congruence) Hs Dds ltac:(congruence)) as (r0 & E0 & L0 & V0).
    pose proof (@rows_nonempty (r_coords g) sel (r_steps g) dims a A S) as Ne.
    destruct (@column_bars_spec (r_coords g) sel gd (r_steps g) dims a r1 r0 metric threshold L1 L0 V1 V0 Ne G Hm) as (labels & after & before & b & E & B & W & Q).
    exists after, before, b. rewrite P in Q. fold lab in Q. subst labels. split; [|auto]. unfold variable_bars.
    destruct (column (r_coords g) sel (r_steps g - 1) ds (dims, a)) as [c1|]; [|discriminate]. cbn [bind] in E1 |- *. rewrite E1. cbn [bind].
    destruct (column (r_coords g) sel 0 ds (dims, a)) as [c0|]; [|discriminate]. cbn [bind] in E0 |- *. rewrite E0. cbn [bind]. exact E. }
  destruct (@map_res_exists _ _ (variable_bars (r_coords g) sel gd (r_steps g) ds metric threshold) xs) as (bs & Eb & Fb).
  { intros x I. destruct (One x I) as (after & before & b & E & _). eauto. }
  assert (Lb : length bs = length names) by (apply Forall2_length in Fb; apply Forall2_length in Fx; congruence).
  exists lab, (combine names (map snd bs)). split; [|split].
  - unfold plot_together. replace (match dget "optimizer" idata with Some g0 => Some g0 | None => dget "euler" idata end) with (Some g) by (destruct Hg as [->|[-> ->]]; reflexivity).
    rewrite (dedup_id Hn). cbv zeta. fold f. rewrite Ex. cbn [bind]. fold ds. replace (Nat.eqb (r_steps g) 0) with false by (symmetry; apply Nat.eqb_neq; lia).
    replace (forallb (fun d => existsb (fun x => mem_str d (fst x)) xs) (dkeys sel)) with true.
    2:{ symmetry. apply forallb_forall. intros d I. destruct (Hd d I) as (v & dims & a & Iv & Dv & J). apply existsb_exists.
        apply In_nth_error in Iv as (i & Iv). destruct (@Forall2_nth _ _ _ _ _ i v Fx Iv) as (x & Nx' & E'). apply D in E'. rewrite Dv in E'. injection E' as <-.
        exists (dims, a). split; [eapply nth_error_In; eauto | now apply mem_str_In]. }
    cbn [negb]. destruct (@known_shape (r_coords g) ds Kds) as (sh0 & F0). destruct (@all_labels (r_coords g) sel ds sh0 F0 Sds) as (pss & El & _).
    rewrite El. cbn [bind].
    assert (Vd : forall x, In x xs -> var_dims sel x = rest).
    { intros x I. unfold var_dims. rewrite (@plotted_filter sel K). apply (Hx x I). }
    destruct xs as [|x0 xs']; [contradiction|].
    replace (forallb (fun x => same_dims (var_dims sel x) (var_dims sel x0)) (x0 :: xs')) with true.
    2:{ symmetry. apply forallb_forall. intros x I. apply same_dims_eq. rewrite (Vd x I), (Vd x0 (or_introl eq_refl)). reflexivity. }
    cbn [negb]. rewrite (Vd x0 (or_introl eq_refl)). fold ds.
    destruct ds as [|d0 ds'] eqn:Eds; [cbn in Pl; congruence|]. destruct rest as [|r0 rest']; [contradiction|].
    rewrite Eb. cbn [bind]. do 2 f_equal. inversion Fb as [|? b0 ? bs' E0 Fb']; subst.
    destruct (One x0 (or_introl eq_refl)) as (after & before & b & E & _). rewrite E in E0. injection E0 as <-. reflexivity.
  - clear - Lb. revert bs Lb. induction names as [|n names IH]; intros [|b bs] L; try discriminate; [reflexivity|]. cbn. f_equal. apply IH. now injection L.
  - intros i v dims a Ni Dv. destruct (@Forall2_nth _ _ _ _ _ i v Fx Ni) as (x & Nxi & E). apply D in E. rewrite Dv in E. injection E as <-.
    destruct (@Forall2_nth _ _ _ _ _ i (dims, a) Fb Nxi) as ((lb, b) & Nb & E). destruct (One (dims, a)) as (after & before & b' & E' & B & W); [eapply nth_error_In; eauto|].
    rewrite E in E'. injection E' as -> ->. exists b', after, before. split; [|auto].
    apply combine_nth; [exact Ni|]. rewrite nth_error_map, Nb. reflexivity.
Qed.

(** Different dims *)
Lemma c100_rejected__p :
  forall idata g names sel gd metric threshold v w dv av dw aw,
    NoDup names -> NoDup (dkeys sel) ->
    (dget "optimizer"%string idata = Some g \/ (dget "optimizer"%string idata = None /\ dget "euler"%string idata = Some g)) ->
    0 < r_steps g ->
    (forall u, In u names -> exists dims a, dget u (r_variables g) = Some (dims, a) /\ array_of (r_coords g) (r_steps g) dims a /\ selects (r_coords g) sel dims) ->
    (forall d, In d (dkeys sel) -> exists u dims a, In u names /\ dget u (r_variables g) = Some (dims, a) /\ In d dims) ->
    In v names -> In w names -> dget v (r_variables g) = Some (dv, av) -> dget w (r_variables g) = Some (dw, aw) ->
    plotted sel dv <> plotted sel dw ->
    plot_together idata names gd sel metric threshold = Err ValueError.
Proof.
  intros idata g names sel gd metric threshold v w dv av dw aw Hn K Hg Hs Hv Hd Iv Iw Dv Dw Df.
  set (f := fun v => dgetitem v (r_variables g)).
  destruct (@map_res_exists _ _ f names) as (xs & Ex & Fx).
  { intros u I. destruct (Hv u I) as (dims & a & D & _). exists (dims, a). unfold f, dgetitem. now rewrite D. }
  assert (D : forall v x, f v = Ok x -> dget v (r_variables g) = Some x) by (intros u x; unfold f, dgetitem; destruct (dget u (r_variables g)); congruence).
  assert (Found : forall u dims a, In u names -> dget u (r_variables g) = Some (dims, a) -> In (dims, a) xs).
  { intros u dims a Iu Du. apply In_nth_error in Iu as (i & Iu). destruct (@Forall2_nth _ _ _ _ _ i u Fx Iu) as (x & Nx' & E'). apply D in E'.
    rewrite Du in E'. injection E' as <-. eapply nth_error_In; eauto. }
  assert (Hx : forall x, In x xs -> array_of (r_coords g) (r_steps g) (fst x) (snd x) /\ selects (r_coords g) sel (fst x)).
  { intros x I. destruct (@Forall2_In_r _ _ _ _ _ x Fx I) as (u & Iu & E). apply D in E. destruct (Hv u Iu) as (dims & a & E' & A).
    rewrite E in E'. injection E' as ->. exact A. }
  assert (Kds : forall d, In d (dataset_dims xs) -> known (r_coords g) d).
  { intros d I. unfold dataset_dims in I. rewrite in_dedup, in_flat_map in I. destruct I as (x & I & J). destruct (Hx x I) as ((_ & _ & shape & _ & F) & _).
    clear - F J. induction F as [|d0 n dims shape (all & E & _ & N & Q) F IH]; [destruct J|]. destruct J as [->|J]; [exists all; auto | auto]. }
  assert (Sds : selects (r_coords g) sel (dataset_dims xs)).
  { intros d ls I E. unfold dataset_dims in I. rewrite in_dedup, in_flat_map in I. destruct I as (x & I & J). destruct (Hx x I) as (_ & S). exact (S d ls J E). }
  unfold plot_together. replace (match dget "optimizer" idata with Some g0 => Some g0 | None => dget "euler" idata end) with (Some g) by (destruct Hg as [->|[-> ->]]; reflexivity).
  rewrite (dedup_id Hn). cbv zeta. fold f. rewrite Ex. cbn [bind]. replace (Nat.eqb (r_steps g) 0) with false by (symmetry; apply Nat.eqb_neq; lia).
  replace (forallb (fun d => existsb (fun x => mem_str d (fst x)) xs) (dkeys sel)) with true.
  2:{ symmetry. apply forallb_forall. intros d I. destruct (Hd d I) as (u & dims & a & Iu & Du & J). apply existsb_exists.
      exists (dims, a). split; [eapply Found; eauto | now apply mem_str_In]. }
  cbn [negb]. destruct (@known_shape (r_coords g) _ Kds) as (sh0 & F0). destruct (@all_labels (r_coords g) sel _ sh0 F0 Sds) as (pss & El & _).
  rewrite El. cbn [bind]. destruct xs as [|x0 xs']; [reflexivity|].
  destruct (forallb (fun x => same_dims (var_dims sel x) (var_dims sel x0)) (x0 :: xs')) eqn:A; [|reflexivity].
  exfalso. rewrite forallb_forall in A. apply Df. rewrite <- !(@plotted_filter sel K).
  pose proof (A _ (Found v dv av Iv Dv)) as A1. pose proof (A _ (Found w dw aw Iw Dw)) as A2. apply same_dims_eq in A1, A2. unfold var_dims in A1, A2. cbn [fst] in *. congruence.
Qed.

(** The same dims in another order *)
Lemma c100_order_refuted__p :
  exists idata g v w d1 d2 a1 a2, dget "optimizer"%string idata = Some g /\ 0 < r_steps g /\
    dget v (r_variables g) = Some (d1, a1) /\ dget w (r_variables g) = Some (d2, a2) /\
    array_of (r_coords g) (r_steps g) d1 a1 /\ array_of (r_coords g) (r_steps g) d2 a2 /\ Permutation d1 d2 /\
    forall gd metric threshold, plot_together idata (v :: w :: nil) gd nil metric threshold = Err ValueError.
Proof.
  set (c := [("i", ["wheat"; "steel"]); ("r", ["north"; "south"])]).
  set (a := mkArr [1; 2; 2] [1; 2; 3; 4]%R).
  exists [("optimizer", MkResults 1 c [("X", (["i"; "r"], a)); ("M", (["r"; "i"], a))])], (MkResults 1 c [("X", (["i"; "r"], a)); ("M", (["r"; "i"], a))]), "X", "M", ["i"; "r"], ["r"; "i"], a, a.
  assert (ND : forall x y : string, x <> y -> NoDup [x; y]) by (intros x y N; repeat constructor; cbn; intuition).
  assert (A : forall x y, x <> y -> In x ["i"; "r"] -> In y ["i"; "r"] -> array_of c 1 [x; y] a).
  { intros x y N Ix Iy. split; [now apply ND|]. split; [reflexivity|]. exists [2; 2]. split; [reflexivity|].
    assert (Q : forall z, In z ["i"; "r"] -> exists all, dget z c = Some all /\ length all = 2 /\ NoDup all /\ all <> []).
    { intros z [<-|[<-|[]]]; (eexists; split; [reflexivity|]; split; [reflexivity|]; split; [now apply ND | discriminate]). }
    repeat constructor; now apply Q. }
  split; [reflexivity|]. split; [cbn; lia|]. split; [reflexivity|]. split; [reflexivity|].
  split; [apply A; cbn; auto; discriminate|]. split; [apply A; cbn; auto; discriminate|]. split; [apply perm_swap|].
  intros gd metric threshold. reflexivity.
Qed.

(** ** Scalars *)
Lemma c100_scalars__p :
  forall idata g names gd metric threshold,
    names <> nil -> NoDup names -> In metric metrics ->
    (dget "optimizer"%string idata = Some g \/ (dget "optimizer"%string idata = None /\ dget "euler"%string idata = Some g)) ->
    0 < r_steps g -> (forall d, gd = Some d -> ~ In "name"%string (dkeys d)) ->
    (forall v, In v names -> exists a, dget v (r_variables g) = Some (nil, a) /\ array_of (r_coords g) (r_steps g) nil a) ->
    exists b after before,
      plot_together idata names gd nil metric threshold = Ok (map (fun v => v :: nil) names, ("data"%string, b) :: nil) /\
      drawn threshold after before metric b /\
      Forall2 (fun v r => exists a, dget v (r_variables g) = Some (nil, a) /\ aget a ((r_steps g - 1)%nat :: nil) = Ok r) names after /\
      Forall2 (fun v r => exists a, dget v (r_variables g) = Some (nil, a) /\ aget a (0%nat :: nil) = Ok r) names before.
Proof.
  intros idata g names gd metric threshold Hl Hn Hm Hg Hs Hgd Hv.
  set (f := fun v => dgetitem v (r_variables g)).
  destruct (@map_res_exists _ _ f names) as (xs & Ex & Fx).
  { intros u I. destruct (Hv u I) as (a & D & _). exists ([], a). unfold f, dgetitem. now rewrite D. }
  assert (D : forall v x, f v = Ok x -> dget v (r_variables g) = Some x) by (intros u x; unfold f, dgetitem; destruct (dget u (r_variables g)); congruence).
  assert (Fs : forall x, In x xs -> fst x = []).
  { intros x I. destruct (@Forall2_In_r _ _ _ _ _ x Fx I) as (u & Iu & E). apply D in E. destruct (Hv u Iu) as (a & E' & _). rewrite E in E'. now injection E' as ->. }
  assert (Ds : dataset_dims xs = []).
  { unfold dataset_dims. replace (flat_map fst xs) with (@nil string); [reflexivity|]. symmetry. clear - Fs. induction xs as [|x xs IH]; [reflexivity|]. cbn.
    rewrite (Fs x (or_introl eq_refl)), IH; [reflexivity|]. intros y I. apply Fs. now right. }
  assert (Fr : forall k, k < r_steps g -> exists rs, scalar_frame k names xs = Ok (MkFrame ["name"] (combine (map (fun v => [v]) names) rs)) /\
             Forall2 (fun v r => exists a, dget v (r_variables g) = Some (nil, a) /\ aget a [k] = Ok r) names rs).
  { intros k Hk. unfold scalar_frame.
    assert (Q : exists rs, map_res (fun p : string * (list string * arr R) => let* r := aget (snd (snd p)) [k] in Ok ([fst p], r)) (combine names xs) = Ok (combine (map (fun v => [v]) names) rs) /\
                Forall2 (fun v r => exists a, dget v (r_variables g) = Some (nil, a) /\ aget a [k] = Ok r) names rs).
    { clear Hl Hn Ex Ds Fs. induction Fx as [|v x names xs E Fx IH]; [exists []; split; [reflexivity | constructor]|].
      destruct IH as (rs & E' & F'); [intros u I; apply Hv; now right|]. apply D in E. destruct (Hv v (or_introl eq_refl)) as (a & E'' & _ & W & shape & Sh & Fsh).
      rewrite E in E''. injection E'' as ->. inversion Fsh; subst. destruct (@aget_ok _ a [k] W) as (r & Er); [rewrite Sh; repeat constructor; exact Hk|].
      exists (r :: rs). split; [|constructor; [exists a; auto | exact F']]. cbn [combine map_res fst snd]. rewrite Er. cbn [bind]. rewrite E'. reflexivity. }
    destruct Q as (rs & -> & F'). exists rs. split; [reflexivity | exact F']. }
  destruct (Fr (r_steps g - 1) ltac:(lia)) as (r1 & E1 & F1). destruct (Fr 0 Hs) as (r0 & E0 & F0).
  assert (L1 : length r1 = length names) by (symmetry; eapply Forall2_length; eauto). assert (L0 : length r0 = length names) by (symmetry; eapply Forall2_length; eauto).
  assert (C : forall rs : list R, length rs = length names -> map fst (combine (map (fun v : string => [v]) names) rs) = map (fun v => [v]) names /\ map snd (combine (map (fun v : string => [v]) names) rs) = rs).
  { clear. induction names as [|n names IH]; intros [|r rs] L; try discriminate; [split; reflexivity|]. cbn. destruct (IH rs ltac:(now injection L)) as (-> & ->). split; reflexivity. }
  destruct (@drawn_spec r1 r0 metric threshold ltac:(congruence) Hm) as (b & Eb & Db).
  exists b, r1, r0. split; [|auto].
  unfold plot_together. replace (match dget "optimizer" idata with Some g0 => Some g0 | None => dget "euler" idata end) with (Some g) by (destruct Hg as [->|[-> ->]]; reflexivity).
  rewrite (dedup_id Hn). cbv zeta. fold f. rewrite Ex. cbn [bind]. replace (Nat.eqb (r_steps g) 0) with false by (symmetry; apply Nat.eqb_neq; lia).
  rewrite Ds. cbn [dkeys map forallb negb map_res bind].
  destruct xs as [|x0 xs'] eqn:Exs; [inversion Fx; subst; contradiction|]. rewrite <- Exs in *.
  assert (Sm : forallb (fun x => same_dims (var_dims [] x) (var_dims [] x0)) xs = true).
  { apply forallb_forall. intros x I. unfold var_dims. rewrite (Fs x I), (Fs x0) by (rewrite Exs; now left). reflexivity. }
  rewrite Sm. cbn [negb]. rewrite E1. cbn [bind]. rewrite E0. cbn [bind]. unfold column_bars.
  assert (Gr : forall rows, grouped gd (MkFrame ["name"] rows) = Ok (MkFrame ["name"] rows)).
  { intros rows. unfold grouped. cbn [f_levels]. destruct gd as [d|]; [|reflexivity]. destruct (dget "name" d) as [cd|] eqn:G; [|reflexivity].
    exfalso. apply (Hgd d eq_refl). apply dget_In in G. apply in_map_iff. exists ("name", cd). auto. }
  rewrite !Gr. cbn [bind f_rows]. destruct (C r1 L1) as (C1 & C2). destruct (C r0 L0) as (_ & C3). rewrite C2, C3, Eb. cbn [bind].
  destruct names as [|n names']; [contradiction|]. destruct r1 as [|r r1']; [discriminate|]. cbn [combine map] in C1 |- *. cbn [bind fst snd]. rewrite <- C1. reflexivity.
Qed.

Lemma c100_repeated__p :
  forall (idata : dict results) (var_names : list string) (group_dict : option (dict (dict string))) (sel : dict (list string)) (metric : string) (threshold : R),
  plot_together idata var_names group_dict sel metric threshold = plot_together idata (dedup var_names) group_dict sel metric threshold.
Proof.
  intros. unfold plot_together. now rewrite (dedup_id (NoDup_dedup var_names)).
Qed.
