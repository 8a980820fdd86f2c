(** Lemmas for C97. *)
From Coq Require Import Reals Sorting.Sorted Sorting.Permutation.
From Verif Require Import Py PyStr NdArray M_Newton M_Plotting M_Finalize M_PlotBars S_Finalize S_PlotBars L_Finalize L_NumbaModel L_Tensor L_Plotting.
From Verif Require L_PlotLines.
Local Open Scope string_scope.
Local Open Scope list_scope.

(** ** Selected labels *)
Section Selection.
Variables c sel : dict (list string).
Hypothesis keys : NoDup (dkeys sel).

Lemma in_drop d : In d (drop_vars sel) <-> exists l, dget d sel = Some [l].
Proof.
  unfold drop_vars. rewrite in_map_iff. split.
  - intros ((d', ls) & <- & H). apply filter_In in H as (H & L). cbn [fst snd] in *.
    apply Nat.eqb_eq in L. destruct ls as [|l [|]]; try discriminate. exists l. now apply dget_In_NoDup.
  - intros (l & H). exists (d, [l]). split; [reflexivity|]. apply filter_In. split; [now apply dget_In | reflexivity].
Qed.
Lemma mem_drop d : mem_str d (drop_vars sel) = match dget d sel with Some [_] => true | _ => false end.
Proof.
  destruct (mem_str d (drop_vars sel)) eqn:M.
  - apply mem_str_In, in_drop in M. destruct M as (l & ->). reflexivity.
  - destruct (dget d sel) as [[|l [|]]|] eqn:E; try reflexivity.
    exfalso. assert (X : In d (drop_vars sel)) by (apply in_drop; eauto). apply mem_str_In in X. congruence.
Qed.
Lemma NoDup_drop : NoDup (drop_vars sel).
Proof.
  unfold drop_vars. unfold dkeys in keys. induction sel as [|(d, ls) s IH]; [constructor|]. cbn in *. inversion keys as [|? ? N D]; subst.
  destruct (Nat.eqb (length ls) 1); [|apply IH; assumption]. cbn. constructor; [|apply IH; assumption].
  intros I. apply N. apply in_map_iff in I as ((d', ls') & E & I). apply filter_In in I as (I & _). cbn in E. subst d'.
  apply in_map_iff. exists (d, ls'). auto.
Qed.
Lemma plotted_filter dims : filter (fun d => negb (mem_str d (drop_vars sel))) dims = plotted sel dims.
Proof. unfold plotted. apply filter_ext. intros d. rewrite mem_drop. now destruct (dget d sel) as [[|l [|]]|]. Qed.

Lemma drop_shorter dims : NoDup dims -> (forall d l, dget d sel = Some [l] -> In d dims) -> plotted sel dims <> [] ->
  length (drop_vars sel) < length dims.
Proof.
  intros N I P.
  assert (L : forall (f : string -> bool) l, length l = length (filter f l) + length (filter (fun x => negb (f x)) l)).
  { clear. intros f. induction l as [|x l IH]; [reflexivity|]. cbn. destruct (f x); cbn; lia. }
  rewrite (L (fun d => mem_str d (drop_vars sel)) dims), plotted_filter.
  assert (length (drop_vars sel) <= length (filter (fun d => mem_str d (drop_vars sel)) dims)).
  { apply NoDup_incl_length; [apply NoDup_drop|]. intros d H. apply filter_In. split; [|now apply mem_str_In].
    apply in_drop in H as (l & H). eauto. }
  destruct (plotted sel dims); [contradiction|]. cbn. lia.
Qed.

Lemma index_of_nth l all i : index_of String.eqb l all = Ok i -> nth_error all i = Some l.
Proof.
  revert i. induction all as [|x all IH]; intros i E; [discriminate|]. cbn in E.
  destruct (String.eqb_spec l x) as [->|]; [injection E as <-; reflexivity|].
  destruct (index_of String.eqb l all) as [j|]; [|discriminate]. injection E as <-. cbn. now apply IH.
Qed.
Lemma index_of_In l all : In l all -> exists i, index_of String.eqb l all = Ok i.
Proof.
  induction all as [|x all IH]; [intros []|]. intros H. cbn. destruct (String.eqb_spec l x) as [->|N]; [eauto|].
  destruct H as [->|H]; [contradiction|]. destruct (IH H) as (i & ->). cbn. eauto.
Qed.

Lemma labels_at_spec d all : dget d c = Some all -> (forall ls, dget d sel = Some ls -> forall l, In l ls -> In l all) ->
  exists ps, labels_at c sel d = Ok ps /\ map fst ps = shown c sel d /\ forall l i, In (l, i) ps -> nth_error all i = Some l.
Proof.
  intros D S. unfold labels_at, shown, dgetitem. rewrite D. cbn.
  destruct (dget d sel) as [ls|].
  - destruct (@map_res_exists _ _ (fun l => match index_of String.eqb l all with Ok i => Ok (l, i) | Err _ => Err KeyError end) ls) as (ps & E & F).
    { intros l H. destruct (index_of_In l all (S ls eq_refl l H)) as (i & ->). eauto. }
    exists ps. split; [exact E|]. clear E S. induction F as [|l (l', i) ls ps E F IH]; [split; [reflexivity | intros ? ? []]|].
    destruct (index_of String.eqb l all) as [j|] eqn:X; [|discriminate]. injection E as <- <-.
    destruct IH as (M & P). split; [cbn; now rewrite M|]. intros l1 i1 [H|H]; [injection H as <- <-; now apply index_of_nth | auto].
  - eexists. split; [reflexivity|]. split.
    + assert (X : forall (l : list string) n, map fst (combine l (seq n (length l))) = l).
      { clear. induction l as [|x l IH]; intros n; [reflexivity|]. cbn. now rewrite IH. }
      apply X.
    + assert (X : forall (l : list string) n x i, In (x, i) (combine l (seq n (length l))) -> n <= i /\ nth_error l (i - n) = Some x).
      { clear. induction l as [|y l IH]; intros n x i H; [destruct H|]. cbn in H. destruct H as [H|H].
        - injection H as <- <-. split; [lia|]. now rewrite Nat.sub_diag.
        - destruct (IH (S n) x i H) as (L & E). split; [lia|]. replace (i - n) with (S (i - S n)) by lia. exact E. }
      intros l i H. destruct (X _ _ _ _ H) as (_ & E). now rewrite Nat.sub_0_r in E.
Qed.

(** The pairs of all dims *)
Definition pairs_ok (d : string) (ps : list (string * nat)) : Prop :=
  map fst ps = shown c sel d /\ exists all, dget d c = Some all /\ forall l i, In (l, i) ps -> nth_error all i = Some l.
Lemma all_labels dims shape : Forall2 (fun d n => exists all, dget d c = Some all /\ length all = n /\ NoDup all /\ all <> []) dims shape -> selects c sel dims ->
  exists pss, map_res (labels_at c sel) dims = Ok pss /\ Forall2 pairs_ok dims pss.
Proof.
  intros F. induction F as [|d n dims shape (all & D & _) F IH]; intros S; [exists []; split; [reflexivity | constructor]|].
  destruct IH as (pss & E & G); [intros d' ls I; apply S; now right|].
  destruct (labels_at_spec d D) as (ps & Ep & M & P).
  { intros ls H l Hl. destruct (S d ls (or_introl eq_refl) H) as (_ & _ & all' & D' & X). rewrite D in D'. injection D' as <-. auto. }
  exists (ps :: pss). split; [cbn; now rewrite Ep; cbn; rewrite E|]. constructor; [|exact G]. split; [exact M | eauto].
Qed.

Lemma product_fst dims pss : Forall2 pairs_ok dims pss -> map (map fst) (product pss) = product (map (shown c sel) dims).
Proof.
  intros F. rewrite <- product_map. f_equal. induction F as [|d ps dims pss (M & _) F IH]; [reflexivity|]. cbn. now rewrite M, IH.
Qed.

(** Dropping the levels with one label *)
Lemma kept_cons (drop : list string) d dims xs yss : mem_str d drop = false ->
  map (kept drop (d :: dims)) (flat_map (fun x => map (cons x) yss) xs) = flat_map (fun x => map (cons x) (map (kept drop dims) yss)) xs.
Proof.
  intros M. induction xs as [|x xs IH]; [reflexivity|]. cbn [flat_map]. rewrite map_app, IH, !map_map. f_equal.
  apply map_ext. intros ys. cbn [kept]. now rewrite M.
Qed.
Lemma kept_product dims : map (kept (drop_vars sel) dims) (product (map (shown c sel) dims)) = product (map (shown c sel) (plotted sel dims)).
Proof.
  induction dims as [|d dims IH]; [reflexivity|]. rewrite <- plotted_filter. cbn [filter]. rewrite plotted_filter.
  destruct (mem_str d (drop_vars sel)) eqn:M; cbn [negb map product].
  - rewrite <- IH. rewrite mem_drop in M. destruct (dget d sel) as [[|l [|]]|] eqn:E; try discriminate.
    assert (Sh : shown c sel d = [l]) by (unfold shown; rewrite E; reflexivity). rewrite Sh.
    cbn [flat_map]. rewrite app_nil_r, map_map. apply map_ext. intros ls. cbn [kept].
    replace (mem_str d (drop_vars sel)) with true; [reflexivity|]. rewrite mem_drop, E. reflexivity.
  - rewrite <- IH. now apply kept_cons.
Qed.

(** The label of a dim of a row *)
Lemma kept_other drop levels : forall ls d, ~ In d levels -> dget d (combine (filter (fun d => negb (mem_str d drop)) levels) (kept drop levels ls)) = None.
Proof.
  induction levels as [|x levels IH]; intros ls d N; [reflexivity|]. cbn.
  destruct ls as [|l ls].
  - destruct (mem_str x drop); cbn; [|reflexivity]. destruct (filter _ levels); reflexivity.
  - destruct (mem_str x drop); cbn; [apply IH; intros H; apply N; now right|].
    destruct (String.eqb_spec d x) as [->|]; [exfalso; apply N; now left|]. apply IH. intros H. apply N. now right.
Qed.
Lemma row_labels dims : NoDup dims -> forall ps pss, Forall2 pairs_ok dims pss -> Forall2 (fun x l => In x l) ps pss ->
  forall d l i, In (d, (l, i)) (combine dims ps) -> bar_label c sel dims (kept (drop_vars sel) dims (map fst ps)) d = Some l.
Proof.
  intros N ps pss F G d l i H.
  assert (Sng : forall l', dget d sel = Some [l'] -> l = l').
  { intros l' E. revert ps G H. clear N. induction F as [|d0 p0 dims pss (M & _) F IH]; intros ps G H; [destruct H|].
    inversion G as [|x ? ps' ? Hx G']; subst. cbn in H. destruct H as [H|H]; [|eapply IH; eauto].
    injection H as -> ->. unfold shown in M. rewrite E in M.
    apply (in_map fst) in Hx. rewrite M in Hx. cbn in Hx. destruct Hx as [Hx|[]]. now symmetry. }
  unfold bar_label. destruct (dget d sel) as [[|l1 [|l2 lr]]|] eqn:E; [| now rewrite (Sng l1 eq_refl) | |];
    (rewrite <- plotted_filter; assert (M : mem_str d (drop_vars sel) = false) by (rewrite mem_drop, E; reflexivity);
     clear Sng; revert ps pss F G H; induction N as [|d0 dims N0 N IH]; intros ps pss F G H; [destruct H|];
     inversion F as [|? p0 ? pss' F0 F']; subst; inversion G as [|(lz, iz) ? ps' ? Hx G']; subst; cbn in H; cbn [map fst kept filter];
     destruct H as [H|H];
     [ injection H as -> -> ->; rewrite M; cbn; now rewrite String.eqb_refl
     | assert (X : d0 <> d) by (intros ->; apply N0; eapply in_combine_l; exact H);
       destruct (mem_str d0 (drop_vars sel)); cbn; [eapply IH; eauto|];
       destruct (String.eqb_spec d d0) as [->|]; [contradiction|]; eapply IH; eauto ]).
Qed.

(** ** Frames *)
Lemma frame_spec steps dims a k : array_of c steps dims a -> selects c sel dims -> k < steps ->
  (forall d l, dget d sel = Some [l] -> In d dims) -> plotted sel dims <> [] ->
  exists rows, frame_of c sel k (dims, a) = Ok (MkFrame (plotted sel dims) rows) /\
    map fst rows = product (map (shown c sel) (plotted sel dims)) /\
    bar_values c sel dims a k (map fst rows) (map snd rows).
Proof.
  intros (N & W & shape & Sh & F) S K I P.
  destruct (all_labels F S) as (pss & E & G).
  assert (RR : forall p, In p (product pss) -> in_range shape (map snd p) /\ Forall2 (fun x l => In x l) p pss /\
             Forall2 (fun d i => exists all l, dget d c = Some all /\ nth_error all i = Some l) dims (map snd p)).
  { intros p Hp. apply in_product in Hp. rename Hp into Hp0. pose proof Hp0 as Hp.
    clear W Sh E S I P N. revert p shape F Hp Hp0. induction G as [|d ps dims pss (M & all & D & X) G IH]; intros p shape F Hp Hp0.
    - inversion Hp; subst. inversion F; subst. split; [constructor|]. split; [constructor | constructor].
    - inversion Hp as [|(l, i) ? p' ? H0 Hp']; subst. inversion F as [|? n ? shape' (all' & D' & L & _) F']; subst.
      rewrite D in D'. injection D' as <-. destruct (IH p' shape' F' Hp' Hp') as (R1 & R2 & R3).
      specialize (X l i H0). split; [|split; [constructor; assumption|]].
      + constructor; [apply nth_error_Some; cbn; congruence | exact R1].
      + constructor; [exists all, l; split; [exact D | exact X] | exact R3]. }
  destruct (@map_res_exists _ _ (fun p : list (string * nat) => let* r := aget a (k :: map snd p) in Ok (map fst p, r)) (product pss)) as (rows & Er & Fr).
  { intros p Hp. destruct (RR p Hp) as (R1 & _). destruct (@aget_ok _ a (k :: map snd p) W) as (v & ->); [|cbn; eauto].
    rewrite Sh. constructor; [exact K | exact R1]. }
  assert (M1 : map fst rows = product (map (shown c sel) dims)).
  { rewrite <- (product_fst G). clear Er RR. induction Fr as [|p (ls, r) pp rows H Fr IH]; [reflexivity|].
    destruct (aget a (k :: map snd p)); [|discriminate]. cbn in H. injection H as <- <-. cbn. now rewrite IH. }
  exists (map (fun r => (kept (drop_vars sel) dims (fst r), snd r)) rows). split; [|split].
  - unfold frame_of, to_dataframe. cbn [fst snd]. rewrite E. cbn [bind]. rewrite Er. cbn [bind]. unfold droplevel. cbn [f_levels f_rows].
    assert (A : forallb (fun d => mem_str d dims) (drop_vars sel) = true).
    { apply forallb_forall. intros d H. apply in_drop in H as (l & H). apply mem_str_In. eauto. }
    rewrite A. cbn [negb]. pose proof (drop_shorter N I P) as L.
    assert (B : Nat.leb (length dims) (length (drop_vars sel)) = false) by (apply Nat.leb_gt; exact L).
    rewrite B, plotted_filter. reflexivity.
  - rewrite map_map. cbn [fst]. rewrite <- kept_product, <- M1, map_map. reflexivity.
  - rewrite !map_map. cbn [fst snd]. unfold bar_values. clear Er M1.
    assert (Q : forall p ls r, In p (product pss) -> aget a (k :: map snd p) = Ok r -> ls = map fst p ->
                element c dims a k (bar_label c sel dims (kept (drop_vars sel) dims ls)) r).
    { intros p ls r Hp Ha ->. destruct (RR p Hp) as (R1 & R2 & R3). exists (map snd p). split; [|exact Ha].
      assert (Y : forall d l i, In (d, (l, i)) (combine dims p) -> bar_label c sel dims (kept (drop_vars sel) dims (map fst p)) d = Some l /\ exists all, dget d c = Some all /\ nth_error all i = Some l).
      { intros d l i H. split; [eapply row_labels; eauto|]. clear - G R2 H. revert p R2 H. induction G as [|d0 ps0 dims pss (_ & all & D & X) G IH]; intros p R2 H; [destruct H|].
        inversion R2 as [|x ? p' ? Hx R2']; subst. cbn in H. destruct H as [H|H]; [|eapply IH; eauto]. injection H as -> ->. exists all. split; [exact D | auto]. }
      revert Y. generalize (bar_label c sel dims (kept (drop_vars sel) dims (map fst p))). intros f Y.
      assert (L : length dims = length p) by (apply Forall2_length in R3; now rewrite map_length in R3).
      clear - Y L. revert p Y L. induction dims as [|d dims IH]; intros [|(l, i) p] Y L; try discriminate; [constructor|].
      cbn [map snd]. constructor.
      - destruct (Y d l i (or_introl eq_refl)) as (B1 & all & D & X). exists all, l. auto.
      - apply IH; [intros d' l' i' H; apply Y; now right | now injection L]. }
    assert (Inc : forall p, In p (product pss) -> In p (product pss)) by auto. revert Fr Inc.
    generalize (product pss) at 1 2. intros pp Fr Inc.
    induction Fr as [|p (ls, r) pp rows H Fr IH]; [constructor|]. cbn [map fst snd].
    destruct (aget a (k :: map snd p)) as [r'|] eqn:Ea; [|discriminate]. cbn in H. injection H as <- <-.
    constructor; [eapply Q; [apply Inc; now left | exact Ea | reflexivity] | apply IH; intros q Hq; apply Inc; now right].
Qed.

Lemma rows_nonempty steps dims a : array_of c steps dims a -> selects c sel dims -> product (map (shown c sel) (plotted sel dims)) <> [].
Proof.
  intros (N & W & shape & Sh & F) S.
  assert (X : forall d, In d dims -> shown c sel d <> []).
  { intros d I. unfold shown. destruct (dget d sel) as [ls|] eqn:E; [now destruct (S d ls I E)|].
    clear - F I. induction F as [|d0 n dims shape (all & D & _ & _ & Q) F IH]; [destruct I|]. destruct I as [->|I]; [now rewrite D | auto]. }
  assert (Y : forall d, In d (plotted sel dims) -> shown c sel d <> []) by (intros d I; apply filter_In in I as (I & _); auto).
  clear - Y. induction (plotted sel dims) as [|d l IH]; [discriminate|]. cbn.
  specialize (IH (fun d' I => Y d' (or_intror I))). specialize (Y d (or_introl eq_refl)).
  destruct (shown c sel d) as [|x xs]; [contradiction|]. destruct (product (map (shown c sel) l)); [contradiction|]. discriminate.
Qed.
End Selection.

(** ** Groups *)
Lemma insert_name_In n l x : In x (insert_name n l) <-> x = n \/ In x l.
Proof.
  induction l as [|y l IH]; cbn; [intuition|]. destruct (name_leb n y); cbn; [intuition|]. rewrite IH. intuition.
Qed.
Lemma insert_name_sorted n l : ~ In n l -> StronglySorted before l -> StronglySorted before (insert_name n l).
Proof.
  induction l as [|x l IH]; intros Hn H; cbn; [constructor; constructor|].
  inversion H as [|? ? Hs Hf]; subst. unfold name_leb. pose proof (compare_before n x) as C.
  destruct (String.compare n x) eqn:E.
  - exfalso. apply Hn. left. now symmetry.
  - constructor; auto. constructor; auto. rewrite Forall_forall in *. intros y Hy. eapply before_trans; eauto.
  - constructor; [apply IH; auto; intro; apply Hn; now right|]. rewrite Forall_forall in *. intros y Hy.
    apply insert_name_In in Hy as [->|Hy]; auto.
Qed.
Lemma group_names_spec l : StronglySorted before (group_names l) /\ forall g, In g (group_names l) <-> In g l.
Proof.
  unfold group_names. assert (X : forall l', NoDup l' -> StronglySorted before (fold_right insert_name [] l') /\ forall g, In g (fold_right insert_name [] l') <-> In g l').
  { induction l' as [|x l' IH]; intros N; [split; [constructor | reflexivity]|]. inversion N as [|? ? N1 N2]; subst. destruct (IH N2) as (S & M). cbn. split.
    - apply insert_name_sorted; [now rewrite M | exact S].
    - intros g. rewrite insert_name_In, M. intuition. }
  destruct (X (dedup l) (NoDup_dedup l)) as (S & M). split; [exact S|]. intros g. rewrite M. apply in_dedup.
Qed.

Lemma group_sum_spec cd f d labels : f_levels f = [d] -> map fst (f_rows f) = map (fun l => [l]) labels -> (forall l, In l labels -> In l (dkeys cd)) ->
  exists names, group_names (map (fun l => match dget l cd with Some g => g | None => "" end) labels) = names /\
    group_sum cd f = Ok (MkFrame ["group"] (map (fun g => ([g], total cd labels (map snd (f_rows f)) g)) names)).
Proof.
  intros _ M K. eexists. split; [reflexivity|]. unfold group_sum, total.
  assert (X : map_res (fun r : list string * R => let* g := dgetitem (hd "" (fst r)) cd in Ok (g, snd r)) (f_rows f) =
              Ok (map (fun p => (match dget (fst p) cd with Some g => g | None => "" end, snd p)) (combine labels (map snd (f_rows f))))).
  { revert labels M K. generalize (f_rows f). induction l as [|(ls, r) rows IH]; intros [|l labels] M K; try discriminate; [reflexivity|].
    cbn in M. injection M as -> M. cbn [map_res fst snd hd].
    destruct (dget l cd) as [g|] eqn:E; [|exfalso; apply dget_None in E; apply E, K; now left].
    assert (Dg : dgetitem l cd = Ok g) by (unfold dgetitem; now rewrite E). rewrite Dg. cbn [bind].
    rewrite (IH labels M (fun l' I => K l' (or_intror I))). cbn [map combine fst snd]. rewrite E. reflexivity. }
  rewrite X. cbn [bind].
  assert (L : map fst (map (fun p : string * R => (match dget (fst p) cd with Some g => g | None => "" end, snd p)) (combine labels (map snd (f_rows f)))) =
              map (fun l => match dget l cd with Some g => g | None => "" end) labels).
  { clear X K. revert labels M. generalize (f_rows f). induction l as [|(ls, r) rows IH]; intros [|l labels] M; try discriminate; [reflexivity|].
    cbn in M. injection M as _ M. cbn. f_equal. now apply IH. }
  rewrite L. do 2 f_equal. apply map_ext. intros g. do 2 f_equal. clear X L M.
  revert K. generalize (map snd (f_rows f)). induction labels as [|l labels IH]; intros [|r rs] K; try reflexivity.
  destruct (dget l cd) as [g'|] eqn:E; [|exfalso; apply dget_None in E; apply E, K; now left].
  specialize (IH rs (fun l' I => K l' (or_intror I))). cbn [combine map filter fst snd]. rewrite E.
  destruct (String.eqb g' g); cbn [map]; [f_equal|]; exact IH.
Qed.
Lemma groups_of_names cd labels : (forall l, In l labels -> In l (dkeys cd)) ->
  groups_of cd labels (group_names (map (fun l => match dget l cd with Some g => g | None => "" end) labels)).
Proof.
  intros K. destruct (group_names_spec (map (fun l => match dget l cd with Some g => g | None => "" end) labels)) as (S & M).
  split; [exact S|]. intros g. rewrite M, in_map_iff. split.
  - intros (l & E & I). exists l. split; [exact I|]. destruct (dget l cd) as [g'|] eqn:D; [now subst|].
    exfalso. apply dget_None in D. apply D, K, I.
  - intros (l & I & E). exists l. rewrite E. auto.
Qed.

(** ** Bars *)
Lemma drawn_spec after before metric threshold : length after = length before -> In metric metrics ->
  exists b, compute_bar_data after before metric threshold = Ok b /\ drawn threshold after before metric b.
Proof.
  intros L I. unfold compute_bar_data. rewrite (proj2 (Nat.eqb_eq _ _) L). cbn [negb].
  assert (P : forall f, pointwise f after before = map (fun p => f (fst p) (snd p)) (combine after before)).
  { intros f. clear. revert before. induction after as [|x l IH]; intros [|y l']; try reflexivity. cbn. now rewrite IH. }
  assert (Q : pct_change threshold after before = map (fun p => if Rlt_dec threshold (snd p) then (fst p - snd p) / snd p else 0)%R (combine after before)).
  { clear. revert before. induction after as [|x l IH]; intros [|y l']; try reflexivity. cbn. rewrite IH. f_equal.
    unfold rlt. now destruct (Rlt_dec threshold y). }
  cbn in I. destruct I as [<-|[<-|[<-|[<-|[<-|[<-|[]]]]]]]; cbn [String.eqb Ascii.eqb Bool.eqb]; eexists; (split; [reflexivity|]); rewrite ?P, ?Q; constructor.
Qed.

Lemma one_bar c sel gd steps dims a metric threshold : NoDup (dkeys sel) -> array_of c steps dims a -> selects c sel dims -> 0 < steps -> drawable sel dims ->
  has_groups c sel gd dims -> In metric metrics ->
  exists labels after before b, plot_one_bar c sel gd steps (dims, a) metric threshold = Ok (labels, b) /\
    bars_of c sel gd steps dims a labels after before /\ drawn threshold after before metric b.
Proof.
  intros K A S St (P & D) G M.
  destruct (@frame_spec c sel K steps dims a (steps - 1) A S ltac:(lia) D P) as (r1 & E1 & L1 & V1).
  destruct (@frame_spec c sel K steps dims a 0 A S St D P) as (r0 & E0 & L0 & V0).
  pose proof (@rows_nonempty c sel steps dims a A S) as Ne.
  unfold plot_one_bar. rewrite E1. cbn [bind]. rewrite E0. cbn [bind]. unfold grouped. cbn [f_levels].
  unfold has_groups in G. unfold bars_of.
  destruct (group_for gd (plotted sel dims)) as [(d, cd)|] eqn:Gf.
  - unfold group_for in Gf. destruct gd as [gd|]; [|discriminate].
    destruct (plotted sel dims) as [|d1 [|d2 rest]] eqn:Pl; try discriminate.
    destruct (dget d1 gd) as [cd1|] eqn:Dg; [|discriminate]. injection Gf as <- <-. specialize (G d1 cd1 eq_refl).
    cbn [map product] in L1, L0, Ne |- *.
    assert (Sg : flat_map (fun x : string => [[x]]) (shown c sel d1) = map (fun l => [l]) (shown c sel d1)).
    { clear. induction (shown c sel d1) as [|x l IH]; [reflexivity|]. cbn in *. now rewrite IH. }
    rewrite Sg in L1, L0, Ne |- *.
    destruct (@group_sum_spec cd1 (MkFrame [d1] r1) d1 (shown c sel d1) eq_refl L1 G) as (n1 & N1 & Q1).
    destruct (@group_sum_spec cd1 (MkFrame [d1] r0) d1 (shown c sel d1) eq_refl L0 G) as (n0 & N0 & Q0).
    assert (n0 = n1) as -> by congruence. cbn [f_rows] in Q1, Q0. rewrite Q1. cbn [bind]. rewrite Q0. cbn [bind f_rows]. rewrite !map_map. cbn [fst snd].
    destruct (@drawn_spec (map (total cd1 (shown c sel d1) (map snd r1)) n1) (map (total cd1 (shown c sel d1) (map snd r0)) n1) metric threshold ltac:(now rewrite !map_length) M) as (b & Eb & Db).
    exists (map (fun g => [g]) n1), (map (total cd1 (shown c sel d1) (map snd r1)) n1), (map (total cd1 (shown c sel d1) (map snd r0)) n1), b.
    split; [|split; [|exact Db]].
    + change (fun x : string => total cd1 (shown c sel d1) (map snd r1) x) with (total cd1 (shown c sel d1) (map snd r1)).
      change (fun x : string => total cd1 (shown c sel d1) (map snd r0) x) with (total cd1 (shown c sel d1) (map snd r0)).
      rewrite Eb. cbn [bind]. destruct n1 as [|g n1]; [|reflexivity]. exfalso.
      destruct (shown c sel d1) as [|l ls]; [now apply Ne|].
      destruct (group_names_spec (map (fun l => match dget l cd1 with Some g => g | None => "" end) (l :: ls))) as (_ & X).
      rewrite N1 in X. apply (X (match dget l cd1 with Some g => g | None => "" end)). now left.
    + exists (map (fun l => [l]) (shown c sel d1)), (map snd r1), (map snd r0). rewrite L1 in V1. rewrite L0 in V0. split; [reflexivity|].
      split; [exact V1|]. split; [exact V0|]. exists n1. split; [|auto]. rewrite <- N1. now apply groups_of_names.
  - assert (Gr : forall r, match gd, plotted sel dims with
                 | Some gd, [n] => match dget n gd with Some cd => group_sum cd (MkFrame (plotted sel dims) r) | None => Ok (MkFrame (plotted sel dims) r) end
                 | _, _ => Ok (MkFrame (plotted sel dims) r) end = Ok (MkFrame (plotted sel dims) r)).
    { intros r. unfold group_for in Gf. destruct gd as [gd|]; [|reflexivity]. destruct (plotted sel dims) as [|d1 [|]]; try reflexivity.
      now destruct (dget d1 gd). }
    rewrite !Gr. cbn [bind f_rows]. 
    destruct (@drawn_spec (map snd r1) (map snd r0) metric threshold) as (b & Eb & Db); [|exact M|].
    { rewrite !map_length. rewrite <- (map_length fst r1), <- (map_length fst r0). now rewrite L1, L0. }
    rewrite Eb. cbn [bind]. exists (map fst r1), (map snd r1), (map snd r0), b. split; [|split; [|exact Db]].
    + destruct r1; [exfalso; apply Ne; now rewrite <- L1 | reflexivity].
    + exists (map fst r1), (map snd r1), (map snd r0). split; [exact L1|]. split; [exact V1|]. split; [|auto]. rewrite L1, <- L0. exact V0.
Qed.

(** ** plot_bar *)
Lemma c97_bars__p :
  forall idata g names sel gd n_cols metric threshold,
    n_cols <> 0 -> names <> nil -> In metric metrics ->
    (dget "optimizer"%string idata = Some g \/ (dget "optimizer"%string idata = None /\ dget "euler"%string idata = Some g)) ->
    0 < r_steps g -> NoDup (dkeys sel) ->
    (forall v, In v names -> exists dims a, dget v (r_variables g) = Some (dims, a) /\ array_of (r_coords g) (r_steps g) dims a /\
       selects (r_coords g) sel dims /\ drawable sel dims /\ has_groups (r_coords g) sel gd dims) ->
    (forall d, In d (dkeys sel) -> exists v dims a, In v names /\ dget v (r_variables g) = Some (dims, a) /\ In d dims) ->
    exists axes places,
      plot_bar idata names gd sel n_cols metric threshold = Ok axes /\
      prepare_gridspec_figure (Nat.min n_cols (length names)) (length names) = Ok places /\
      length axes = length names /\
      forall i v dims a, nth_error names i = Some v -> dget v (r_variables g) = Some (dims, a) -> exists ax after before,
        nth_error axes i = Some ax /\ b_title ax = v /\ nth_error (snd places) i = Some (b_place ax) /\
        bars_of (r_coords g) sel gd (r_steps g) dims a (b_labels ax) after before /\
        drawn threshold after before metric (b_bars ax).
Proof.
  intros idata g names sel gd n_cols metric threshold Hn Hl Hm Hg Hs K Hv Hd.
  set (f := fun v => dgetitem v (r_variables g)).
  destruct (@map_res_exists _ _ f names) as (xs & Ex & Fx).
  { intros v I. destruct (Hv v I) as (dims & a & D & _). exists (dims, a). unfold f, dgetitem. now rewrite D. }
  assert (D : forall v x, f v = Ok x -> dget v (r_variables g) = Some x) by (intros v x; unfold f, dgetitem; destruct (dget v (r_variables g)); congruence).
  assert (Lx : length (combine names xs) = length names) by (rewrite combine_length; apply Forall2_length in Fx; lia).
  assert (Lc : 1 <= length names) by (destruct names; [tauto | cbn; lia]).
  destruct (@c65_grid__p (Nat.min n_cols (length names)) (length names)) as (rows & locs & GR & _ & Ll & _); [lia | lia |].
  destruct (@L_PlotLines.map_res_combine (string * (list string * arr R)) loc bar_axis
    (fun p => let* b := plot_one_bar (r_coords g) sel gd (r_steps g) (snd (fst p)) metric threshold in
              Ok (MkBarAxis (fst (fst p)) (snd p) (fst b) (snd b)))
    (fun v place ax => b_title ax = fst v /\ b_place ax = place /\ exists after before,
        bars_of (r_coords g) sel gd (r_steps g) (fst (snd v)) (snd (snd v)) (b_labels ax) after before /\
        drawn threshold after before metric (b_bars ax)) (combine names xs) locs ltac:(congruence)) as (axes & EA & LA & NA).
  { intros (v, (dims, a)) place I. cbn [fst snd].
    assert (Hd' : dget v (r_variables g) = Some (dims, a)).
    { apply D. clear - Fx I. induction Fx as [|v0 x0 names xs E F IH]; [destruct I|]. destruct I as [I|I]; [injection I as -> ->; exact E | auto]. }
    destruct (Hv v (in_combine_l _ _ _ _ I)) as (dims' & a' & D' & A & S & Dr & G). rewrite Hd' in D'. injection D' as <- <-.
    destruct (@one_bar (r_coords g) sel gd (r_steps g) dims a metric threshold K A S Hs Dr G Hm) as (labels & after & before & b & E & B & W).
    rewrite E. cbn [bind fst snd]. eexists. split; [reflexivity|]. cbn. split; [reflexivity|]. split; [reflexivity|]. eauto. }
  exists axes. eexists. split; [|split; [exact GR | split; [congruence|]]].
  - unfold plot_bar. replace (match dget "optimizer" idata with Some g0 => Some g0 | None => dget "euler" idata end) with (Some g) by (destruct Hg as [->|[-> ->]]; reflexivity).
    fold f. rewrite Ex. cbn [bind]. replace (Nat.eqb (r_steps g) 0) with false by (symmetry; apply Nat.eqb_neq; lia).
    replace (forallb (fun d => existsb (fun x => mem_str d (fst x)) xs) (dkeys sel)) with true.
    + cbn [negb]. rewrite GR. cbn [bind snd]. exact EA.
    + symmetry. apply forallb_forall. intros d I. destruct (Hd d I) as (v & dims & a & Iv & Dv & Id). apply existsb_exists. exists (dims, a). split.
      * clear - Fx Iv Dv D. induction Fx as [|v0 x0 names xs E F IH]; [destruct Iv|]. destruct Iv as [->|Iv]; [left | right; auto].
        apply D in E. congruence.
      * now apply mem_str_In.
  - intros i v dims a Ni Dv.
    assert (Nc : nth_error (combine names xs) i = Some (v, (dims, a))).
    { clear - Fx Ni Dv D. revert i Ni. induction Fx as [|v0 x0 names xs E F IH]; intros [|i] Ni; try discriminate; cbn in *.
      - injection Ni as ->. apply D in E. congruence.
      - auto. }
    destruct (NA i _ Nc) as (place & ax & Np & Nx & T & <- & after & before & B & W). exists ax, after, before. auto.
Qed.

(** A variable without the dim of a selected label *)
Lemma c97_missing_dim_refuted__p :
  forall idata g v w sel gd n_cols metric threshold d l dims a,
    n_cols <> 0 -> (dget "optimizer"%string idata = Some g \/ (dget "optimizer"%string idata = None /\ dget "euler"%string idata = Some g)) ->
    0 < r_steps g -> sel = (d, l :: nil) :: nil -> dget v (r_variables g) = Some (dims, a) -> array_of (r_coords g) (r_steps g) dims a ->
    selects (r_coords g) sel dims -> ~ In d dims -> In w (dkeys (r_variables g)) ->
    plot_bar idata (v :: w :: nil) gd sel n_cols metric threshold = Err KeyError.
Proof.
  intros idata g v w sel gd n_cols metric threshold d l dims a Hn Hg Hs -> Dv A S Nd Iw.
  unfold plot_bar. replace (match dget "optimizer" idata with Some g0 => Some g0 | None => dget "euler" idata end) with (Some g) by (destruct Hg as [->|[-> ->]]; reflexivity).
  destruct (dget w (r_variables g)) as [xw|] eqn:Dw; [|apply dget_None in Dw; contradiction].
  cbn [map_res]. unfold dgetitem at 1. rewrite Dv. cbn [bind]. unfold dgetitem at 1. rewrite Dw. cbn [bind].
  replace (Nat.eqb (r_steps g) 0) with false by (symmetry; apply Nat.eqb_neq; lia).
  destruct (negb _); [reflexivity|].
  destruct (@c65_grid__p (Nat.min n_cols 2) 2) as (rows & locs & GR & _ & Ll & _); [lia | lia |].
  cbn [length] in *. rewrite GR. cbn [bind snd]. destruct locs as [|p1 [|p2 [|]]]; try discriminate. cbn [combine map_res fst snd].
  assert (E : plot_one_bar (r_coords g) [(d, [l])] gd (r_steps g) (dims, a) metric threshold = Err KeyError); [|rewrite E; reflexivity].
  unfold plot_one_bar, frame_of.
  destruct A as (N & W & shape & Sh & F). destruct (@all_labels (r_coords g) [(d, [l])] dims shape F S) as (pss & E & G).
  unfold to_dataframe. cbn [fst snd]. rewrite E. cbn [bind].
  destruct (@map_res_exists _ _ (fun p : list (string * nat) => let* r := aget a ((r_steps g - 1)%nat :: map snd p) in Ok (map fst p, r)) (product pss)) as (rows' & Er & _).
  { intros p Hp. apply in_product in Hp.
    assert (R1 : in_range shape (map snd p)).
    { clear - G F Hp. revert p shape F Hp. induction G as [|d0 ps dims pss (M & all & D & X) G IH]; intros p shape F Hp.
      - inversion Hp; subst. inversion F; subst. constructor.
      - inversion Hp as [|(lb, i) ? p' ? H0 Hp']; subst. inversion F as [|? n ? shape' (all' & D' & L & _) F']; subst.
        rewrite D in D'. injection D' as <-. constructor; [apply nth_error_Some; cbn; rewrite (X lb i H0); discriminate | eapply IH; eauto]. }
    destruct (@aget_ok _ a ((r_steps g - 1)%nat :: map snd p) W) as (v' & ->); [|cbn; eauto].
    rewrite Sh. constructor; [lia | exact R1]. }
  rewrite Er. cbn [bind]. unfold droplevel, drop_vars. cbn [filter snd length Nat.eqb map fst f_levels forallb].
  replace (mem_str d dims) with false by (symmetry; now apply mem_str_nIn). reflexivity.
Qed.

(** A variable all of whose dims have one selected label *)
Lemma c97_all_selected_refuted__p :
  forall idata g v sel gd n_cols metric threshold d l a,
    n_cols <> 0 -> (dget "optimizer"%string idata = Some g \/ (dget "optimizer"%string idata = None /\ dget "euler"%string idata = Some g)) ->
    0 < r_steps g -> sel = (d, l :: nil) :: nil -> dget v (r_variables g) = Some (d :: nil, a) -> array_of (r_coords g) (r_steps g) (d :: nil) a ->
    selects (r_coords g) sel (d :: nil) ->
    plot_bar idata (v :: nil) gd sel n_cols metric threshold = Err AttributeError.
Proof.
  intros idata g v sel gd n_cols metric threshold d l a Hn Hg Hs -> Dv A S.
  unfold plot_bar. replace (match dget "optimizer" idata with Some g0 => Some g0 | None => dget "euler" idata end) with (Some g) by (destruct Hg as [->|[-> ->]]; reflexivity).
  cbn [map_res]. unfold dgetitem at 1. rewrite Dv. cbn [bind].
  replace (Nat.eqb (r_steps g) 0) with false by (symmetry; apply Nat.eqb_neq; lia).
  cbn [dkeys map fst forallb existsb mem_str]. rewrite String.eqb_refl. cbn [orb andb negb].
  destruct (@c65_grid__p (Nat.min n_cols 1) 1) as (rows & locs & GR & _ & Ll & _); [lia | lia |].
  cbn [length] in *. rewrite GR. cbn [bind snd]. destruct locs as [|p1 [|]]; try discriminate. cbn [combine map_res fst snd].
  assert (E : plot_one_bar (r_coords g) [(d, [l])] gd (r_steps g) ([d], a) metric threshold = Err AttributeError); [|rewrite E; reflexivity].
  unfold plot_one_bar, frame_of.
  destruct A as (N & W & shape & Sh & F). destruct (@all_labels (r_coords g) [(d, [l])] [d] shape F S) as (pss & E & G).
  unfold to_dataframe. cbn [fst snd]. rewrite E. cbn [bind].
  destruct (@map_res_exists _ _ (fun p : list (string * nat) => let* r := aget a ((r_steps g - 1)%nat :: map snd p) in Ok (map fst p, r)) (product pss)) as (rows' & Er & _).
  { intros p Hp. apply in_product in Hp.
    assert (R1 : in_range shape (map snd p)).
    { clear - G F Hp. revert p shape F Hp. induction G as [|d0 ps dims pss (M & all & D & X) G IH]; intros p shape F Hp.
      - inversion Hp; subst. inversion F; subst. constructor.
      - inversion Hp as [|(lb, i) ? p' ? H0 Hp']; subst. inversion F as [|? n ? shape' (all' & D' & L & _) F']; subst.
        rewrite D in D'. injection D' as <-. constructor; [apply nth_error_Some; cbn; rewrite (X lb i H0); discriminate | eapply IH; eauto]. }
    destruct (@aget_ok _ a ((r_steps g - 1)%nat :: map snd p) W) as (v' & ->); [|cbn; eauto].
    rewrite Sh. constructor; [lia | exact R1]. }
  rewrite Er. cbn [bind]. unfold droplevel, drop_vars. cbn [filter snd length Nat.eqb map fst f_levels forallb mem_str existsb]. rewrite String.eqb_refl. reflexivity.
Qed.
