(** Lemmas for expansion of objects: C11-C14. *)
From Verif Require Import Py PyStr NdArray M_Primitives M_Utilities M_Expand M_ExpandHeap.
From Verif Require Import S_Layout S_Markers S_Expand L_Utilities L_Markers.
Local Open Scope string_scope.
Local Arguments String.prefix _ _ : simpl never.
Local Arguments initialize_full_latex_name _ _ _ _ : simpl never.
Local Arguments pretty_print_dim_flags _ _ _ : simpl never.

Lemma dupdate_app {V} (d1 d2 d3 : dict V) : dupdate d1 (d2 ++ d3)%list = dupdate (dupdate d1 d2) d3.
Proof. unfold dupdate. apply fold_left_app. Qed.

Lemma set_labels_ok o ds ls :
  (forall d, In d ds -> In d (o_dims o)) -> length ds = length ls ->
  exists o', set_labels o ds ls = Ok o' /\ same_attributes o o' /\
             o_dim_vals o' = dupdate (o_dim_vals o) (combine ds ls).
Proof.
  unfold set_labels. revert o ls. induction ds as [|d ds IH]; intros o ls Hin Hl; destruct ls as [|l ls]; try discriminate.
  - exists o. repeat split.
  - cbn [combine fold_res fst snd]. unfold update_dim_value at 1.
    assert (M : mem_str d (o_dims o) = true) by (apply mem_str_In, Hin; simpl; auto).
    rewrite M. cbn [bind].
    match goal with |- exists o', fold_res _ ?o1 _ = _ /\ _ => destruct (IH o1 ls) as (o' & E & A & D) end.
    + simpl. intros; apply Hin; simpl; auto.
    + simpl in Hl. lia.
    + exists o'. split; [exact E|]. split; [|exact D].
      unfold same_attributes in *. simpl in *. tauto.
Qed.

Lemma validate_dims_known order o ds mode :
  (forall d, In d ds -> In d (o_dims o)) -> validate_dims order o ds mode = Ok ds.
Proof.
  intros H. unfold validate_dims.
  assert (E : filter (fun d => negb (mem_str d (o_dims o))) ds = []).
  { induction ds as [|d ds IH]; auto. simpl.
    assert (M : mem_str d (o_dims o) = true) by (apply mem_str_In, H; simpl; auto).
    rewrite M. apply IH. intros; apply H; simpl; auto. }
  now rewrite E.
Qed.

Lemma keys_of_shape (c : coords) ds shape :
  Forall2 (fun d n => exists ls, dget d c = Some ls /\ length ls = n) ds shape ->
  forall d, In d ds -> In d (dkeys c).
Proof.
  intros HS d Hd. induction HS as [|d0 n ms ns (ls & A & _) HS IH]; simpl in *; [tauto|].
  destruct Hd as [<-|Hd]; auto. apply dget_Some_key. eauto.
Qed.

Lemma prodn_lengths {A} (lss : list (list A)) : length (product lss) = prodn (map (@length A) lss).
Proof. rewrite product_length. unfold prodn. induction lss; simpl; auto. Qed.

Lemma expand_general order c o ds dims_arg mode shape :
  (match dims_arg with None => o_dims o | Some x => x end) = ds ->
  (forall d, In d ds -> In d (o_dims o)) ->
  Forall2 (fun d n => exists ls, dget d c = Some ls /\ length ls = n) ds shape ->
  exists objs lss,
    expand_obj_by_indices order o c dims_arg mode = Ok objs /\
    Forall2 (fun ls o' => set_labels o ds ls = Ok o') (product lss) objs /\
    shape = map (@length label) lss /\
    Forall2 (fun d ls => dget d c = Some ls) ds lss /\
    (forall idx, in_range shape idx -> exists ls o',
        labels_at c ds idx ls /\ length ds = length ls /\
        nth_error (product lss) (offset shape idx) = Some ls /\
        nth_error objs (offset shape idx) = Some o' /\ set_labels o ds ls = Ok o').
Proof.
  intros Hds Hin HS.
  destruct (labels_of_dims c ds (keys_of_shape _ HS)) as (lss & E & F).
  assert (Es := shape_lengths _ F HS).
  assert (X : exists objs, map_res (set_labels o ds) (product lss) = Ok objs).
  { assert (L : forall ls, In ls (product lss) -> length ds = length ls).
    { intros ls Hls. apply in_product in Hls. apply Forall2_length in Hls.
      apply Forall2_length in F. congruence. }
    clear -Hin L. induction (product lss) as [|ls p IH]; simpl; [eauto|].
    destruct (@set_labels_ok o ds ls) as (o' & -> & _); auto.
    { apply L. simpl; auto. }
    destruct IH as (objs & ->); [intros; apply L; simpl; auto|]. simpl. eauto. }
  destruct X as (objs & X). exists objs, lss.
  assert (X2 := proj1 (map_res_ok_Forall2 _ _ _) X).
  split.
  { unfold expand_obj_by_indices. rewrite Hds, validate_dims_known by auto. cbn [bind]. rewrite E. exact X. }
  split; [exact X2|]. split; [exact Es|]. split; [exact F|].
  intros idx Hi. rewrite Es in *. destruct (nth_product_offset _ Hi) as (ls & Hn & HF).
  assert (Hlen : length ds = length idx).
  { apply in_range_len in Hi. rewrite map_length in Hi. apply Forall2_length in F. congruence. }
  assert (LA := labels_at_nth _ _ F Hlen HF).
  assert (Hll : length ds = length ls).
  { destruct LA as (LA & _). apply Forall2_length in LA. rewrite combine_length in LA. lia. }
  assert (Y : exists o', nth_error objs (offset (map (@length label) lss) idx) = Some o' /\ set_labels o ds ls = Ok o').
  { clear -X2 Hn. revert Hn. generalize (offset (map (@length label) lss) idx). induction X2; intros k Hk; destruct k; simpl in *; try discriminate.
    - injection Hk as <-. eauto.
    - eauto. }
  destruct Y as (o' & Y1 & Y2). exists ls, o'. auto.
Qed.

Lemma nodup_combine_keys {V} ds (ls : list V) : NoDup ds -> length ds = length ls -> dict_of_list (combine ds ls) = combine ds ls.
Proof.
  intros. apply dict_of_list_NoDup. fold (dkeys (combine ds ls)). rewrite dkeys_combine; auto.
Qed.

(** C11: one object per combination, row-major, only the labels differ. *)
Lemma c11_enumerates__p :
  forall (order : list string -> list string) (c : coords) (o : mobj) (mode : unused_mode) (shape : list nat),
  NoDup (o_dims o) -> o_dim_vals o = [] -> has_shape c o shape ->
  exists objs,
    expand_obj_by_indices order o c None mode = Ok objs /\
    length objs = prodn shape /\
    (forall idx, in_range shape idx -> exists ls o',
        labels_at c (o_dims o) idx ls /\
        nth_error objs (offset shape idx) = Some o' /\
        o_dim_vals o' = combine (o_dims o) ls /\ same_attributes o o').
Proof.
  intros order c o mode shape Hnd Hdv HS.
  destruct (@expand_general order c o (o_dims o) None mode shape eq_refl (fun d h => h) HS)
    as (objs & lss & E & F & Es & _ & H).
  exists objs. split; [exact E|]. split.
  - apply Forall2_length in F. rewrite <- F, prodn_lengths, Es. reflexivity.
  - intros idx Hi. destruct (H idx Hi) as (ls & o' & A & B & _ & C & D).
    exists ls, o'. split; auto. split; auto.
    destruct (@set_labels_ok o (o_dims o) ls (fun d h => h) B) as (o2 & E2 & SA & DV).
    rewrite D in E2. injection E2 as <-. split; auto. rewrite DV, Hdv. now apply nodup_combine_keys.
Qed.

(** The requested dims may be a subset, in any order; labels of the other dims are kept. *)
Lemma c11_requested_dims__p :
  forall (order : list string -> list string) (c : coords) (o : mobj) (ds : list string)
         (mode : unused_mode) (shape : list nat),
  NoDup ds -> (forall d, In d ds -> In d (o_dims o)) ->
  Forall2 (fun d n => exists ls, dget d c = Some ls /\ length ls = n) ds shape ->
  exists objs,
    expand_obj_by_indices order o c (Some ds) mode = Ok objs /\
    length objs = prodn shape /\
    (forall idx, in_range shape idx -> exists ls o',
        labels_at c ds idx ls /\
        nth_error objs (offset shape idx) = Some o' /\
        same_attributes o o' /\
        (forall d, ~ In d ds -> dget d (o_dim_vals o') = dget d (o_dim_vals o)) /\
        (forall k d l, nth_error ds k = Some d -> nth_error ls k = Some l ->
                       dget d (o_dim_vals o') = Some l)).
Proof.
  intros order c o ds mode shape Hnd Hin HS.
  destruct (@expand_general order c o ds (Some ds) mode shape eq_refl Hin HS)
    as (objs & lss & E & F & Es & _ & H).
  exists objs. split; [exact E|]. split.
  - apply Forall2_length in F. rewrite <- F, prodn_lengths, Es. reflexivity.
  - intros idx Hi. destruct (H idx Hi) as (ls & o' & A & B & _ & C & D).
    exists ls, o'. split; auto. split; auto.
    destruct (@set_labels_ok o ds ls Hin B) as (o2 & E2 & SA & DV).
    rewrite D in E2. injection E2 as <-. split; auto. split.
    + intros d Hd. rewrite DV, dget_dupdate, dget_rev_NoDup by (rewrite dkeys_combine; auto).
      destruct (dget d (combine ds ls)) eqn:G; auto.
      apply dget_In in G. apply in_combine_l in G. tauto.
    + intros k d l Hk Hkl. rewrite DV, dget_dupdate, dget_rev_NoDup by (rewrite dkeys_combine; auto).
      assert (G : dget d (combine ds ls) = Some l).
      { apply dget_In_NoDup. { rewrite dkeys_combine; auto. }
        clear -Hk Hkl. revert k ls Hk Hkl. induction ds; intros k ls Hk Hkl; destruct k; destruct ls; simpl in *; try discriminate.
        - left. congruence.
        - right. eauto. }
      now rewrite G.
Qed.

(** Unknown dims: rejected, or dropped. *)
Lemma c11_unused_dims__p :
  forall (order : list string -> list string) (c : coords) (o : mobj) (ds : list string),
  (forall l, Permutation (order l) l) ->
  (exists d, In d ds /\ ~ In d (o_dims o)) ->
  expand_obj_by_indices order o c (Some ds) Raise = Err ValueError /\
  (exists ds',
    NoDup ds' /\ (forall d, In d ds' <-> In d ds /\ In d (o_dims o)) /\
    expand_obj_by_indices order o c (Some ds) Ignore = expand_obj_by_indices order o c (Some ds') Ignore).
Proof.
  intros order c o ds Hord (d & Hd & Hno).
  assert (E : exists x xs, filter (fun d => negb (mem_str d (o_dims o))) ds = x :: xs).
  { destruct (filter (fun d => negb (mem_str d (o_dims o))) ds) eqn:E; [|eauto].
    exfalso. assert (X : In d (filter (fun d => negb (mem_str d (o_dims o))) ds)).
    { apply filter_In. split; auto. apply negb_true_iff, mem_str_nIn. auto. }
    rewrite E in X. exact X. }
  destruct E as (x & xs & E). split.
  - unfold expand_obj_by_indices, validate_dims. rewrite E. reflexivity.
  - set (ds' := order (dedup (filter (fun d => mem_str d (o_dims o)) ds))).
    exists ds'.
    assert (In' : forall d0, In d0 ds' <-> In d0 ds /\ In d0 (o_dims o)).
    { intros d0. unfold ds'. split; intros H.
      - apply (Permutation_in _ (Hord _)) in H. pose proof (proj1 (in_dedup _ _) H) as H2. clear H. rename H2 into H. apply filter_In in H as (A & B).
        split; auto. now apply mem_str_In.
      - destruct H as (A & B). apply (Permutation_in _ (Permutation_sym (Hord _))).
        apply in_dedup. apply filter_In. split; auto. now apply mem_str_In. }
    split; [|split; auto].
    + eapply Permutation_NoDup; [apply Permutation_sym, Hord|]. apply NoDup_dedup.
    + unfold expand_obj_by_indices. rewrite (@validate_dims_known order o ds' Ignore).
      2:{ intros d0 H. now apply In' in H. }
      unfold validate_dims at 1. rewrite E. reflexivity.
Qed.

(** The description shows the labels. *)
Lemma dget_combine_app {V} e ds (ls : list V) d l v :
  dget e (combine ds ls) = Some v -> dget e (combine ds ls ++ [(d, l)])%list = Some v.
Proof. intros H. rewrite dget_app, H. reflexivity. Qed.

Lemma dget_snoc {V} e (dv : dict V) d l :
  dget e (dv ++ [(d, l)])%list = match dget e dv with Some v => Some v | None => if String.eqb e d then Some l else None end.
Proof. rewrite dget_app. reflexivity. Qed.

Lemma set_labels_description t ds ls dv o :
  plain_text t -> (forall d, In d (o_dims o) -> plain_name d) ->
  (forall d, In d ds -> In d (o_dims o)) -> (forall l, In l ls -> plain_label l) ->
  (forall d l, dget d dv = Some l -> In d (o_dims o) /\ plain_label l) ->
  NoDup (dkeys dv ++ ds)%list ->
  length ds = length ls -> o_dim_vals o = dv ->
  o_description o = written (subst_opt (fun e => option_map str_label (dget e dv)) t) ->
  forall o', set_labels o ds ls = Ok o' ->
  o_description o' = written (subst_opt (fun e => option_map str_label (dget e (dv ++ combine ds ls)%list)) t).
Proof.
  unfold set_labels. revert ls dv o.
  induction ds as [|d ds IH]; intros ls dv o Ht Hn Hin Hls Hdv Hnd Hl Eo Ed o' H; destruct ls as [|l ls]; try discriminate.
  - injection H as <-. simpl. rewrite app_nil_r. exact Ed.
  - cbn [combine fold_res fst snd] in *. unfold update_dim_value in H at 1.
    assert (M : mem_str d (o_dims o) = true) by (apply mem_str_In, Hin; simpl; auto).
    rewrite M in H. cbn [bind] in H.
    assert (Dn : ~ In d (dkeys dv)).
    { apply NoDup_remove_2 in Hnd. intros X. apply Hnd. apply in_or_app. auto. }
    replace (dv ++ (d, l) :: combine ds ls)%list with ((dv ++ [(d, l)]) ++ combine ds ls)%list by (now rewrite <- app_assoc).
    refine (IH ls (dv ++ [(d, l)])%list _ Ht _ _ _ _ _ _ _ _ o' H); simpl; auto.
    + intros; apply Hin; simpl; auto.
    + intros; apply Hls; simpl; auto.
    + intros d0 l0. rewrite dget_snoc. destruct (dget d0 dv) eqn:G.
      * intros X. injection X as <-. eauto.
      * destruct (String.eqb_spec d0 d); [|discriminate]. intros X. injection X as <-. subst.
        split; [apply Hin; simpl; auto|apply Hls; simpl; auto].
    + unfold dkeys in *. rewrite map_app. simpl. rewrite <- app_assoc. exact Hnd.
    + rewrite Eo. now apply dset_new.
    + rewrite Ed, Eo. rewrite dset_new by auto. rewrite pretty_print_written.
      * f_equal. rewrite subst_subst. apply subst_ext. intros e. rewrite dget_snoc.
        destruct (dget e dv) eqn:G; simpl; auto.
        destruct (String.eqb_spec e d).
        -- subst. rewrite M. reflexivity.
        -- destruct (mem_str e (o_dims o)); reflexivity.
      * apply plain_subst; auto. intros e v. destruct (dget e dv) eqn:G; simpl; [|discriminate].
        intros X. injection X as <-. apply Hdv in G. apply G.
      * exact Hn.
      * intros e v. rewrite dget_snoc. destruct (dget e dv) eqn:G.
        -- intros X. injection X as <-. now apply Hdv in G.
        -- destruct (String.eqb_spec e d); [|discriminate]. intros X. injection X as <-. apply Hls; simpl; auto.
Qed.

Lemma c11_description__p :
  forall (order : list string -> list string) (c : coords) (o : mobj) (mode : unused_mode)
         (t : list seg) (objs : list mobj) (shape idx : list nat) (ls : list label) (o' : mobj),
  NoDup (o_dims o) -> o_dim_vals o = [] -> has_shape c o shape ->
  o_description o = written t -> plain_text t ->
  (forall d, In d (o_dims o) -> plain_name d) ->
  (forall d all l, In (d, all) c -> In l all -> plain_label l) ->
  (forall d, In d (marks t) -> In d (o_dims o)) ->
  expand_obj_by_indices order o c None mode = Ok objs ->
  in_range shape idx -> labels_at c (o_dims o) idx ls ->
  nth_error objs (offset shape idx) = Some o' ->
  o_description o' = filled (label_of (o_dims o) ls) t.
Proof.
  intros order c o mode t objs shape idx ls o' Hnd Hdv HS Hd Ht Hn Hl Hm HE Hi HL Ho.
  destruct (@expand_general order c o (o_dims o) None mode shape eq_refl (fun d h => h) HS)
    as (objs' & lss & E & F & Es & _ & H).
  rewrite HE in E. injection E as <-.
  destruct (H idx Hi) as (ls' & o2 & A & B & _ & C & D).
  rewrite Ho in C. injection C as <-.
  assert (ls' = ls) by (eapply labels_at_fun; eauto). subst ls'.
  rewrite (@set_labels_description t (o_dims o) ls [] o) with (o' := o'); auto.
  - rewrite <- written_filled. f_equal. apply subst_ext_in. intros d Hdm.
    simpl. unfold label_of. destruct (dget_combine_in d (o_dims o) ls B (Hm _ Hdm)) as (l & ->). reflexivity.
  - intros l Hll. destruct HL as (HL & _). clear -HL Hll Hl.
    induction HL as [|p l0 ps ls (all & A & B) HL IH]; simpl in *; [tauto|].
    destruct Hll as [->|Hll]; auto. apply dget_In in A. apply nth_error_In in B. eapply Hl; eauto.
  - intros d l; simpl; discriminate.
  - rewrite Hd. simpl. f_equal. clear. induction t as [|[s|e] t IH]; simpl; congruence.
Qed.
