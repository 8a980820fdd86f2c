(** Lemmas for C13 and C14: unpacked names. *)
From Verif Require Import Py PyStr NdArray M_Primitives M_Utilities M_Expand.
From Verif Require Import S_Layout S_Markers S_Expand L_Utilities L_Layout L_Markers L_Expand L_Expand2.
Local Open Scope string_scope.

Lemma concat_length_ {A} (ls : list (list A)) : length (List.concat ls) = list_sum (map (@length A) ls).
Proof. induction ls; simpl; auto. rewrite app_length. congruence. Qed.

Lemma map_concat_ {A B} (f : A -> B) (ls : list (list A)) : map f (List.concat ls) = List.concat (map (map f) ls).
Proof. apply concat_map. Qed.

Lemma nth_combine_map {A B} (f : A -> B) l k :
  nth_error (combine (map f l) l) k = match nth_error l k with Some x => Some (f x, x) | None => None end.
Proof. revert k. induction l; intros [|k]; simpl; auto. Qed.

Lemma nth_combine_maps {A B C} (f : A -> B) (h : A -> C) l k :
  nth_error (combine (map f l) (map h l)) k = match nth_error l k with Some x => Some (f x, h x) | None => None end.
Proof. revert k. induction l; intros [|k]; simpl; auto. Qed.

Lemma nth_combine_some {A B} (l1 : list A) (l2 : list B) k x y :
  nth_error l1 k = Some x -> nth_error l2 k = Some y -> nth_error (combine l1 l2) k = Some (x, y).
Proof.
  revert l2 k. induction l1; intros [|b l2] [|k] H1 H2; simpl in *; try discriminate; auto. congruence.
Qed.

Lemma dvals_combine {V} ds (ls : list V) : length ds = length ls -> dvals (combine ds ls) = ls.
Proof.
  revert ls. induction ds as [|d ds IH]; intros [|l ls] H; simpl in *; try discriminate; auto.
  f_equal. apply IH. lia.
Qed.

Lemma expand_names order c o shape :
  NoDup (o_dims o) -> o_dim_vals o = [] -> has_shape c o shape ->
  exists us lss,
    expand_obj_by_indices order o c None Ignore = Ok us /\
    length us = prodn shape /\
    Forall2 (fun d ls => dget d c = Some ls) (o_dims o) lss /\
    map make_indexed_name us = map (fun ls => join "_" (o_name o :: map str_label ls)) (product lss).
Proof.
  intros Hnd Hdv Hs.
  destruct (@expand_general order c o (o_dims o) None Ignore shape eq_refl (fun d h => h) Hs)
    as (us & lss & E1 & F1 & Es & F2 & H1).
  exists us, lss. split; auto. split.
  { apply Forall2_length in F1. rewrite <- F1, prodn_lengths, Es. reflexivity. }
  split; auto.
  assert (L : forall ls, In ls (product lss) -> length (o_dims o) = length ls).
  { intros ls Hls. apply in_product in Hls. apply Forall2_length in Hls. apply Forall2_length in F2. congruence. }
  clear -F1 L Hnd Hdv. induction F1 as [|ls o' p us Hset F IH]; auto. simpl.
  rewrite IH by (intros; apply L; simpl; auto). f_equal.
  assert (B : length (o_dims o) = length ls) by (apply L; simpl; auto).
  destruct (@set_labels_ok o (o_dims o) ls (fun d h => h) B) as (o2 & E2 & SA & DV).
  rewrite Hset in E2. injection E2 as <-. unfold make_indexed_name.
  destruct SA as (_ & -> & _). rewrite DV, Hdv.
  change (dupdate [] (combine (o_dims o) ls)) with (dict_of_list (combine (o_dims o) ls)).
  rewrite nodup_combine_keys, dvals_combine by auto. reflexivity.
Qed.

Lemma unpack_objects_ok order c objs shapes :
  (forall o, In o objs -> NoDup (o_dims o) /\ o_dim_vals o = []) ->
  Forall2 (has_shape c) objs shapes ->
  exists uss,
    unpack_objects order objs c = Ok (List.concat uss) /\
    Forall2 (fun o us => expand_obj_by_indices order o c None Ignore = Ok us) objs uss.
Proof.
  intros Hw HS. unfold unpack_objects. induction HS as [|o s objs shapes Hs HS IH].
  - exists []. split; auto.
  - destruct IH as (uss & E & F); [intros; apply Hw; simpl; auto|].
    destruct (Hw o (or_introl eq_refl)) as (Hnd & Hdv).
    destruct (expand_names order Hnd Hdv Hs) as (us & lss & E1 & _).
    exists (us :: uss). split; [|constructor; auto].
    apply map_res_ok_Forall2 in F. simpl. rewrite E1, F. reflexivity.
Qed.

(** C13 *)
Lemma c13_kth_name__p :
  forall {V : Type} (order : list string -> list string) (c : coords) (objs : list mobj)
         (d : dict (arr V)) (us : list mobj) (vec : list V),
  (forall o, In o objs -> NoDup (o_dims o) /\ o_dim_vals o = [] /\
                          exists a, dget (o_name o) d = Some a /\ fits c o a) ->
  unpack_objects order objs c = Ok us -> NoDup (map make_indexed_name us) ->
  concat_named d objs = Ok vec ->
  exists g,
    unpack_group order objs c = Ok g /\
    length g = length vec /\
    (forall k, k < length vec -> exists j o a idx ls o' val,
        nth_error objs j = Some o /\ dget (o_name o) d = Some a /\ in_range (ashape a) idx /\
        k = start_of d objs j + offset (ashape a) idx /\
        nth_error vec k = Some val /\ aget a idx = Ok val /\
        labels_at c (o_dims o) idx ls /\
        nth_error g k = Some (join "_" (o_name o :: map str_label ls), o') /\
        same_attributes o o' /\ o_dim_vals o' = combine (o_dims o) ls).
Proof.
  intros V order c objs d us vec Hw Hu Hnd Hv.
  apply concat_named_inv in Hv as (Hne & as_ & HA & ->).
  assert (HS : Forall2 (has_shape c) objs (map (@ashape V) as_) /\ Forall (fun a => arr_wf a) as_).
  { clear -HA Hw. induction HA as [|o a objs as_ Ha HA IH]; simpl; [split; constructor|].
    destruct IH as (A & B); [intros; apply Hw; simpl; auto|].
    destruct (Hw o (or_introl eq_refl)) as (_ & _ & a' & Ha' & W & S).
    rewrite Ha in Ha'. injection Ha' as <-. split; constructor; auto. }
  destruct HS as (HS & HW).
  destruct (@unpack_objects_ok order c objs (map (@ashape V) as_)) as (uss & E & F); auto.
  { intros o Ho. destruct (Hw o Ho) as (A & B & _). auto. }
  rewrite Hu in E. injection E as ->.
  unfold unpack_group. rewrite Hu. cbn [bind].
  assert (Hg : dict_of_list (combine (map make_indexed_name (List.concat uss)) (List.concat uss))
               = combine (map make_indexed_name (List.concat uss)) (List.concat uss)).
  { apply dict_of_list_NoDup. rewrite map_fst_combine; auto. now rewrite map_length. }
  rewrite Hg. eexists. split; [reflexivity|].
  (* the blocks have the same sizes *)
  assert (Sz : map (@length _) uss = map (@length _) (map (@adata V) as_)).
  { clear -F HS HW Hw. revert as_ HS HW. induction F as [|o us objs uss Hus F IH]; intros as_ HS HW.
    - inversion HS. destruct as_; [reflexivity|discriminate].
    - destruct as_ as [|a as_]; inversion HS; subst. inversion HW; subst. simpl. f_equal.
      + destruct (Hw o (or_introl eq_refl)) as (A & B & _).
        match goal with h : has_shape c o _ |- _ => destruct (expand_names order A B h) as (us' & lss & E1 & L & _) end.
        rewrite Hus in E1. injection E1 as ->. rewrite L. symmetry. assumption.
      + apply IH; auto. intros; apply Hw; simpl; auto. }
  assert (Len : length (List.concat uss) = length (List.concat (map (@adata V) as_))).
  { rewrite !concat_length_. now rewrite Sz. }
  split.
  { rewrite combine_length, map_length, Nat.min_id. exact Len. }
  intros k Hk. destruct (concat_position _ Hk) as (j & l & m & Hj & Hm & Ek).
  rewrite nth_error_map in Hj. destruct (nth_error as_ j) as [a|] eqn:Ea; [|discriminate].
  injection Hj as <-.
  assert (Ho : exists o us, nth_error objs j = Some o /\ nth_error uss j = Some us /\
               dget (o_name o) d = Some a /\ expand_obj_by_indices order o c None Ignore = Ok us).
  { clear -HA F Ea. revert uss j Ea F. induction HA as [|o a' objs as_ Ha HA IH]; intros uss j Ea F; destruct j; simpl in *; try discriminate.
    - injection Ea as <-. inversion F; subst. eauto 10.
    - inversion F; subst. destruct (IH _ _ Ea H3) as (o1 & us1 & A & B & C & D). eauto 10. }
  destruct Ho as (o & us & Hoj & Huj & Hda & Hus).
  destruct (Hw o (nth_error_In _ _ Hoj)) as (Hnd' & Hdv & a' & Ha' & W & S).
  rewrite Hda in Ha'. injection Ha' as <-.
  rewrite W in Hm.
  destruct (nth_error (ndindex (ashape a)) m) as [idx|] eqn:Ei.
  2:{ apply nth_error_None in Ei. rewrite ndindex_length in Ei. lia. }
  apply offset_nth_ndindex in Ei as (Hi & Eo).
  destruct (@c11_enumerates__p order c o Ignore (ashape a) Hnd' Hdv S) as (us' & E1 & L1 & H1).
  rewrite Hus in E1. injection E1 as <-.
  destruct (H1 idx Hi) as (ls & o' & LA & Hn & DV & SA).
  assert (Start : start_of d objs j = list_sum (map (@length _) (firstn j (map (@adata V) as_)))).
  { unfold start_of. f_equal. clear -HA HW. revert j. induction HA as [|o a objs as_ Ha HA IH]; intros j; destruct j; simpl; auto.
    inversion HW; subst. f_equal; auto. unfold size_in. rewrite Ha. symmetry. assumption. }
  assert (Val : exists val, nth_error (adata a) m = Some val).
  { destruct (nth_error (adata a) m) eqn:G; eauto. apply nth_error_None in G. unfold arr_wf in W. lia. }
  destruct Val as (val & Val).
  exists j, o, a, idx, ls, o', val.
  split; [exact Hoj|]. split; [exact Hda|]. split; [exact Hi|].
  split; [rewrite Start, Eo; exact Ek|].
  split.
  { rewrite Ek. erewrite nth_error_concat; [exact Val| |rewrite W; exact Hm]. now rewrite nth_error_map, Ea. }
  split.
  { unfold aget. apply in_rangeb_spec in Hi. rewrite Hi, Eo, Val. reflexivity. }
  split; [exact LA|]. split; [|split; auto].
  assert (Nth : nth_error (List.concat uss) k = Some o').
  { rewrite Ek. rewrite <- firstn_map, <- Sz, firstn_map.
    erewrite nth_error_concat; [|exact Huj|rewrite L1; exact Hm]. rewrite <- Eo. exact Hn. }
  rewrite nth_combine_map, Nth. do 2 f_equal. unfold make_indexed_name.
  destruct SA as (_ & -> & _). rewrite DV, dvals_combine; auto.
  destruct LA as (LA & LB). apply Forall2_length in LA. rewrite combine_length in LA. lia.
Qed.

(** C14 *)
Fixpoint suffix (ls : list string) : string :=
  match ls with [] => "" | l :: ls' => "_" ++ l ++ suffix ls' end.

Lemma join_suffix n ls : join "_" (n :: ls) = n ++ suffix ls.
Proof.
  revert n. induction ls as [|l ls IH]; intros n.
  - simpl. now rewrite sapp_nil_r.
  - change (join "_" (n :: l :: ls)) with (n ++ "_" ++ join "_" (l :: ls)). rewrite IH. reflexivity.
Qed.

Lemma no_us_prefix a b s t :
  contains_char "_" a = false -> contains_char "_" b = false -> a ++ suffix s = b ++ suffix t -> a = b /\ suffix s = suffix t.
Proof.
  revert b. induction a as [|x a IH]; intros b Ha Hb H; destruct b as [|y b]; simpl in *.
  - auto.
  - destruct s; simpl in H; [discriminate|]. injection H as E _. rewrite <- E in Hb. discriminate.
  - destruct t; simpl in H; [discriminate|]. injection H as E _. rewrite E in Ha. discriminate.
  - apply orb_false_iff in Ha as (_ & Ha). apply orb_false_iff in Hb as (_ & Hb). injection H as -> H.
    destruct (IH b Ha Hb H) as (-> & ->). auto.
Qed.

Lemma suffix_inj s t :
  length s = length t ->
  (length s <= 1 \/ (forall x, In x (s ++ t)%list -> contains_char "_" x = false)) ->
  suffix s = suffix t -> s = t.
Proof.
  revert t. induction s as [|a s IH]; intros t Hl Hc H; destruct t as [|b t]; try discriminate; auto.
  simpl in H. injection H as H. destruct Hc as [Hc|Hc].
  - destruct s; [|simpl in Hc; lia]. destruct t; [|discriminate]. simpl in H. rewrite !sapp_nil_r in H. congruence.
  - apply no_us_prefix in H as (-> & H).
    + f_equal. apply IH; auto. right. intros x Hx. apply Hc. simpl. right. apply in_app_or in Hx as [Hx|Hx]; apply in_or_app; simpl; auto.
    + apply Hc; simpl; auto.
    + apply Hc. simpl. right. apply in_or_app; simpl; auto.
Qed.

Lemma names_cross n1 n2 s t :
  ~ (exists r, n2 = n1 ++ "_" ++ r) -> ~ (exists r, n1 = n2 ++ "_" ++ r) ->
  n1 ++ suffix s = n2 ++ suffix t -> n1 = n2 /\ suffix s = suffix t.
Proof.
  revert n2. induction n1 as [|a n1 IH]; intros n2 H1 H2 H; destruct n2 as [|b n2]; simpl in *.
  - auto.
  - destruct s as [|x s]; simpl in H; [discriminate|]. injection H as E H. exfalso. apply H1. rewrite <- E. eauto.
  - destruct t as [|x t]; simpl in H; [discriminate|]. injection H as E H. exfalso. apply H2. rewrite E. eauto.
  - injection H as -> H. destruct (IH n2) as (-> & ->); auto.
    + intros (r & ->). apply H1. eauto.
    + intros (r & ->). apply H2. eauto.
Qed.

Lemma NoDup_map_in {A B} (f : A -> B) l :
  (forall x y, In x l -> In y l -> f x = f y -> x = y) -> NoDup l -> NoDup (map f l).
Proof.
  intros Hf H. induction H as [|a l Hn H IH]; simpl; constructor.
  - intros X. apply in_map_iff in X as (y & E & Hy). apply Hn. rewrite (Hf a y); simpl; auto.
  - apply IH. intros; apply Hf; simpl; auto.
Qed.

Lemma map_str_inj ls all1 all2 (lss : list (list label)) :
  Forall (fun l => NoDup (map str_label l)) lss ->
  Forall2 (fun x l => In x l) all1 lss -> Forall2 (fun x l => In x l) all2 lss ->
  map str_label all1 = ls -> map str_label all2 = ls -> all1 = all2.
Proof.
  intros HN H1. revert all2 ls. induction H1 as [|x l xs lss Hx H1 IH]; intros all2 ls H2 E1 E2; inversion H2; subst; auto.
  inversion HN; subst. simpl in *. injection E2 as E E'. f_equal.
  - match goal with h : NoDup (map str_label l), h2 : In ?y l |- _ = ?y => clear -h h2 Hx E; rename h into N; rename h2 into Hy end.
    induction l as [|z l IHl]; simpl in *; [tauto|]. inversion N; subst.
    destruct Hx as [<-|Hx], Hy as [<-|Hy]; auto.
    + exfalso. apply H1. rewrite <- E. now apply in_map.
    + exfalso. apply H1. rewrite E. now apply in_map.
  - eapply IH; eauto.
Qed.

Lemma c14_distinct__p :
  forall (order : list string -> list string) (c : coords) (objs : list mobj) (shapes : list (list nat)),
  NoDup (map o_name objs) ->
  (forall o, In o objs -> NoDup (o_dims o) /\ o_dim_vals o = []) ->
  Forall2 (has_shape c) objs shapes ->
  (** no name is another name followed by an underscore and more *)
  (forall n1 n2 r, In n1 (map o_name objs) -> In n2 (map o_name objs) -> n2 <> n1 ++ "_" ++ r) ->
  (** the labels of a dim read differently *)
  (forall o d ls, In o objs -> In d (o_dims o) -> dget d c = Some ls -> NoDup (map str_label ls)) ->
  (** labels of objects with several dims have no underscore *)
  (forall o d ls l, In o objs -> 2 <= length (o_dims o) -> In d (o_dims o) -> dget d c = Some ls ->
                    In l ls -> contains_char "_" (str_label l) = false) ->
  exists g, unpack_group order objs c = Ok g /\ length g = total shapes.
Proof.
  intros order c objs shapes Hnames Hw HS Hsep Hlab Hus.
  destruct (@unpack_objects_ok order c objs shapes Hw HS) as (uss & E & F).
  unfold unpack_group. rewrite E. cbn [bind]. eexists. split; [reflexivity|].
  assert (Len : length (List.concat uss) = total shapes).
  { clear -F HS Hw. revert shapes HS. induction F as [|o us objs uss Hus F IH]; intros shapes HS; inversion HS; subst; auto.
    simpl. rewrite app_length. unfold total in *. simpl. f_equal; [|apply IH; auto; intros; apply Hw; simpl; auto].
    destruct (Hw o (or_introl eq_refl)) as (A & B).
    match goal with h : has_shape c o _ |- _ => destruct (expand_names order A B h) as (us' & lss & E1 & L & _) end.
    congruence. }
  assert (ND : NoDup (map make_indexed_name (List.concat uss))).
  { assert (Names : Forall2 (fun o us => exists lss,
        Forall2 (fun d ls => dget d c = Some ls) (o_dims o) lss /\
        map make_indexed_name us = map (fun ls => join "_" (o_name o :: map str_label ls)) (product lss)) objs uss).
    { clear -F HS Hw. revert shapes HS. induction F as [|o us objs uss Hus F IH]; intros shapes HS; inversion HS; subst; constructor.
      - destruct (Hw o (or_introl eq_refl)) as (A & B).
        match goal with h : has_shape c o _ |- _ => destruct (expand_names order A B h) as (us' & lss & E1 & L & L2 & L3) end.
        rewrite Hus in E1. injection E1 as <-. eauto.
      - eapply IH; eauto. intros; apply Hw; simpl; auto. }
    clear F E Len HS. revert Hnames Hw Hsep Hlab Hus.
    induction Names as [|o us objs uss (lss & HL & HN) Names IH]; intros Hnames Hw Hsep Hlab Hus; simpl; [constructor|].
    rewrite map_app. inversion Hnames as [|? ? Hnin Hnames']; subst. apply NoDup_app.
    - rewrite HN. apply NoDup_map_in.
      + intros x y Hx Hy H. rewrite !join_suffix in H. apply sapp_inv_head in H.
        apply in_product in Hx. apply in_product in Hy.
        assert (Lx := Forall2_length Hx). assert (Ly := Forall2_length Hy). assert (Ld := Forall2_length HL).
        apply suffix_inj in H.
        * eapply map_str_inj with (lss := lss); [|exact Hx|exact Hy|exact H|reflexivity].
          clear -HL Hlab. apply Forall_forall. intros l Hl.
          assert (X : exists d, In d (o_dims o) /\ dget d c = Some l).
          { clear Hlab. induction HL; simpl in *; [tauto|]. destruct Hl as [->|Hl]; eauto.
            destruct IHHL as (d & A & B); eauto. }
          destruct X as (d & A & B). eapply Hlab; simpl; eauto.
        * rewrite !map_length. congruence.
        * rewrite map_length. destruct (le_lt_dec (length x) 1); [auto|right].
          intros s Hs. rewrite <- map_app in Hs. apply in_map_iff in Hs as (lb & <- & Hl); rename lb into lab.
          assert (X : exists d ls, In d (o_dims o) /\ dget d c = Some ls /\ In lab ls).
          { assert (Y : exists ls, In ls lss /\ In lab ls).
            { apply in_app_or in Hl as [Hl|Hl].
              - clear -Hl Hx. induction Hx; simpl in *; [tauto|]. destruct Hl as [->|Hl]; eauto.
                destruct IHHx as (ls & A & B); eauto.
              - clear -Hl Hy. induction Hy; simpl in *; [tauto|]. destruct Hl as [->|Hl]; eauto.
                destruct IHHy as (ls & A & B); eauto. }
            destruct Y as (ls & Hls & Hin). clear -Hls Hin HL.
            induction HL as [|dd l0 ds lss0 Hd HL IHHL]; simpl in *; [tauto|]. destruct Hls as [->|Hls].
            - exists dd, ls. auto.
            - destruct (IHHL Hls) as (d & ls' & A & B & C). exists d, ls'. auto. }
          destruct X as (d & ls & A & B & C). eapply Hus; [left; reflexivity| |exact A|exact B|exact C]. lia.
      + apply NoDup_product. clear -HL Hlab. apply Forall_forall. intros l Hl.
        assert (X : exists d, In d (o_dims o) /\ dget d c = Some l).
        { clear Hlab. induction HL; simpl in *; [tauto|]. destruct Hl as [->|Hl]; eauto.
          destruct IHHL as (d & A & B); eauto. }
        destruct X as (d & A & B). eapply NoDup_map_inv. eapply Hlab; simpl; eauto.
    - apply IH; auto.
      + intros; apply Hw; simpl; auto.
      + intros; apply Hsep; simpl; auto.
      + intros; eapply Hlab; simpl; eauto.
      + intros; eapply Hus; simpl; eauto.
    - intros x Hx Hx2. rewrite HN in Hx. apply in_map_iff in Hx as (ls & <- & _).
      rewrite map_concat_ in Hx2. apply in_concat in Hx2 as (xs & Hxs & Hx2).
      apply in_map_iff in Hxs as (us2 & <- & Hus2).
      assert (X : exists o2 lss2, In o2 objs /\ map make_indexed_name us2 =
                    map (fun ls => join "_" (o_name o2 :: map str_label ls)) (product lss2)).
      { clear -Names Hus2. induction Names as [|o1 u1 objs uss (l & A & B) N IH]; simpl in *; [tauto|].
        destruct Hus2 as [->|Hu]; eauto. destruct (IH Hu) as (o2 & l2 & C & D). eauto. }
      destruct X as (o2 & lss2 & Ho2 & HN2). rewrite HN2 in Hx2. apply in_map_iff in Hx2 as (ls2 & Eq & _).
      rewrite !join_suffix in Eq. apply names_cross in Eq as (Eq & _).
      + apply Hnin. rewrite <- Eq. now apply in_map.
      + intros (r & X). eapply (Hsep (o_name o2) (o_name o)); [right; now apply in_map|left; reflexivity|exact X].
      + intros (r & X). eapply (Hsep (o_name o) (o_name o2)); [left; reflexivity|right; now apply in_map|exact X]. }
  rewrite dict_of_list_NoDup.
  - rewrite combine_length, map_length, Nat.min_id. exact Len.
  - rewrite map_fst_combine; auto. now rewrite map_length.
Qed.

(** Names do collide: two elements of one variable ... *)
Lemma c14_same_object_collision_refuted__p :
  exists (c : coords) (o : mobj) (shape : list nat) (g : dict mobj),
    NoDup (o_dims o) /\ o_dim_vals o = [] /\ has_shape c o shape /\
    (forall d ls, In (d, ls) c -> NoDup ls) /\
    unpack_group (fun l => l) [o] c = Ok g /\ length g < prodn shape.
Proof.
  exists [("i", [LStr "a"; LStr "a_b"]); ("j", [LStr "b_c"; LStr "c"])], (exobj KVar "x" ["i"; "j"]), [2; 2].
  eexists. split; [repeat constructor; simpl; intuition discriminate|]. split; [reflexivity|].
  split; [repeat constructor; eexists; split; reflexivity|]. split.
  - intros d ls [H|[H|[]]]; injection H as <- <-; repeat constructor; simpl; intuition discriminate.
  - split; [reflexivity|]. simpl. lia.
Qed.

(** ... and two variables with distinct names. *)
Lemma c14_two_objects_collision_refuted__p :
  exists (c : coords) (o1 o2 : mobj) (g : dict mobj),
    o_name o1 <> o_name o2 /\ o_dims o1 = ["i"] /\ o_dims o2 = [] /\ dget "i" c = Some [LStr "a"; LStr "b"] /\
    unpack_group (fun l => l) [o1; o2] c = Ok g /\ length g = 2.
Proof.
  exists [("i", [LStr "a"; LStr "b"])], (exobj KVar "x" ["i"]), (exobj KVar "x_a" []). eexists.
  split; [discriminate|]. repeat split; reflexivity.
Qed.
