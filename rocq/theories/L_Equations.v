(** Lemmas for C16. *)
From Verif Require Import Py PyStr NdArray M_Primitives M_Utilities M_Expand M_Equations.
From Verif Require Import S_Layout S_Markers S_Expand L_Utilities L_Layout L_Markers L_Expand L_Expand2 L_Unpacked.
Local Open Scope string_scope.
Local Arguments String.prefix _ _ : simpl never.
Local Arguments pretty_print_dim_flags _ _ _ : simpl never.

Lemma set_eq_labels_ok e ds ls :
  (forall d, In d ds -> In d (se_dims e)) -> length ds = length ls ->
  exists e', set_eq_labels e ds ls = Ok e' /\ se_id e' = se_id e /\ se_dims e' = se_dims e /\
             se_subs e' = (se_subs e ++ combine ds ls)%list.
Proof.
  unfold set_eq_labels. revert e ls. induction ds as [|d ds IH]; intros e ls Hin Hl; destruct ls as [|l ls]; try discriminate.
  - exists e. rewrite app_nil_r. auto.
  - cbn [combine fold_res fst snd]. unfold update_eq at 1.
    assert (M : mem_str d (se_dims e) = true) by (apply mem_str_In, Hin; simpl; auto).
    rewrite M. cbn [bind].
    match goal with |- exists e', fold_res _ ?e1 _ = _ /\ _ => destruct (IH e1 ls) as (e' & E & A & B & C) end.
    + simpl. intros; apply Hin; simpl; auto.
    + simpl in Hl. lia.
    + exists e'. split; [exact E|]. simpl in *. rewrite C, <- app_assoc. auto.
Qed.

Lemma set_eq_labels_name t ds ls dv e :
  plain_text t -> (forall d, In d (se_dims e) -> plain_name d) ->
  (forall d, In d ds -> In d (se_dims e)) -> (forall l, In l ls -> plain_label l) ->
  (forall d l, dget d dv = Some l -> plain_label l) ->
  NoDup (dkeys dv ++ ds)%list -> length ds = length ls ->
  se_name e = written (subst_opt (fun x => option_map str_label (dget x dv)) t) ->
  forall e', set_eq_labels e ds ls = Ok e' ->
  se_name e' = written (subst_opt (fun x => option_map str_label (dget x (dv ++ combine ds ls)%list)) t).
Proof.
  unfold set_eq_labels. revert ls dv e.
  induction ds as [|d ds IH]; intros ls dv e Ht Hn Hin Hls Hdv Hnd Hl Ed e' H; destruct ls as [|l ls]; try discriminate.
  - injection H as <-. simpl. rewrite app_nil_r. exact Ed.
  - cbn [combine fold_res fst snd] in *. unfold update_eq in H at 1.
    assert (M : mem_str d (se_dims e) = true) by (apply mem_str_In, Hin; simpl; auto).
    rewrite M in H. cbn [bind] in H.
    assert (Dn : ~ In d (dkeys dv)).
    { apply NoDup_remove_2 in Hnd. intros X. apply Hnd. apply in_or_app. auto. }
    replace (dv ++ (d, l) :: combine ds ls)%list with ((dv ++ [(d, l)]) ++ combine ds ls)%list by (now rewrite <- app_assoc).
    refine (IH ls (dv ++ [(d, l)])%list _ Ht _ _ _ _ _ _ _ e' H); simpl; auto.
    + intros; apply Hin; simpl; auto.
    + intros; apply Hls; simpl; auto.
    + intros d0 l0. rewrite dget_snoc. destruct (dget d0 dv) eqn:G.
      * intros X. injection X as <-. eauto.
      * destruct (String.eqb_spec d0 d); [|discriminate]. intros X. injection X as <-. apply Hls; simpl; auto.
    + unfold dkeys in *. rewrite map_app. simpl. rewrite <- app_assoc. exact Hnd.
    + rewrite Ed. rewrite pretty_print_written.
      * f_equal. rewrite subst_subst. apply subst_ext. intros x. rewrite dget_snoc.
        destruct (dget x dv) eqn:G; simpl; auto.
        destruct (String.eqb_spec x d).
        -- subst. rewrite M. reflexivity.
        -- destruct (mem_str x (se_dims e)); reflexivity.
      * apply plain_subst; auto. intros x v. destruct (dget x dv) eqn:G; simpl; [|discriminate].
        intros X. injection X as <-. now apply Hdv in G.
      * exact Hn.
      * intros x v. simpl. destruct (String.eqb_spec x d); [|discriminate]. intros X. injection X as <-. apply Hls; simpl; auto.
Qed.

(** One equation. *)
Lemma expand_equation_ok (c : coords) e shape :
  Forall2 (fun d n => exists ls, dget d c = Some ls /\ length ls = n) (se_dims e) shape ->
  exists es,
    expand_equation c e = Ok es /\ length es = prodn shape /\
    (forall idx, in_range shape idx -> exists ls e',
        labels_at c (se_dims e) idx ls /\ length (se_dims e) = length ls /\
        nth_error es (offset shape idx) = Some e' /\ set_eq_labels e (se_dims e) ls = Ok e').
Proof.
  intros HS.
  destruct (labels_of_dims c (se_dims e) (keys_of_shape _ HS)) as (lss & E & F).
  assert (Es := shape_lengths _ F HS).
  unfold expand_equation. rewrite E. cbn [bind].
  assert (L : forall ls, In ls (product lss) -> length (se_dims e) = length ls).
  { intros ls Hls. apply in_product in Hls. apply Forall2_length in Hls.
    apply Forall2_length in F. congruence. }
  assert (X : exists es, map_res (set_eq_labels e (se_dims e)) (product lss) = Ok es).
  { clear -L. induction (product lss) as [|ls p IH]; simpl; [eauto|].
    destruct (@set_eq_labels_ok e (se_dims e) ls) as (o' & -> & _); auto.
    { apply L. simpl; auto. }
    destruct IH as (objs & ->); [intros; apply L; simpl; auto|]. simpl. eauto. }
  destruct X as (es & X). exists es. split; auto.
  assert (X2 := proj1 (map_res_ok_Forall2 _ _ _) X).
  split. { apply Forall2_length in X2. rewrite <- X2, prodn_lengths, Es. reflexivity. }
  intros idx Hi. rewrite Es in *. destruct (nth_product_offset _ Hi) as (ls & Hn & HF).
  assert (Hlen : length (se_dims e) = length idx).
  { apply in_range_len in Hi. rewrite map_length in Hi. apply Forall2_length in F. congruence. }
  assert (LA := labels_at_nth _ _ F Hlen HF).
  assert (Hll : length (se_dims e) = length ls).
  { destruct LA as (LA & _). apply Forall2_length in LA. rewrite combine_length in LA. lia. }
  assert (Y : exists o', nth_error es (offset (map (@length label) lss) idx) = Some o' /\ set_eq_labels e (se_dims e) ls = Ok o').
  { clear -X2 Hn. revert Hn. generalize (offset (map (@length label) lss) idx). induction X2; intros k Hk; destruct k; simpl in *; try discriminate.
    - injection Hk as <-. eauto.
    - eauto. }
  destruct Y as (o' & Y1 & Y2). exists ls, o'. auto.
Qed.

Lemma unpack_eq_list_ok (c : coords) eqs shapes :
  Forall2 (fun e => Forall2 (fun d n => exists ls, dget d c = Some ls /\ length ls = n) (se_dims e)) eqs shapes ->
  exists ess, unpack_eq_list eqs c = Ok (List.concat ess) /\
              Forall2 (fun e es => expand_equation c e = Ok es) eqs ess /\
              map (@length _) ess = map prodn shapes.
Proof.
  unfold unpack_eq_list. induction 1 as [|e s eqs shapes Hs HS IH].
  - exists []. auto.
  - destruct IH as (ess & E & F & L). destruct (expand_equation_ok _ _ Hs) as (es & E1 & L1 & _).
    exists (es :: ess). split; [|split].
    + apply map_res_ok_Forall2 in F. simpl. rewrite E1, F. reflexivity.
    + constructor; auto.
    + simpl. congruence.
Qed.

Lemma map_res_keys {V} (g : dict seqn) (f : seqn -> V) :
  NoDup (dkeys g) ->
  map_res (fun n => let* e := dgetitem n g in Ok (f e)) (dkeys g) = Ok (map f (dvals g)).
Proof.
  intros H.
  assert (X : forall g', (forall p, In p g' -> In p g) ->
              map_res (fun n => let* e := dgetitem n g in Ok (f e)) (dkeys g') = Ok (map f (dvals g'))).
  { induction g' as [|[n e] g' IH]; intros Hs; simpl; auto.
    unfold dgetitem at 1. rewrite (dget_In_NoDup n g e H) by (apply Hs; simpl; auto). simpl.
    rewrite IH by (intros; apply Hs; simpl; auto). reflexivity. }
  now apply X.
Qed.

(** C16, sympy parsing: names and residuals of each element coincide. *)
Lemma c16_sympy_labels__p :
  forall {V : Type} (R : nat -> list (string * label) -> V) (c : coords) (eqs : list seqn)
         (shapes : list (list nat)) (us : list seqn),
  Forall2 (fun e => Forall2 (fun d n => exists ls, dget d c = Some ls /\ length ls = n) (se_dims e)) eqs shapes ->
  (forall d all l, In (d, all) c -> In l all -> plain_label l) ->
  (forall e, In e eqs -> NoDup (se_dims e) /\ se_subs e = [] /\ (forall d, In d (se_dims e) -> plain_name d)) ->
  unpack_eq_list eqs c = Ok us -> NoDup (map se_name us) ->
  exists g errors,
    unpack_equations_sympy eqs c = Ok g /\ residuals_sympy R g = Ok errors /\
    length errors = total shapes /\ length (dkeys g) = total shapes /\
    (forall j e shape idx t,
        nth_error eqs j = Some e -> nth_error shapes j = Some shape -> in_range shape idx ->
        se_name e = written t -> plain_text t -> (forall d, In d (marks t) -> In d (se_dims e)) ->
        exists ls,
          labels_at c (se_dims e) idx ls /\
          nth_error (residual_report (dkeys g) errors) (total (firstn j shapes) + offset shape idx) =
          Some (filled (label_of (se_dims e) ls) t, R (se_id e) (combine (se_dims e) ls))).
Proof.
  intros V R c eqs shapes us HS Hpl Hw Hu Hnd.
  destruct (unpack_eq_list_ok _ HS) as (ess & E & F & L).
  rewrite Hu in E. injection E as ->. unfold unpack_equations_sympy. rewrite Hu. cbn [bind].
  assert (Hk : map fst (combine (map se_name (List.concat ess)) (List.concat ess)) = map se_name (List.concat ess)).
  { apply map_fst_combine. now rewrite map_length. }
  rewrite dict_of_list_NoDup by (now rewrite Hk).
  set (g := combine (map se_name (List.concat ess)) (List.concat ess)).
  assert (HkG : dkeys g = map se_name (List.concat ess)) by exact Hk.
  assert (HvG : dvals g = List.concat ess).
  { unfold g. apply dvals_combine. now rewrite map_length. }
  exists g, (map (fun e => R (se_id e) (se_subs e)) (List.concat ess)).
  split; auto. split.
  { unfold residuals_sympy. rewrite map_res_keys by (rewrite HkG; auto). now rewrite HvG. }
  assert (LT : length (List.concat ess) = total shapes).
  { rewrite concat_length_, L. reflexivity. }
  split; [now rewrite map_length|]. split; [now rewrite HkG, map_length|].
  intros j e shape idx t Hj Hs Hi Ht Hp Hm.
  assert (Hess : exists es, nth_error ess j = Some es /\ expand_equation c e = Ok es).
  { clear -F Hj. revert j Hj. induction F; intros j Hj; destruct j; simpl in *; try discriminate.
    - injection Hj as <-. eauto.
    - eauto. }
  destruct Hess as (es & Hes & He).
  assert (HSe : Forall2 (fun d n => exists ls, dget d c = Some ls /\ length ls = n) (se_dims e) shape).
  { clear -HS Hj Hs. revert j Hj Hs. induction HS; intros j Hj Hs; destruct j; simpl in *; try discriminate.
    - congruence.
    - eauto. }
  destruct (expand_equation_ok _ _ HSe) as (es' & E1 & L1 & H1). rewrite He in E1. injection E1 as <-.
  destruct (H1 idx Hi) as (ls & e' & LA & Hll & Hn & Hset).
  exists ls. split; auto.
  destruct (Hw e (nth_error_In _ _ Hj)) as (Hnd' & Hsub & Hpn).
  assert (Pos : nth_error (List.concat ess) (total (firstn j shapes) + offset shape idx) = Some e').
  { unfold total. rewrite <- firstn_map, <- L, firstn_map.
    erewrite nth_error_concat; [exact Hn|exact Hes|]. rewrite L1. now apply offset_lt. }
  unfold residual_report. rewrite HkG.
  rewrite nth_combine_maps, Pos. do 2 f_equal.
  - rewrite (@set_eq_labels_name t (se_dims e) ls [] e) with (e' := e'); auto.
    + rewrite <- written_filled. f_equal. apply subst_ext_in. intros d Hd. simpl. unfold label_of.
      destruct (dget_combine_in d (se_dims e) ls Hll (Hm _ Hd)) as (l & ->). reflexivity.
    + intros l Hl. destruct LA as (LA & _). clear -LA Hl Hpl.
      induction LA as [|p l0 ps ls (all & A & B) LA IH]; simpl in *; [tauto|].
      destruct Hl as [->|Hl]; auto. apply dget_In in A. apply nth_error_In in B. eapply Hpl; eauto.
    + intros d l; simpl; discriminate.
    + rewrite Ht. simpl. f_equal. clear. induction t as [|[s|x] t IH]; simpl; congruence.
  - destruct (@set_eq_labels_ok e (se_dims e) ls (fun d h => h) Hll) as (e2 & E2 & A & B & C).
    rewrite Hset in E2. injection E2 as <-. rewrite A, C, Hsub. reflexivity.
Qed.

(** An equation over a dim its name does not mention: all but one of its
    elements disappear, with no error. *)
Lemma c16_unmarked_name_refuted__p :
  exists (c : coords) (e : seqn) (us : list seqn) (g : dict seqn),
    se_dims e = ["i"] /\ dget "i" c = Some [LStr "A"; LStr "B"] /\
    unpack_eq_list [e] c = Ok us /\ length us = 2 /\
    unpack_equations_sympy [e] c = Ok g /\ length g = 1 /\
    (forall (R : nat -> list (string * label) -> nat),
        residuals_sympy R g = Ok [R (se_id e) [("i", LStr "B")]]).
Proof.
  exists [("i", [LStr "A"; LStr "B"])], (MkSeqn 0 "demand" ["i"] [] []). eexists. eexists.
  repeat split; reflexivity.
Qed.

(** C16, pytensor parsing, when every name lists its markers in the order of
    the dims of its array. *)
Lemma c16_pytensor_labels__p :
  forall {V : Type} (c : coords) (ts : list (list seg)) (arrays : list (arr V)) (names : list string),
  Forall2 (fun t a => arr_wf a /\ Forall2 (fun d n => exists ls, dget d c = Some ls /\ length ls = n)
                                          (marks t) (ashape a)) ts arrays ->
  (forall t, In t ts -> plain_text t /\ NoDup (marks t)) ->
  (forall d, In d (dkeys c) -> plain_name d) ->
  (forall d ls l, In (d, ls) c -> In l ls -> plain_label l) ->
  unpack_equation_strings (map written ts) c = Ok names -> NoDup names ->
  exists errors,
    unpack_equations_pytensor (map written ts) c = Ok names /\
    residuals_pytensor names arrays = Ok errors /\
    (forall j t a idx, nth_error ts j = Some t -> nth_error arrays j = Some a -> in_range (ashape a) idx ->
       exists ls val,
         labels_at c (marks t) idx ls /\ aget a idx = Ok val /\
         nth_error (residual_report names errors)
                   (total (map (@ashape V) (firstn j arrays)) + offset (ashape a) idx) =
         Some (filled (label_of (marks t) ls) t, val)).
Proof.
  intros V c ts arrays names HA Ht Hc Hl Hu Hnd.
  unfold unpack_equations_pytensor. rewrite Hu. cbn [bind]. rewrite dedup_id by auto.
  assert (U : exists nss, Forall2 (fun t ns => unpack_equation_strings [written t] c = Ok ns) ts nss /\
                          names = List.concat nss).
  { clear -Hu. revert names Hu. induction ts as [|t ts IH]; intros names Hu.
    - injection Hu as <-. exists []. auto.
    - simpl map in Hu. rewrite c15_equations_in_order__p in Hu. cbn [fold_right] in Hu.
      rewrite <- c15_equations_in_order__p in Hu.
      apply bind_ok in Hu as (a & Ea & Hu). apply bind_ok in Hu as (b & Eb & Hu). injection Hu as <-.
      destruct (IH b Eb) as (nss & F & ->). exists (a :: nss). split; auto. }
  destruct U as (nss & F & ->).
  assert (L : map (@length _) nss = map (@length _) (map (@adata V) arrays)).
  { clear Hu Hnd. revert nss F. induction HA as [|t a ts arrays (W & S) HA IH]; intros nss F; inversion F; subst; auto.
    simpl. f_equal; [|apply IH; auto; intros; apply Ht; simpl; auto].
    destruct (Ht t (or_introl eq_refl)) as (P & N).
    destruct (@c15_markers_replaced__p c t (ashape a) P N Hc Hl S) as (ns & E & Ln & _).
    rewrite H1 in E. injection E as <-. rewrite Ln. symmetry. exact W. }
  exists (List.concat (map (@adata V) arrays)). split; auto. split.
  { unfold residuals_pytensor. rewrite !concat_length_, L, Nat.eqb_refl. reflexivity. }
  intros j t a idx Hj Ha Hi.
  assert (Hns : exists ns, nth_error nss j = Some ns /\ unpack_equation_strings [written t] c = Ok ns).
  { clear -F Hj. revert j Hj. induction F; intros j Hj; destruct j; simpl in *; try discriminate.
    - injection Hj as <-. eauto.
    - eauto. }
  destruct Hns as (ns & Hns & En).
  assert (Q : arr_wf a /\ Forall2 (fun d n => exists ls, dget d c = Some ls /\ length ls = n) (marks t) (ashape a)).
  { clear -HA Hj Ha. revert j Hj Ha. induction HA; intros j Hj Ha; destruct j; simpl in *; try discriminate.
    - congruence.
    - eauto. }
  destruct Q as (W & S). destruct (Ht t (nth_error_In _ _ Hj)) as (P & N).
  destruct (@c15_markers_replaced__p c t (ashape a) P N Hc Hl S) as (ns' & E & Ln & H).
  rewrite En in E. injection E as <-.
  destruct (H idx Hi) as (ls & LA & Hn).
  assert (Hv : exists val, nth_error (adata a) (offset (ashape a) idx) = Some val).
  { assert (O := offset_lt Hi). destruct (nth_error (adata a) (offset (ashape a) idx)) eqn:G; eauto.
    apply nth_error_None in G. unfold arr_wf in W. lia. }
  destruct Hv as (val & Hv). exists ls, val. split; auto. split.
  { unfold aget. assert (B := proj2 (in_rangeb_spec _ _) Hi). rewrite B, Hv. reflexivity. }
  assert (Tot : total (map (@ashape V) (firstn j arrays)) = list_sum (map (@length _) (firstn j (map (@adata V) arrays)))).
  { unfold total. f_equal. clear -HA. revert j. induction HA as [|t a ts arrays (W & _) HA IH]; intros j; destruct j; simpl; auto.
    f_equal; auto. }
  unfold residual_report. apply nth_combine_some.
  - rewrite Tot, <- firstn_map, <- L, firstn_map. erewrite nth_error_concat; [exact Hn|exact Hns|].
    rewrite Ln. now apply offset_lt.
  - rewrite Tot. erewrite nth_error_concat; [exact Hv| |rewrite W; now apply offset_lt].
    now rewrite nth_error_map, Ha.
Qed.

(** Markers in another order than the dims of the array: the report is
    complete but pairs residuals with the wrong names. *)
Lemma c16_pytensor_order_refuted__p :
  exists (c : coords) (t : list seg) (a : arr (list (string * string))) names errors,
    marks t = ["j"; "i"] /\
    (** the array has dims (i, j): its element at (x, y) is the residual of i=x, j=y *)
    ashape a = [2; 2] /\
    aget a [0; 1] = Ok [("i", "A"); ("j", "D")] /\
    unpack_equations_pytensor [written t] c = Ok names /\
    residuals_pytensor names [a] = Ok errors /\
    NoDup names /\
    In ("eq C B", [("i", "A"); ("j", "D")]) (residual_report names errors).
Proof.
  exists [("i", [LStr "A"; LStr "B"]); ("j", [LStr "C"; LStr "D"])],
         [Lit "eq "; Mark "j"; Lit " "; Mark "i"],
         (mkArr [2; 2] [[("i", "A"); ("j", "C")]; [("i", "A"); ("j", "D")];
                        [("i", "B"); ("j", "C")]; [("i", "B"); ("j", "D")]]).
  eexists. eexists.
  split; [reflexivity|]. split; [reflexivity|]. split; [reflexivity|]. split; [reflexivity|].
  split; [reflexivity|]. split; [|simpl; auto].
  cbv. repeat constructor; simpl; intuition discriminate.
Qed.
