(** Lemmas for C52, C53. *)
From Verif Require Import Py PyStr NdArray M_Primitives M_Utilities M_Expand M_Equations M_Registry M_Graph.
From Verif Require Import S_Layout S_Markers S_Expand S_Graph L_Utilities L_Layout L_Markers L_Expand L_Expand2 L_Unpacked.
Local Open Scope string_scope.
Local Open Scope list_scope.

Lemma label_eqb_eq a b : label_eqb a b = true <-> a = b.
Proof.
  destruct a, b; simpl; split; intros H; try discriminate.
  - apply String.eqb_eq in H. congruence.
  - injection H as ->. apply String.eqb_refl.
  - apply Z.eqb_eq in H. congruence.
  - injection H as ->. apply Z.eqb_refl.
Qed.

Lemma index_labels c dims idx ls :
  NoDup dims -> (forall d all, dget d c = Some all -> NoDup all) ->
  labels_at c dims idx ls ->
  map_res (fun dim => let* labels := dgetitem dim c in
                      let* v := dgetitem dim (combine dims ls) in
                      index_of label_eqb v labels) dims = Ok idx.
Proof.
  intros Hn Hl (HF & Hlen).
  apply map_res_ok_Forall2. apply in_combine_Forall2. split; [exact Hlen|].
  intros d i Hin. apply In_nth_error in Hin as (j & Hj).
  assert (Hls : exists l, nth_error ls j = Some l /\ exists all, dget d c = Some all /\ nth_error all i = Some l).
  { clear -HF Hj. revert j Hj. induction HF as [|p l ps ls (all & A & B) HF IH]; intros [|j] Hj; simpl in *; try discriminate.
    - injection Hj as ->. eauto.
    - eauto. }
  destruct Hls as (l & Hlj & all & Ha & Hi).
  assert (Hd : nth_error dims j = Some d).
  { clear -Hj. revert idx j Hj. induction dims as [|x dims IH]; intros [|y idx] [|j] Hj; simpl in *; try discriminate.
    - congruence.
    - eauto. }
  unfold dgetitem. rewrite Ha. cbn [bind].
  assert (G : dget d (combine dims ls) = Some l).
  { clear -Hn Hd Hlj. revert ls j Hd Hlj. induction dims as [|x dims IH]; intros [|y ls] [|j] Hd Hlj; simpl in *; try discriminate.
    - injection Hd as ->. injection Hlj as ->. now rewrite String.eqb_refl.
    - inversion Hn; subst. destruct (String.eqb_spec d x).
      + subst. exfalso. apply H1. eapply nth_error_In; eauto.
      + eauto. }
  rewrite G. cbn [bind]. apply index_of_nth_NoDup; [apply label_eqb_eq|eauto|exact Hi].
Qed.

(** One group: the map sends the k-th unpacked name to the k-th flat entry. *)
Lemma packed_group {V : Type} (order : list string -> list string) (m : model) (objs all : list mobj)
      (data : dict (arr V)) (us : list mobj) (vec : list V) (g : dict mobj) :
  (forall o, In o objs -> NoDup (o_dims o) /\ o_dim_vals o = [] /\ o_base_name o = o_name o /\
                          exists a, dget (o_name o) data = Some a /\ fits (m_coords m) o a) ->
  (forall d ls, dget d (m_coords m) = Some ls -> NoDup ls) ->
  (forall o, In o objs -> In o all) -> 
  unpack_objects order objs (m_coords m) = Ok us -> NoDup (map make_indexed_name us) ->
  concat_named data objs = Ok vec ->
  unpack_group order objs (m_coords m) = Ok g ->
  length g = length vec /\
  (forall k n u, nth_error g k = Some (n, u) ->
     get_unpacked_parent_object m n = Ok u ->
     exists p i v, packed_index m (map o_name all) n = Ok (p, i) /\
       (exists a, dget p data = Some a /\ aget a i = Ok v) /\ nth_error vec k = Some v).
Proof.
  intros Hw Hlab Hall Hu Hnd Hv Hg.
  destruct (@c13_kth_name__p V order (m_coords m) objs data us vec) as (g' & Eg & Lg & H); auto.
  { intros o Ho. destruct (Hw o Ho) as (A & B & _ & C). auto. }
  rewrite Hg in Eg. injection Eg as <-. split; [exact Lg|].
  intros k n u Hk Hp.
  assert (Hlt : k < length vec) by (rewrite <- Lg; apply nth_error_Some; congruence).
  destruct (H k Hlt) as (j & o & a & idx & ls & o' & val & Hj & Ha & Hi & Ek & Hval & Hget & Hlabs & Hgk & SA & DV).
  rewrite Hk in Hgk. injection Hgk as -> ->.
  assert (Ho : In o objs) by (eapply nth_error_In; eauto).
  destruct (Hw o Ho) as (Hdims & _ & Hbase & _).
  unfold packed_index. rewrite Hp. cbn [bind].
  destruct SA as (_ & Sn & Sd & _ & Sb & _).
  rewrite Sb, Hbase.
  destruct (@index_of_total _ String.eqb String.eqb_eq (o_name o) (map o_name all)) as (j' & Hj').
  { apply in_map. auto. }
  rewrite Hj'. cbn [bind].
  destruct (index_of_ok String.eqb String.eqb_eq _ _ Hj') as (Hn' & _). rewrite Hn'. cbn [bind].
  rewrite Sd, DV. rewrite (index_labels Hdims Hlab Hlabs). cbn [bind].
  exists (o_name o), idx, val. split; [reflexivity|]. split; [|exact Hval]. eauto.
Qed.

Lemma NoDup_unpacked order objs c us g :
  unpack_objects order objs c = Ok us -> NoDup (map make_indexed_name us) -> unpack_group order objs c = Ok g ->
  NoDup (dkeys g).
Proof.
  intros Hu Hn Hg. unfold unpack_group in Hg. rewrite Hu in Hg. cbn [bind] in Hg. injection Hg as <-.
  apply NoDup_dict_of_list.
Qed.

Lemma unpacked_keys us :
  NoDup (map make_indexed_name us) -> dkeys (dict_of_list (combine (map make_indexed_name us) us)) = map make_indexed_name us.
Proof.
  intros Hn. rewrite dict_of_list_NoDup; unfold dkeys; rewrite map_fst_combine; auto; now rewrite map_length.
Qed.

Lemma dget_nth {V} (d : dict V) k n v : NoDup (dkeys d) -> nth_error d k = Some (n, v) -> dget n d = Some v.
Proof. intros Hn Hk. apply dget_In_NoDup; auto. eapply nth_error_In; eauto. Qed.

Lemma c52_packed_value__p :
  forall (V : Type) (order : list string -> list string) (m : model) (vars params uvs ups : list mobj)
         (data : dict (arr V)) (xv xp : list V) (unpacked : list string),
  (forall o, In o (vars ++ params) -> NoDup (o_dims o) /\ o_dim_vals o = [] /\ o_base_name o = o_name o /\
                          exists a, dget (o_name o) data = Some a /\ fits (m_coords m) o a) ->
  (forall d ls, dget d (m_coords m) = Some ls -> NoDup ls) ->
  unpack_objects order vars (m_coords m) = Ok uvs -> unpack_objects order params (m_coords m) = Ok ups ->
  NoDup (map make_indexed_name (uvs ++ ups)) ->
  unpack_group order vars (m_coords m) = Ok (m_uvars m) ->
  unpack_group order params (m_coords m) = Ok (m_upars m) ->
  variable_dict_to_flat_array data vars params = Ok (xv, xp) ->
  (forall n, In n unpacked -> In n (dkeys (m_uvars m) ++ dkeys (m_upars m))) ->
  exists map_,
    make_unpacked_to_packed_map m (map o_name (vars ++ params)) unpacked = Ok map_ /\
    (forall n, In n (dkeys map_) <-> In n unpacked) /\
    length (dkeys (m_uvars m) ++ dkeys (m_upars m)) = length (xv ++ xp) /\
    (forall k n, In n unpacked -> nth_error (dkeys (m_uvars m) ++ dkeys (m_upars m)) k = Some n ->
       exists v, packed_value data map_ n = Ok v /\ nth_error (xv ++ xp) k = Some v).
Proof.
  intros V order m vars params uvs ups data xv xp unpacked Hw Hlab Huv Hup Hnd Hgv Hgp Hflat Hun.
  unfold variable_dict_to_flat_array in Hflat. apply bind_ok in Hflat as (v0 & Hcv & Hflat).
  apply bind_ok in Hflat as (p0 & Hcp & Hflat). injection Hflat as -> ->.
  rewrite map_app in Hnd. destruct (NoDup_app_inv _ _ Hnd) as (Hndv & Hndp & Hdis).
  destruct (@packed_group V order m vars (vars ++ params) data uvs xv (m_uvars m)) as (Lv & PV); auto.
  { intros o Ho. apply Hw. apply in_or_app. auto. } { intros. apply in_or_app. auto. }
  destruct (@packed_group V order m params (vars ++ params) data ups xp (m_upars m)) as (Lp & PP); auto.
  { intros o Ho. apply Hw. apply in_or_app. auto. } { intros. apply in_or_app. auto. }
  pose proof (NoDup_unpacked _ _ _ Huv Hndv Hgv) as Nv. pose proof (NoDup_unpacked _ _ _ Hup Hndp Hgp) as Np.
  assert (Kv : dkeys (m_uvars m) = map make_indexed_name uvs).
  { unfold unpack_group in Hgv. rewrite Huv in Hgv. cbn [bind] in Hgv. injection Hgv as <-.
    apply unpacked_keys; auto. }
  assert (Kp : dkeys (m_upars m) = map make_indexed_name ups).
  { unfold unpack_group in Hgp. rewrite Hup in Hgp. cbn [bind] in Hgp. injection Hgp as <-.
    apply unpacked_keys; auto. }
  (* every name *)
  assert (ALL : forall k n, nth_error (dkeys (m_uvars m) ++ dkeys (m_upars m)) k = Some n ->
     exists p i v, packed_index m (map o_name (vars ++ params)) n = Ok (p, i) /\
       (exists a, dget p data = Some a /\ aget a i = Ok v) /\ nth_error (xv ++ xp) k = Some v).
  { intros k n Hk. destruct (Nat.lt_ge_cases k (length (dkeys (m_uvars m)))) as [Hlt|Hge].
    - rewrite nth_error_app1 in Hk by auto. unfold dkeys in Hk. rewrite nth_error_map in Hk.
      destruct (nth_error (m_uvars m) k) as [[n' u]|] eqn:Ek; [|discriminate]. injection Hk as <-.
      destruct (PV k n' u Ek) as (p & i & v & A & B & C).
      { unfold get_unpacked_parent_object, dgetitem.
        assert (In n' (dkeys (m_uvars m))) by (unfold dkeys; apply in_map_iff; exists (n', u); split; auto; eapply nth_error_In; eauto).
        apply mem_str_In in H. rewrite H, (dget_nth _ _ Nv Ek). reflexivity. }
      exists p, i, v. split; auto. split; auto. rewrite nth_error_app1; auto. apply nth_error_Some. congruence.
    - rewrite nth_error_app2 in Hk by auto. unfold dkeys in Hk at 1. rewrite nth_error_map in Hk.
      destruct (nth_error (m_upars m) (k - length (dkeys (m_uvars m)))) as [[n' u]|] eqn:Ek; [|discriminate]. injection Hk as <-.
      destruct (PP _ n' u Ek) as (p & i & v & A & B & C).
      { unfold get_unpacked_parent_object, dgetitem.
        assert (In n' (dkeys (m_upars m))) by (unfold dkeys; apply in_map_iff; exists (n', u); split; auto; eapply nth_error_In; eauto).
        assert (M : mem_str n' (dkeys (m_uvars m)) = false).
        { apply mem_str_nIn. rewrite Kv. rewrite Kp in H. intros X. exact (Hdis _ X H). }
        apply mem_str_In in H. rewrite M, H, (dget_nth _ _ Np Ek). reflexivity. }
      exists p, i, v. split; auto. split; auto.
      assert (LL : length (dkeys (m_uvars m)) = length xv) by (unfold dkeys; rewrite map_length; exact Lv).
      rewrite nth_error_app2 by lia. now rewrite <- LL. }
  assert (TOT : exists l, map_res (fun n => let* p := packed_index m (map o_name (vars ++ params)) n in Ok (n, p)) unpacked = Ok l /\
                  (forall n p, In (n, p) l -> packed_index m (map o_name (vars ++ params)) n = Ok p) /\ map fst l = unpacked).
  { clear -Hun ALL. induction unpacked as [|n ns IH].
    - exists []. split; [reflexivity|]. split; [intros n p []|reflexivity].
    - destruct IH as (l & E & H & K); [intros; apply Hun; simpl; auto|].
      destruct (In_nth_error _ _ (Hun n (or_introl eq_refl))) as (k & Hk).
      destruct (ALL k n Hk) as (p & i & v & A & _). exists ((n, (p, i)) :: l). simpl. rewrite A. cbn [bind]. rewrite E.
      split; [reflexivity|]. split; [|simpl; congruence].
      intros n' p' [X|X]; [injection X as <- <-; exact A|auto]. }
  destruct TOT as (l & El & Hl & Kl).
  exists (dict_of_list l). unfold make_unpacked_to_packed_map. rewrite El. split; [reflexivity|].
  assert (Dict : forall n, In n unpacked -> exists p, dget n (dict_of_list l) = Some p /\ packed_index m (map o_name (vars ++ params)) n = Ok p).
  { intros n Hn. rewrite dget_dict_of_list. rewrite <- Kl in Hn. 
    assert (Hr : In n (dkeys (rev l))). { unfold dkeys. rewrite map_rev. now apply -> in_rev. }
    apply dget_Some_key in Hr as (p & Hp). exists p. split; auto. apply Hl. apply dget_In in Hp. now apply in_rev in Hp. }
  split.
  { intros n. rewrite dget_Some_key. split.
    - intros (p & Hp). rewrite dget_dict_of_list in Hp. apply dget_In, in_rev in Hp. rewrite <- Kl. apply in_map_iff. exists (n, p). auto.
    - intros Hn. destruct (Dict n Hn) as (p & Hp & _). eauto. }
  split. { rewrite !app_length. unfold dkeys. rewrite !map_length. lia. }
  intros k n Hn Hk. destruct (ALL k n Hk) as (p & i & v & A & (a & B & C) & D).
  destruct (Dict n Hn) as (q & Hq & Eq). rewrite A in Eq. injection Eq as <-.
  exists v. split; auto. unfold packed_value, dgetitem. rewrite Hq. cbn [bind fst snd]. rewrite B. cbn [bind]. exact C.
Qed.

(** ** C53 *)
Lemma mem_nat_In k l : mem_nat k l = true <-> In k l.
Proof.
  unfold mem_nat. rewrite existsb_exists. split.
  - intros (x & H & E). apply Nat.eqb_eq in E. congruence.
  - intros H. exists k. split; auto. apply Nat.eqb_refl.
Qed.

Section texpr_ind.
Variable P : texpr -> Prop.
Hypothesis HN : forall s, P (TName s).
Hypothesis HC : P TConst.
Hypothesis HO : forall args, Forall P args -> P (TOp args).
Fixpoint texpr_ind' (e : texpr) : P e :=
  match e with
  | TName s => HN s
  | TConst => HC
  | TOp args => HO ((fix go l : Forall P l := match l with [] => Forall_nil _ | a :: l' => Forall_cons a (texpr_ind' a) (go l') end) args)
  end.
End texpr_ind.

Lemma graph_inputs_op cache args :
  graph_inputs cache (TOp args) = let* xs := map_res (graph_inputs cache) args in Ok (List.concat xs).
Proof.
  cbn [graph_inputs]. induction args as [|a args IH]; [reflexivity|]. cbn [map_res].
  destruct (graph_inputs cache a) as [x|e]; cbn [bind]; [|reflexivity]. rewrite IH.
  destruct (map_res (graph_inputs cache) args); reflexivity.
Qed.

Lemma make_cache_get names s :
  NoDup names -> ~ In "pt"%string names ->
  (forall k, nth_error names k = Some s -> dget s (make_cache names) = Some (TTensor k)) /\
  (~ In s names -> s <> "pt"%string -> dget s (make_cache names) = None) /\
  dget "pt"%string (make_cache names) = Some TModule.
Proof.
  intros Hn Hpt. unfold make_cache.
  assert (L : length names = length (map TTensor (seq 0 (length names)))) by now rewrite map_length, seq_length.
  rewrite dict_of_list_NoDup by (rewrite map_fst_combine; auto).
  split; [|split].
  - intros k Hk. rewrite dget_dset_other.
    + assert (Hlt : k < length names) by (apply nth_error_Some; congruence).
      apply dget_In_NoDup.
      * unfold dkeys. now rewrite map_fst_combine.
      * eapply nth_error_In. apply nth_combine_some; [exact Hk|].
        rewrite nth_error_map. rewrite nth_error_nth' with (d := 0) by now rewrite seq_length. now rewrite seq_nth.
    + intros ->. apply Hpt. eapply nth_error_In; eauto.
  - intros Hs Hs2. rewrite dget_dset_other by auto. apply dget_None. unfold dkeys. now rewrite map_fst_combine.
  - apply dget_dset_same.
Qed.

Lemma graph_inputs_spec names e :
  NoDup names -> ~ In "pt"%string names ->
  match graph_inputs (make_cache names) e with
  | Ok ks => (forall s, uses s e -> In s names) /\
             (forall k, In k ks <-> exists s, uses s e /\ nth_error names k = Some s)
  | Err _ => exists s, uses s e /\ ~ In s names
  end.
Proof.
  intros Hn Hpt. induction e as [s| |args IH] using texpr_ind'.
  - destruct (@make_cache_get names s Hn Hpt) as (A & B & C). cbn [graph_inputs].
    destruct (in_dec string_dec s names) as [Hs|Hs].
    + destruct (In_nth_error _ _ Hs) as (k & Hk). rewrite (A k Hk). split.
      * intros s' H. inversion H; subst; auto.
      * intros j. split.
        -- intros [<-|[]]. exists s. split; [constructor|auto].
        -- intros (s' & H & Hj). inversion H; subst. left.
           rewrite NoDup_nth_error in Hn. apply Hn; [apply nth_error_Some|]; congruence.
    + destruct (string_dec s "pt") as [->|Hp].
      * rewrite C. exists "pt"%string. split; [constructor|auto].
      * rewrite (B Hs Hp). exists s. split; [constructor|auto].
  - split; [intros s H; inversion H|]. intros k. split; [intros []|intros (s & H & _); inversion H].
  - rewrite graph_inputs_op. induction args as [|a args IHa].
    + simpl. split; [intros s H; inversion H; subst; contradiction|].
      intros k. split; [intros []|intros (s & H & _); inversion H; subst; contradiction].
    + inversion IH as [|? ? Ha Hargs]; subst. specialize (IHa Hargs). cbn [map_res].
      destruct (graph_inputs (make_cache names) a) as [x|e]; cbn [bind].
      * destruct (map_res (graph_inputs (make_cache names)) args) as [xs|e]; cbn [bind] in *.
        -- destruct Ha as (A1 & A2), IHa as (B1 & B2). split.
           ++ intros s H. inversion H; subst. destruct H1 as [->|H1]; auto. apply B1. econstructor; eauto.
           ++ intros k. simpl. rewrite in_app_iff, A2, B2. split.
              ** intros [(s & H & Hk)|(s & H & Hk)]; exists s; split; auto.
                 --- econstructor; [left; reflexivity|auto].
                 --- inversion H; subst. econstructor; [right; eauto|auto].
              ** intros (s & H & Hk). inversion H; subst. destruct H1 as [->|H1]; [left; eauto|right].
                 exists s. split; auto. econstructor; eauto.
        -- destruct IHa as (s & H & Hs). exists s. split; auto. inversion H; subst. econstructor; [right; eauto|auto].
      * destruct Ha as (s & H & Hs). exists s. split; auto. econstructor; [left; reflexivity|auto].
Qed.

Lemma c53_accepts_iff__p :
  forall (names : list string) (eqs : list texpr),
  NoDup names -> ~ In "pt"%string names ->
  (parse_and_validate names eqs = Ok tt <->
   forall s, In s names <-> exists e, In e eqs /\ uses s e).
Proof.
  intros names eqs Hn Hpt. unfold parse_and_validate.
  pose proof (graph_inputs_spec (TOp eqs) Hn Hpt) as G. rewrite graph_inputs_op in G.
  assert (U : forall s, uses s (TOp eqs) <-> exists e, In e eqs /\ uses s e).
  { intros s. split; [intros H; inversion H; subst; eauto|intros (e & A & B); econstructor; eauto]. }
  destruct (map_res (graph_inputs (make_cache names)) eqs) as [ins|e]; cbn [bind] in *.
  - destruct G as (G1 & G2). unfold validate_parsing.
    assert (C1 : forallb (fun k => existsb (fun v => match v with TTensor j => Nat.eqb j k | TModule => false end) (dvals (make_cache names))) (seq 0 (length names)) = true).
    { apply forallb_forall. intros k Hk. apply in_seq in Hk.
      destruct (nth_error names k) as [s|] eqn:Es; [|apply nth_error_None in Es; lia].
      destruct (@make_cache_get names s Hn Hpt) as (A & _). apply existsb_exists. exists (TTensor k).
      split; [|apply Nat.eqb_refl]. unfold dvals. apply in_map_iff. exists (s, TTensor k). split; auto. now apply dget_In, A. }
    cbv zeta. rewrite C1. cbn [negb].
    assert (C2 : existsb (fun k => negb (mem_nat k (seq 0 (length names)))) (List.concat ins) = false).
    { apply not_true_is_false. intros X. apply existsb_exists in X as (k & Hk & X). apply G2 in Hk as (s & _ & Hs).
      apply negb_true_iff in X. assert (mem_nat k (seq 0 (length names)) = true); [|congruence].
      apply mem_nat_In, in_seq. assert (k < length names) by (apply nth_error_Some; congruence). lia. }
    rewrite C2. destruct (existsb _ (seq 0 (length names))) eqn:C3.
    + split; [discriminate|]. intros H. exfalso.
      apply existsb_exists in C3 as (k & Hk & C3). apply in_seq in Hk. apply negb_true_iff in C3.
      destruct (nth_error names k) as [s|] eqn:Es; [|apply nth_error_None in Es; lia].
      assert (mem_nat k (List.concat ins) = true); [|congruence]. apply mem_nat_In, G2. exists s. split; auto.
      apply U, H. eapply nth_error_In; eauto.
    + split; auto. intros _ s. rewrite <- U. split; [|apply G1]. intros Hs.
      destruct (In_nth_error _ _ Hs) as (k & Hk).
      destruct (mem_nat k (List.concat ins)) eqn:M.
      * apply mem_nat_In, G2 in M as (s' & Hu & Hk'). congruence.
      * exfalso. assert (existsb (fun k => negb (mem_nat k (List.concat ins))) (seq 0 (length names)) = true); [|congruence].
        apply existsb_exists. exists k. rewrite M. split; auto. apply in_seq.
        assert (k < length names) by (apply nth_error_Some; congruence). lia.
  - split; [discriminate|]. intros H. exfalso. destruct G as (s & Hu & Hs). apply Hs, H, U, Hu.
Qed.

(** An object called "pt" hides the pytensor module's name and is never
    accepted. *)
Lemma c53_pt_rejected__p :
  forall (names : list string) (eqs : list texpr),
  In "pt"%string names -> NoDup names -> exists e, parse_and_validate names eqs = Err e.
Proof.
  intros names eqs Hpt Hn. unfold parse_and_validate.
  destruct (map_res _ eqs) as [ins|e]; cbn [bind]; [|eauto].
  unfold validate_parsing. cbv zeta.
  destruct (In_nth_error _ _ Hpt) as (k & Hk).
  assert (C : forallb (fun k => existsb (fun v => match v with TTensor j => Nat.eqb j k | TModule => false end) (dvals (make_cache names))) (seq 0 (length names)) = false).
  { apply not_true_is_false. intros X. rewrite forallb_forall in X.
    assert (Hlt : k < length names) by (apply nth_error_Some; congruence).
    assert (Hin : In k (seq 0 (length names))) by (apply in_seq; lia).
    specialize (X k Hin). apply existsb_exists in X as (v & Hv & Ev).
    destruct v as [j|]; [|discriminate]. apply Nat.eqb_eq in Ev. subst j.
    unfold dvals in Hv. apply in_map_iff in Hv as ([s v] & Es & Hv). simpl in Es. subst v.
    assert (L : length names = length (map TTensor (seq 0 (length names)))) by now rewrite map_length, seq_length.
    assert (NK : NoDup (dkeys (make_cache names))) by (apply NoDup_dset, NoDup_dict_of_list).
    apply (@dget_In_NoDup _ _ _ _ NK) in Hv. unfold make_cache in Hv. rewrite dget_dset in Hv.
    destruct (String.eqb_spec s "pt"); [discriminate|].
    rewrite dict_of_list_NoDup in Hv by (rewrite map_fst_combine; auto).
    apply dget_In in Hv. apply In_nth_error in Hv as (j & Hj).
    assert (J : nth_error names j = Some s /\ nth_error (map TTensor (seq 0 (length names))) j = Some (TTensor k)).
    { clear -Hj. revert Hj. generalize (map TTensor (seq 0 (length names))) as l. revert j.
      induction names as [|x names IH]; intros [|j] [|y l] H; simpl in *; try discriminate.
      - injection H as -> ->. auto.
      - eauto. }
    destruct J as (J1 & J2). rewrite nth_error_map in J2.
    assert (Hj2 : j < length names) by (apply nth_error_Some; congruence).
    rewrite nth_error_nth' with (d := 0) in J2 by now rewrite seq_length.
    rewrite seq_nth in J2 by auto. cbn [option_map Nat.add] in J2. injection J2 as ->. congruence. }
  rewrite C. simpl. eauto.
Qed.
