(** Lemmas for C25, C26, C27, C32. *)
From Coq Require Import QArith Qabs Lqa.
From Verif Require Import Py PyStr NdArray M_Primitives M_Utilities M_Wrappers M_SimResult.
From Verif Require Import S_Layout L_Utilities L_Layout L_Wrappers.
Local Open Scope string_scope.
Local Open Scope list_scope.
Close Scope Q_scope.

(** ** C25 *)
Lemma has_shape_step c o s ls : ~ In "step" (o_dims o) -> (has_shape (dset "step" ls c) o s <-> has_shape c o s).
Proof.
  intros Hs. unfold has_shape. revert s. induction (o_dims o) as [|d ds IH]; intros s.
  - split; intros H; inversion H; constructor.
  - assert (d <> "step") by (intros ->; apply Hs; now left).
    assert (~ In "step" ds) by (intros X; apply Hs; now right).
    split; intros H1; inversion H1 as [|? ? ? ? (l & G & L) HF]; subst; constructor.
    + rewrite dget_dset_other in G; eauto.
    + now apply IH.
    + exists l. rewrite dget_dset_other; auto.
    + now apply IH.
Qed.

Lemma nodupb_spec l : nodupb l = true <-> NoDup l.
Proof.
  induction l as [|x l IH]; simpl; [split; auto; constructor|].
  rewrite andb_true_iff, negb_true_iff, mem_str_nIn, IH. split.
  - intros (A & B). now constructor.
  - intros H. inversion H; auto.
Qed.

Lemma check_step {V} c o s (a : arr V) ls n :
  NoDup (o_dims o) -> ~ In "step" (o_dims o) -> has_shape c o s -> ashape a = n :: s -> length ls = n ->
  check_var (dset "step" ls c) ("step" :: o_dims o, a) = true.
Proof.
  intros Hn Hst Hs Ha Hl. unfold check_var. cbn [fst snd]. rewrite Ha.
  apply andb_true_iff. split; [apply andb_true_iff; split|].
  - apply nodupb_spec. now constructor.
  - apply Nat.eqb_eq. simpl. f_equal. unfold has_shape in Hs. apply (Forall2_length_ Hs).
  - simpl. rewrite dget_dset_same, Hl, Nat.eqb_refl. cbn [andb].
    apply (@has_shape_step c o s ls Hst) in Hs. unfold has_shape in Hs. clear -Hs.
    induction Hs as [|d m ds s (l & G & L) HF IH]; [reflexivity|]. simpl. rewrite G, L, Nat.eqb_refl. exact IH.
Qed.

Lemma optimizer_group_ok {V} (c : coords) (objs : list mobj) (initial result : dict (arr V)) :
  NoDup (map o_name objs) ->
  (forall o, In o objs -> NoDup (o_dims o) /\ ~ In "step" (o_dims o) /\
     exists a b, dget (o_name o) initial = Some a /\ dget (o_name o) result = Some b /\
                 has_shape c o (ashape a) /\ ashape b = ashape a) ->
  exists ds, optimizer_group initial result (dset "step" [LInt 0; LInt 1] c) objs = Ok ds /\
    dkeys ds = map o_name objs /\
    (forall o a b, In o objs -> dget (o_name o) initial = Some a -> dget (o_name o) result = Some b ->
       dget (o_name o) ds = Some ("step" :: o_dims o, mkArr (2 :: ashape a) (adata a ++ adata b))).
Proof.
  intros Hn H. unfold optimizer_group.
  assert (E : exists l, map_res (fun o => let* a := dgetitem (o_name o) initial in
                              let* b := dgetitem (o_name o) result in
                              let* s := stack2 a b in
                              Ok (o_name o, ("step" :: o_dims o, s))) objs = Ok l /\
     map fst l = map o_name objs /\
     (forall o a b, In o objs -> dget (o_name o) initial = Some a -> dget (o_name o) result = Some b ->
         In (o_name o, ("step" :: o_dims o, mkArr (2 :: ashape a) (adata a ++ adata b))) l) /\
     (forall kv, In kv l -> check_var (dset "step" [LInt 0; LInt 1] c) (snd kv) = true)).
  { clear Hn. induction objs as [|o objs IH].
    - exists []. split; [reflexivity|]. split; [reflexivity|]. split; [intros o a b []|intros kv []].
    - destruct IH as (l & E & K & HI & HC); [intros; apply H; simpl; auto|].
      destruct (H o (or_introl eq_refl)) as (Nd & Ns & a & b & Ha & Hb & Hs & Eb).
      exists ((o_name o, ("step" :: o_dims o, mkArr (2 :: ashape a) (adata a ++ adata b))) :: l).
      simpl. unfold dgetitem at 1 2. rewrite Ha, Hb. cbn [bind]. unfold stack2 at 1.
      destruct (list_eq_dec Nat.eq_dec (ashape a) (ashape b)); [|congruence]. cbn [bind]. rewrite E.
      split; [reflexivity|]. split; [simpl; congruence|]. split.
      + intros o' a' b' [<-|Ho] Ha' Hb'; [left; congruence|right; auto].
      + intros kv [<-|Hkv]; [|auto]. cbn [snd]. eapply check_step; eauto. reflexivity. }
  destruct E as (l & E & K & HI & HC). rewrite E. cbn [bind].
  assert (D : dict_of_list l = l) by (apply dict_of_list_NoDup; rewrite K; exact Hn).
  rewrite D. unfold make_dataset.
  assert (F : forallb (fun kv => check_var (dset "step" [LInt 0; LInt 1] c) (snd kv)) l = true)
    by (apply forallb_forall; exact HC).
  rewrite F. exists l. split; [reflexivity|]. split; [exact K|].
  intros o a b Ho Ha Hb. apply dget_In_NoDup; [unfold dkeys; now rewrite K|auto].
Qed.

Lemma aget_stack0 {V} (a b : arr V) idx : arr_wf a -> in_range (ashape a) idx ->
  aget (mkArr (2 :: ashape a) (adata a ++ adata b)) (0 :: idx) = aget a idx.
Proof.
  intros W Hi. unfold aget. cbn [ashape adata].
  assert (R1 : in_rangeb (2 :: ashape a) (0 :: idx) = true) by (apply in_rangeb_spec; constructor; auto).
  assert (R2 : in_rangeb (ashape a) idx = true) by (now apply in_rangeb_spec).
  rewrite R1, R2. cbn [offset]. rewrite Nat.mul_0_l, Nat.add_0_l.
  rewrite nth_error_app1; auto. rewrite W. now apply offset_lt.
Qed.

Lemma aget_stack1 {V} (a b : arr V) idx : arr_wf a -> ashape b = ashape a -> in_range (ashape a) idx ->
  aget (mkArr (2 :: ashape a) (adata a ++ adata b)) (1 :: idx) = aget b idx.
Proof.
  intros W Hs Hi. unfold aget. cbn [ashape adata]. rewrite Hs.
  assert (R1 : in_rangeb (2 :: ashape a) (1 :: idx) = true) by (apply in_rangeb_spec; constructor; auto).
  assert (R2 : in_rangeb (ashape a) idx = true) by (now apply in_rangeb_spec).
  rewrite R1, R2. cbn [offset]. rewrite Nat.mul_1_l. rewrite <- W.
  rewrite nth_error_app2 by lia. now replace (length (adata a) + offset (ashape a) idx - length (adata a)) with (offset (ashape a) idx) by lia.
Qed.

Lemma c25_optimizer_cells__p :
  forall (V : Type) (c : coords) (vars params : list mobj) (sv sp : list (list nat))
         (initial final : dict (arr V)) (x v0 theta : list V),
  vars <> [] -> params <> [] -> NoDup (map o_name (vars ++ params)) ->
  (forall o, In o (vars ++ params) -> NoDup (o_dims o) /\ ~ In "step"%string (o_dims o)) ->
  Forall2 (has_shape c) vars sv -> Forall2 (has_shape c) params sp ->
  (forall o, In o (vars ++ params) -> exists a, dget (o_name o) initial = Some a /\ fits c o a) ->
  (* theta holds the final values of the parameters *)
  (forall o, In o params -> exists a, dget (o_name o) final = Some a /\ fits c o a) ->
  variable_dict_to_flat_array final vars params = Ok (v0, theta) ->
  length x = total sv ->
  exists ds_v ds_p,
    optimizer_result_to_idata x theta initial c vars params = Ok (ds_v, ds_p) /\
    dkeys ds_v = map o_name vars /\ dkeys ds_p = map o_name params /\
    (forall j o s, nth_error vars j = Some o -> nth_error sv j = Some s ->
       exists a a0, dget (o_name o) ds_v = Some ("step"%string :: o_dims o, a) /\ ashape a = 2 :: s /\
         dget (o_name o) initial = Some a0 /\
         forall idx, in_range s idx ->
           aget a (0 :: idx) = aget a0 idx /\
           exists v, aget a (1 :: idx) = Ok v /\ nth_error x (total (firstn j sv) + offset s idx) = Some v) /\
    (forall o, In o params ->
       exists a a0 a1, dget (o_name o) ds_p = Some ("step"%string :: o_dims o, a) /\
         dget (o_name o) initial = Some a0 /\ dget (o_name o) final = Some a1 /\
         ashape a = 2 :: ashape a1 /\
         forall idx, in_range (ashape a1) idx ->
           aget a (0 :: idx) = aget a0 idx /\ aget a (1 :: idx) = aget a1 idx).
Proof.
  intros V c vars params sv sp initial final x v0 theta Hv Hp Hn Hd HFv HFp Hi Hf Hflat Hx.
  unfold variable_dict_to_flat_array in Hflat. apply bind_ok in Hflat as (v0' & _ & Hflat).
  apply bind_ok in Hflat as (theta' & Hth & Hflat). injection Hflat as -> ->.
  apply concat_named_inv in Hth as (_ & as_ & HA & Eth).
  (* theta has the right length *)
  assert (FF : Forall2 (fits c) params as_).
  { clear -HA Hf. induction HA; constructor; auto.
    - destruct (Hf x (or_introl eq_refl)) as (a & Ha & F). congruence.
    - apply IHHA. intros; apply Hf; simpl; auto. }
  assert (Esp : map (@ashape V) as_ = sp).
  { clear -FF HFp. revert sp HFp. induction FF as [|o a params as_ (W & S) FF IH]; intros sp HFp; inversion HFp; subst; [reflexivity|].
    simpl. f_equal; [eapply has_shape_fun; eauto|auto]. }
  assert (Wf : Forall (fun a => arr_wf a) as_).
  { clear -FF. induction FF as [|o a params as_ (W & S) FF IH]; constructor; auto. }
  assert (Ht : length theta = total sp).
  { subst theta sp. clear -Wf. unfold total. induction Wf; simpl; [reflexivity|]. rewrite app_length, IHWf. f_equal. exact H. }
  set (c' := dset "step" [LInt 0; LInt 1] c).
  assert (HFv' : Forall2 (has_shape c') vars sv).
  { apply in_combine_Forall2 in HFv as (L & HFv). apply in_combine_Forall2. split; auto. intros o s Hin.
    apply has_shape_step; auto. apply Hd. apply in_or_app. left. eapply in_combine_l; eauto. }
  assert (HFp' : Forall2 (has_shape c') params sp).
  { apply in_combine_Forall2 in HFp as (L & HFp). apply in_combine_Forall2. split; auto. intros o s Hin.
    apply has_shape_step; auto. apply Hd. apply in_or_app. right. eapply in_combine_l; eauto. }
  destruct (@c33_own_array__p V (dict (arr V)) (fun d => Ok d) c' vars params sv sp x theta Hn HFv' HFp' Hx Ht)
    as (result & E & K & Dv & Dp).
  unfold wrap_pytensor_func_for_scipy in E. unfold optimizer_result_to_idata. fold c'.
  destruct (flat_array_to_variable_dict (x ++ theta) (vars ++ params) c') as [r|e]; [|discriminate].
  cbn [bind] in E |- *. injection E as ->.
  rewrite map_app in Hn. destruct (NoDup_app_inv _ _ Hn) as (Hnv & Hnp & _).
  assert (NV : forall o, In o vars -> exists j s, nth_error vars j = Some o /\ nth_error sv j = Some s /\ has_shape c o s).
  { clear -HFv. induction HFv as [|o s vars sv Hs HF IH]; intros o' Ho; [destruct Ho|]. destruct Ho as [->|Ho].
    - exists 0, s. auto.
    - destruct (IH o' Ho) as (j & s' & A & B & C). exists (S j), s'. auto. }
  assert (NP : forall o, In o params -> exists j s, nth_error params j = Some o /\ nth_error sp j = Some s /\ has_shape c o s).
  { clear -HFp. induction HFp as [|o s vars sv Hs HF IH]; intros o' Ho; [destruct Ho|]. destruct Ho as [->|Ho].
    - exists 0, s. auto.
    - destruct (IH o' Ho) as (j & s' & A & B & C). exists (S j), s'. auto. }
  destruct (@optimizer_group_ok V c vars initial result Hnv) as (dsv & Ev & Kv & Gv).
  { intros o Ho. destruct (Hd o (in_or_app _ _ _ (or_introl Ho))) as (A & B). split; [exact A|]. split; [exact B|].
    destruct (Hi o (in_or_app _ _ _ (or_introl Ho))) as (a & Ha & _ & Sa).
    destruct (NV o Ho) as (j & s & Hj & Hs & HS). exists a. eexists. split; [exact Ha|]. split; [eapply Dv; eauto|].
    split; [exact Sa|]. cbn [ashape]. eapply has_shape_fun; eauto. }
  destruct (@optimizer_group_ok V c params initial result Hnp) as (dsp & Ep & Kp & Gp).
  { intros o Ho. destruct (Hd o (in_or_app _ _ _ (or_intror Ho))) as (A & B). split; [exact A|]. split; [exact B|].
    destruct (Hi o (in_or_app _ _ _ (or_intror Ho))) as (a & Ha & _ & Sa).
    destruct (NP o Ho) as (j & s & Hj & Hs & HS). exists a. eexists. split; [exact Ha|]. split; [eapply Dp; eauto|].
    split; [exact Sa|]. cbn [ashape]. eapply has_shape_fun; eauto. }
  fold c' in Ev, Ep. rewrite Ev. cbn [bind]. rewrite Ep. cbn [bind].
  exists dsv, dsp. split; [reflexivity|]. split; [exact Kv|]. split; [exact Kp|]. split.
  - intros j o s Hj Hs.
    assert (Ho : In o vars) by (eapply nth_error_In; eauto).
    destruct (Hi o (in_or_app _ _ _ (or_introl Ho))) as (a0 & Ha0 & W0 & S0).
    pose proof (Dv j o s Hj Hs) as Hr.
    assert (HS : has_shape c o s).
    { apply in_combine_Forall2 in HFv as (_ & HFv). apply HFv. eapply nth_error_In.
      instantiate (1 := j). clear -Hj Hs. revert sv j Hj Hs. induction vars as [|y vars IH]; intros [|z sv] [|j] Hj Hs; simpl in *; try discriminate; auto. congruence. }
    assert (Es : ashape a0 = s) by (eapply has_shape_fun; eauto).
    eexists. exists a0. split; [eapply Gv; eauto|]. cbn [ashape]. split; [congruence|]. split; [exact Ha0|].
    intros idx Hidx. rewrite <- Es in Hidx. split; [now apply aget_stack0|].
    rewrite aget_stack1; auto. pose proof (total_firstn_nth _ _ Hs) as Hle. pose proof (offset_lt Hidx) as Ho2. rewrite Es in *.
    assert (X : exists v, nth_error x (total (firstn j sv) + offset s idx) = Some v).
    { destruct (nth_error x _) eqn:G; eauto. apply nth_error_None in G. lia. }
    destruct X as (v & X). exists v. split; auto.
    unfold aget. cbn [ashape adata].
    assert (R : in_rangeb s idx = true) by (now apply in_rangeb_spec). rewrite R.
    rewrite nth_error_slice by auto. now rewrite X.
  - intros o Ho.
    destruct (Hi o (in_or_app _ _ _ (or_intror Ho))) as (a0 & Ha0 & W0 & S0).
    destruct (Hf o Ho) as (a1 & Ha1 & W1 & S1).
    destruct (NP o Ho) as (j & s & Hj & Hs & HS). pose proof (Dp j o s Hj Hs) as Hr.
    assert (Es : ashape a0 = s) by (eapply has_shape_fun; eauto).
    assert (Es1 : ashape a1 = s) by (eapply has_shape_fun; eauto).
    assert (B : mkArr s (slice theta (total (firstn j sp)) (prodn s)) = a1).
    { assert (Haj : nth_error as_ j = Some a1).
      { clear -HA Hj Ha1. revert j Hj. induction HA as [|o' a' ps as_ H HA IH]; intros [|j] Hj; simpl in *; try discriminate.
        - injection Hj as ->. congruence.
        - auto. }
      assert (CH : chop sp theta = as_).
      { subst theta sp. clear -Wf. induction Wf as [|a l W Wf IH]; [reflexivity|]. simpl.
        rewrite <- W. rewrite firstn_app, Nat.sub_diag, firstn_all, skipn_app, Nat.sub_diag, skipn_all.
        simpl. rewrite app_nil_r. f_equal; [destruct a; reflexivity|exact IH]. }
      pose proof (@nth_chop V sp theta j s Hs Ht) as NC. rewrite CH in NC. congruence. }
    rewrite B in Hr.
    eexists. exists a0, a1. split; [eapply Gp; eauto|]. split; [exact Ha0|]. split; [exact Ha1|]. cbn [ashape].
    split; [congruence|]. intros idx Hidx. rewrite Es1, <- Es in Hidx. split; [now apply aget_stack0|].
    apply aget_stack1; auto. congruence.
Qed.

(** A dimension called "step" is mistaken for the step axis: its length is
    taken to be 2 and decoding goes wrong. *)
Lemma c25_step_dimension_refuted__p :
  exists (c : coords) (vars params : list mobj) (initial : dict (arr nat)) (x theta : list nat),
    NoDup (map o_name (vars ++ params)) /\
    (forall o, In o (vars ++ params) -> exists a, dget (o_name o) initial = Some a /\ fits c o a) /\
    length x = 3 /\ Forall2 (has_shape c) vars [[3]] /\
    optimizer_result_to_idata x theta initial c vars params = Err ValueError.
Proof.
  exists [("step", [LStr "A"; LStr "B"; LStr "C"])], [exobj KVar "X" ["step"]], [exobj KPar "a" []].
  exists [("X", mkArr [3] [1; 2; 3]); ("a", mkArr [] [9])], [4; 5; 6], [7].
  split; [repeat constructor; simpl; intuition discriminate|]. split.
  - intros o [<-|[<-|[]]]; eexists; (split; [reflexivity|]); split; try reflexivity;
      repeat (constructor; [eexists; split; reflexivity|]); constructor.
  - split; [reflexivity|]. split; [|vm_compute; reflexivity].
    constructor; [|constructor]. constructor; [eexists; split; reflexivity|constructor].
Qed.

(** The Euler trajectories, given as one array per object. *)
Lemma list_group_ok {V} (arrays : list (arr V)) k objs :
  (forall j o, nth_error objs j = Some o -> exists a, nth_error arrays (k + j) = Some a) ->
  exists l, list_group arrays k objs = Ok l /\ map fst l = map o_name objs /\
    (forall j o a, nth_error objs j = Some o -> nth_error arrays (k + j) = Some a ->
       nth_error l j = Some (o_name o, ("step" :: o_dims o, a))).
Proof.
  intros H. unfold list_group.
  assert (G : forall b objs, (forall j o, nth_error objs j = Some o -> exists a, nth_error arrays (k + (b + j)) = Some a) ->
    exists l, map_res (fun io => match nth_error arrays (k + fst io) with
                     | Some a => Ok (o_name (snd io), ("step" :: o_dims (snd io), a))
                     | None => Err IndexError
                     end) (combine (seq b (length objs)) objs) = Ok l /\ map fst l = map o_name objs /\
    (forall j o a, nth_error objs j = Some o -> nth_error arrays (k + (b + j)) = Some a ->
       nth_error l j = Some (o_name o, ("step" :: o_dims o, a)))).
  { clear objs H. intros b objs. revert b. induction objs as [|o objs IH]; intros b H.
    - exists []. split; [reflexivity|]. split; [reflexivity|]. intros [|j] o a Ho; discriminate Ho.
    - destruct (IH (S b)) as (l & E & K & N).
      { intros j o' Ho. destruct (H (S j) o' Ho) as (a & Ha). exists a. rewrite <- Ha. f_equal. lia. }
      destruct (H 0 o eq_refl) as (a & Ha). rewrite Nat.add_0_r in Ha.
      exists ((o_name o, ("step" :: o_dims o, a)) :: l). simpl. rewrite Ha. cbn [bind]. rewrite E.
      split; [reflexivity|]. split; [simpl; congruence|].
      intros [|j] o' a' Ho' Ha'.
      + simpl in Ho'. rewrite Nat.add_0_r in Ha'. simpl. congruence.
      + simpl. apply N; [exact Ho'|]. rewrite <- Ha'. f_equal. lia. }
  destruct (G 0 objs) as (l & A); [intros j o Ho; exact (H j o Ho)|]. exists l. exact A.
Qed.

Lemma make_dataset_list {V} (c : coords) (l : list (string * (list string * arr V))) :
  NoDup (map fst l) -> (forall kv, In kv l -> check_var c (snd kv) = true) ->
  make_dataset c (dict_of_list l) = Ok l.
Proof.
  intros Hn H. rewrite dict_of_list_NoDup by exact Hn. unfold make_dataset.
  replace (forallb (fun kv => check_var c (snd kv)) l) with true; [reflexivity|].
  symmetry. apply forallb_forall. exact H.
Qed.

Lemma c25_euler_cells__p :
  forall (V : Type) (c : coords) (vars params : list mobj) (arrays : list (arr V)) (n : nat),
  vars ++ params <> [] -> NoDup (map o_name (vars ++ params)) ->
  (forall o, In o (vars ++ params) -> NoDup (o_dims o) /\ ~ In "step"%string (o_dims o)) ->
  (* one trajectory of n steps per variable, then one per parameter *)
  Forall2 (fun o a => exists s, ashape a = n :: s /\ has_shape c o s) (vars ++ params) arrays ->
  exists ds_v ds_p,
    list_of_array_to_idata arrays c vars params = Ok (ds_v, ds_p) /\
    dkeys ds_v = map o_name vars /\ dkeys ds_p = map o_name params /\
    (forall j o a, nth_error vars j = Some o -> nth_error arrays j = Some a ->
       dget (o_name o) ds_v = Some ("step"%string :: o_dims o, a)) /\
    (forall j o a, nth_error params j = Some o -> nth_error arrays (length vars + j) = Some a ->
       dget (o_name o) ds_p = Some ("step"%string :: o_dims o, a)).
Proof.
  intros V c vars params arrays n Hne Hn Hd HF.
  assert (NE : forall j o, nth_error (vars ++ params) j = Some o ->
            exists a s, nth_error arrays j = Some a /\ ashape a = n :: s /\ has_shape c o s).
  { clear -HF. induction HF as [|o a objs as_ (s & A & B) HF IH]; intros [|j] o' Ho; try discriminate Ho.
    - injection Ho as ->. exists a, s. auto.
    - exact (IH j o' Ho). }
  assert (F : exists a0 s0 rest, arrays = a0 :: rest /\ ashape a0 = n :: s0).
  { inversion HF as [|o a objs as_ (s & A & B) HF' E1 E2]; [congruence|]. subst. exists a, s, as_. auto. }
  destruct F as (a0 & s0 & rest & Earr & Ea0).
  rewrite map_app in Hn. destruct (NoDup_app_inv _ _ Hn) as (Hnv & Hnp & _).
  destruct (@list_group_ok V arrays 0 vars) as (lv & Ev & Kv & Nv).
  { intros j o Ho. destruct (NE j o) as (a & s & Ha & _); [|exists a; exact Ha].
    rewrite nth_error_app1; [exact Ho|]. apply nth_error_Some. congruence. }
  destruct (@list_group_ok V arrays (length vars) params) as (lp & Ep & Kp & Np).
  { intros j o Ho. destruct (NE (length vars + j) o) as (a & s & Ha & _); [|exists a; exact Ha].
    rewrite nth_error_app2 by lia. replace (length vars + j - length vars) with j by lia. exact Ho. }
  unfold list_of_array_to_idata.
  assert (Efst : match arrays with a :: _ => Ok a | [] => Err IndexError end = Ok a0) by (rewrite Earr; reflexivity).
  rewrite Efst. cbn [bind]. rewrite Ea0. cbn [bind].
  rewrite Ev. cbn [bind]. rewrite Ep. cbn [bind].
  set (ls := map (fun k => LInt (Z.of_nat k)) (seq 0 n)).
  assert (Hls : length ls = n) by (unfold ls; rewrite map_length, seq_length; reflexivity).
  assert (CK : forall objs l k, (forall j o, nth_error objs j = Some o -> nth_error (vars ++ params) (k + j) = Some o) ->
     map fst l = map o_name objs ->
     (forall j o a, nth_error objs j = Some o -> nth_error arrays (k + j) = Some a ->
        nth_error l j = Some (o_name o, ("step" :: o_dims o, a))) ->
     forall kv, In kv l -> check_var (dset "step" ls c) (snd kv) = true).
  { intros objs l k Ho Kl Nl kv Hin. apply In_nth_error in Hin as (j & Hj).
    destruct (nth_error objs j) as [o|] eqn:Eo.
    - destruct (NE (k + j) o (Ho j o Eo)) as (a & s & Ha & Hs & HS).
      rewrite (Nl j o a Eo Ha) in Hj. injection Hj as <-. cbn [snd].
      assert (Io : In o (vars ++ params)) by (eapply nth_error_In, Ho; exact Eo).
      destruct (Hd o Io) as (D1 & D2). eapply check_step; eauto.
    - exfalso. apply nth_error_None in Eo. assert (length l = length objs)
        by (rewrite <- (map_length fst l), Kl, map_length; reflexivity).
      assert (nth_error l j <> None) by congruence. apply nth_error_Some in H0. lia. }
  rewrite make_dataset_list with (l := lv).
  2: { rewrite Kv. exact Hnv. }
  2: { apply (CK vars lv 0); auto. intros j o Ho. simpl. rewrite nth_error_app1; [exact Ho|].
       apply nth_error_Some. congruence. }
  cbn [bind]. rewrite make_dataset_list with (l := lp).
  2: { rewrite Kp. exact Hnp. }
  2: { apply (CK params lp (length vars)); auto. intros j o Ho. rewrite nth_error_app2 by lia.
       replace (length vars + j - length vars) with j by lia. exact Ho. }
  cbn [bind]. exists lv, lp. split; [reflexivity|]. split; [exact Kv|]. split; [exact Kp|]. split.
  - intros j o a Ho Ha. apply dget_In_NoDup; [unfold dkeys; rewrite Kv; exact Hnv|].
    eapply nth_error_In, Nv; eauto.
  - intros j o a Ho Ha. apply dget_In_NoDup; [unfold dkeys; rewrite Kp; exact Hnp|].
    eapply nth_error_In, Np; eauto.
Qed.

(** ** C26 *)
Lemma NoDup_filter_names (p : mobj -> bool) objs : NoDup (map o_name objs) -> NoDup (map o_name (filter p objs)).
Proof.
  induction objs as [|o objs IH]; simpl; intros H; [constructor|]. inversion H; subst.
  destruct (p o); simpl; auto. constructor; auto. intros X. apply H2.
  apply in_map_iff in X as (o' & E & X). apply filter_In in X as (X & _). rewrite <- E. now apply in_map.
Qed.

Lemma c26_no_fixed_values__p :
  forall (V : Type) (solver : dict (arr V) -> list V -> res (list V)) (param_dict guess : dict (arr V))
         (vars params : list mobj) (c : coords) (sv : list (list nat)) (xg theta x : list V),
  NoDup (map o_name vars) -> Forall2 (has_shape c) vars sv ->
  variable_dict_to_flat_array (dupdate param_dict guess) vars params = Ok (xg, theta) ->
  solver (dupdate param_dict guess) theta = Ok x -> length x = total sv ->
  exists d, generate_SAM solver param_dict guess [] vars params c = Ok d /\
    dkeys d = map o_name vars /\
    (forall j o s, nth_error vars j = Some o -> nth_error sv j = Some s ->
       dget (o_name o) d = Some (mkArr s (slice x (total (firstn j sv)) (prodn s)))).
Proof.
  intros V solver param_dict guess vars params c sv xg theta x Hn HF Hflat Hs Hx.
  unfold generate_SAM.
  assert (E : filter (fun v => negb (mem_str (o_name v) [])) vars = vars).
  { clear. induction vars as [|o vars IH]; [reflexivity|]. cbn. f_equal. exact IH. }
  rewrite E, Hflat. cbn [bind snd]. rewrite Hs. cbn [bind].
  rewrite (@decoded_blocks V c vars sv x Hn HF Hx). eexists. split; [reflexivity|]. split.
  - apply dkeys_combine. rewrite chop_length, map_length. apply (Forall2_length_ HF).
  - intros j o s Hj Hsj. eapply (@dget_nth_NoDup _ _ _ j); [exact Hn| |].
    + now rewrite nth_error_map, Hj.
    + exact (@nth_chop V sv x j s Hsj Hx).
Qed.

(** The result never contains a fixed variable. *)
Lemma c26_fixed_not_returned_refuted__p :
  forall (V : Type) (solver : dict (arr V) -> list V -> res (list V)) (param_dict guess : dict (arr V))
         (fixed : list string) (vars params : list mobj) (c : coords) (d : dict (arr V)) (n : string),
  generate_SAM solver param_dict guess fixed vars params c = Ok d -> In n fixed -> dget n d = None.
Proof.
  intros V solver param_dict guess fixed vars params c d n H Hn. unfold generate_SAM in H.
  apply bind_ok in H as (vp & _ & H). apply bind_ok in H as (x & _ & H).
  apply dget_None. intros K. unfold flat_array_to_variable_dict in H.
  assert (G : forall objs cur d0 d1, unpack_loop c x cur objs d0 = Ok d1 ->
              forall k, In k (dkeys d1) -> In k (dkeys d0) \/ In k (map o_name objs)).
  { induction objs as [|o1 objs IH]; intros cur d0 d1 H1 k Hk; simpl in H1.
    - injection H1 as <-. auto.
    - apply bind_ok in H1 as (s & _ & H1). apply bind_ok in H1 as (v & _ & H1).
      destruct (IH _ _ _ H1 k Hk) as [H2|H2]; [|simpl; auto].
      rewrite dkeys_dset in H2. destruct (mem_str (o_name o1) (dkeys d0)); auto.
      apply in_app_or in H2 as [H2|[H2|[]]]; simpl; auto. }
  destruct (G _ _ _ _ H _ K) as [[]|X].
  apply in_map_iff in X as (o & E & X). apply filter_In in X as (_ & X). apply negb_true_iff, mem_str_nIn in X. congruence.
Qed.

(** And free variables after a fixed one receive another variable's numbers:
    here X = 10 and Y = 20 solve the model, X is fixed and Y is returned as 10. *)
Lemma c26_misaligned_refuted__p :
  exists (vars params : list mobj) (param_dict guess d : dict (arr nat)),
    generate_SAM (fun _ _ => Ok [10; 20]) param_dict guess [] vars params [] =
      Ok [("X", mkArr [] [10]); ("Y", mkArr [] [20])] /\
    generate_SAM (fun _ _ => Ok [10; 20]) param_dict guess ["X"%string] vars params [] = Ok [("Y", mkArr [] [10])].
Proof.
  exists [exobj KVar "X" []; exobj KVar "Y" []], [exobj KPar "a" []], [("a", mkArr [] [1])],
         [("X", mkArr [] [2]); ("Y", mkArr [] [3])], []. split; reflexivity.
Qed.

(** When the fixed variables are declared last the free ones are right. *)
Lemma c26_fixed_last__p :
  forall (V : Type) (solver : dict (arr V) -> list V -> res (list V)) (param_dict guess : dict (arr V))
         (fixed : list string) (free fix_ params : list mobj) (c : coords) (sv sf : list (list nat)) (xg theta x : list V),
  NoDup (map o_name (free ++ fix_)) -> Forall2 (has_shape c) free sv -> Forall2 (has_shape c) fix_ sf ->
  (forall o, In o free -> ~ In (o_name o) fixed) -> (forall o, In o fix_ -> In (o_name o) fixed) ->
  variable_dict_to_flat_array (dupdate param_dict guess) free params = Ok (xg, theta) ->
  solver (dupdate param_dict guess) theta = Ok x -> length x = total (sv ++ sf) ->
  exists d, generate_SAM solver param_dict guess fixed (free ++ fix_) params c = Ok d /\
    (forall j o s, nth_error free j = Some o -> nth_error sv j = Some s ->
       dget (o_name o) d = Some (mkArr s (slice x (total (firstn j sv)) (prodn s)))).
Proof.
  intros V solver param_dict guess fixed free fix_ params c sv sf xg theta x Hn HF HFf Hfree Hfix Hflat Hs Hx.
  unfold generate_SAM.
  assert (E : filter (fun v => negb (mem_str (o_name v) fixed)) (free ++ fix_) = free).
  { rewrite filter_app. replace (filter _ fix_) with (@nil mobj).
    - rewrite app_nil_r. clear -Hfree. induction free as [|o l IH]; simpl; auto.
      assert (mem_str (o_name o) fixed = false) by (apply mem_str_nIn, Hfree; now left).
      rewrite H. simpl. f_equal. apply IH. intros; apply Hfree; now right.
    - clear -Hfix. induction fix_ as [|o l IH]; simpl; auto.
      assert (mem_str (o_name o) fixed = true) by (apply mem_str_In, Hfix; now left).
      rewrite H. simpl. apply IH. intros; apply Hfix; now right. }
  rewrite E, Hflat. cbn [bind snd]. rewrite Hs. cbn [bind].
  rewrite total_app in Hx.
  assert (Hl : length (firstn (total sv) x) = total sv) by (rewrite firstn_length; lia).
  pose proof (@decode_prefix V c free sv (firstn (total sv) x) (skipn (total sv) x) HF Hl) as HD.
  rewrite firstn_skipn in HD. rewrite HD.
  eexists. split; [reflexivity|]. intros j o s Hj Hsj.
  assert (Hnv : NoDup (map o_name free)) by (rewrite map_app in Hn; apply NoDup_app_inv in Hn; tauto).
  rewrite dict_of_combine; auto; [|rewrite chop_length, map_length; apply (Forall2_length_ HF)].
  eapply (@dget_nth_NoDup _ _ _ j); [exact Hnv| |].
  - now rewrite nth_error_map, Hj.
  - rewrite (@nth_chop V sv _ j s Hsj Hl). do 2 f_equal.
    pose proof (total_firstn_nth _ _ Hsj) as Hle.
    pose proof (@slice_app_l V (firstn (total sv) x) (skipn (total sv) x) (total (firstn j sv)) (prodn s)) as HS.
    rewrite firstn_skipn in HS. symmetry. apply HS. lia.
Qed.

(** ** C27 *)
Lemma kept_suffix a b : kept (repeat false a ++ repeat true b) = seq 0 a.
Proof.
  unfold kept. rewrite app_length, !repeat_length. generalize 0 as m.
  induction a as [|a IH]; intros m; simpl.
  - revert m. induction b as [|b IH]; intros m; simpl; auto.
  - f_equal. apply IH.
Qed.

Lemma list_max_seq n : list_max (seq 0 (S n)) = n.
Proof.
  rewrite seq_S, list_max_app. simpl. rewrite Nat.max_0_r.
  assert (list_max (seq 0 n) <= n). { apply list_max_le. apply Forall_forall. intros x H. apply in_seq in H. lia. }
  lia.
Qed.

Lemma max_label_seq n : max_label (seq 0 (S n)) = Ok n.
Proof. rewrite <- (list_max_seq n) at 2. reflexivity. Qed.

Lemma c27_nan_suffix__p :
  forall (n_iter a b a' b' : nat),
  optimizer_start n_iter (repeat false (S a) ++ repeat true b) (repeat false (S a') ++ repeat true b') =
  Ok (negb (Nat.eqb (S (Nat.min a a')) n_iter), (Nat.min a a', Nat.min a a')).
Proof.
  intros n_iter a b a' b'. unfold optimizer_start. rewrite !kept_suffix, !max_label_seq. cbn [bind]. unfold isel.
  assert (N : forall k m, k < m -> nth_error (seq 0 m) k = Some k).
  { intros k m H. rewrite nth_error_nth' with (d := 0) by now rewrite seq_length. now rewrite seq_nth. }
  rewrite !N by lia. cbn [bind]. do 3 f_equal.
  destruct (Nat.eqb_spec (S (Nat.min a a')) n_iter); [apply Z.eqb_eq; lia|apply Z.eqb_neq; lia].
Qed.

(** Rows lost in between: every trajectory with a finite step after a NaN step
    makes simulate raise (the parameters being finite throughout). *)
Lemma kept_bound nan : forall m, map fst (filter (fun p : nat * bool => negb (snd p)) (combine (seq m (length nan)) nan)) = map (fun k => m + k) (kept nan).
Proof.
  unfold kept. intros m. 
  assert (G : forall m k, map fst (filter (fun p : nat * bool => negb (snd p)) (combine (seq (m + k) (length nan)) nan)) =
              map (fun j => m + j) (map fst (filter (fun p : nat * bool => negb (snd p)) (combine (seq k (length nan)) nan)))).
  { clear m. induction nan as [|x nan IH]; intros m k; simpl; [reflexivity|].
    destruct x; simpl; [|f_equal]; rewrite <- (IH m (S k)); repeat f_equal; lia. }
  specialize (G m 0). rewrite Nat.add_0_r in G. exact G.
Qed.

Lemma kept_cons x nan : kept (x :: nan) = (if x then [] else [0]) ++ map S (kept nan).
Proof.
  unfold kept at 1. simpl. destruct x; simpl; [|f_equal]; now rewrite kept_bound.
Qed.

Lemma kept_In nan : forall k, In k (kept nan) <-> nth_error nan k = Some false.
Proof.
  induction nan as [|x nan IH]; intros k.
  - split; [intros []|destruct k; discriminate].
  - rewrite kept_cons, in_app_iff, in_map_iff. destruct k as [|k]; simpl.
    + split.
      * intros [H|(j & H & _)]; [|discriminate]. destruct x; [destruct H|reflexivity].
      * intros H. injection H as ->. left. now left.
    + split.
      * intros [H|(j & H & Hj)]; [destruct x; [destruct H|destruct H as [H|[]]; discriminate]|]. injection H as ->. now apply IH.
      * intros H. right. exists k. split; auto. now apply IH.
Qed.

Lemma kept_NoDup nan : NoDup (kept nan).
Proof.
  induction nan as [|x nan IH]; [constructor|]. rewrite kept_cons. apply NoDup_app.
  - destruct x; repeat constructor; simpl; auto.
  - apply NoDup_map_inj; auto.
  - intros y Hy Hin. apply in_map_iff in Hin as (j & <- & _). destruct x; [destruct Hy|destruct Hy as [H|[]]; discriminate].
Qed.

Lemma max_label_In l m : max_label l = Ok m -> In m l /\ (forall k, In k l -> k <= m).
Proof.
  destruct l as [|x l]; [discriminate|]. unfold max_label. intros H. injection H as <-.
  split.
  - clear. revert x. induction l as [|y l IH]; intros x; simpl; [left; lia|].
    destruct (Nat.max_spec x (Nat.max y (list_max l))) as [(A & ->)|(A & ->)]; [right|now left].
    specialize (IH y). simpl in IH. exact IH.
  - intros k Hk. assert (H := list_max_le (x :: l) (list_max (x :: l))). destruct H as (H & _).
    specialize (H (Nat.le_refl _)). rewrite Forall_forall in H. auto.
Qed.

Lemma c27_gap_raises_refuted__p :
  forall (n_iter : nat) (nan : list bool) (i j : nat),
  nth_error nan i = Some true -> nth_error nan j = Some false -> i < j ->
  optimizer_start n_iter nan (repeat false (length nan)) = Err IndexError.
Proof.
  intros n_iter nan i j Hi Hj Hij. unfold optimizer_start.
  assert (Hlj : j < length nan) by (apply nth_error_Some; congruence).
  assert (Ep : kept (repeat false (length nan)) = seq 0 (length nan)).
  { rewrite <- (app_nil_r (repeat false _)). change (@nil bool) with (repeat true 0). apply kept_suffix. }
  rewrite Ep.
  destruct (max_label (kept nan)) as [mv|e] eqn:Em.
  2:{ exfalso. destruct (kept nan) eqn:Ek; [|discriminate]. pose proof (proj2 (kept_In nan j) Hj) as X. rewrite Ek in X. destruct X. }
  destruct (max_label_In _ Em) as (Hm & Hmax). cbn [bind].
  assert (Hm2 : mv < length nan). { apply kept_In in Hm. apply nth_error_Some. congruence. }
  destruct (length nan) as [|L] eqn:EL; [lia|].
  rewrite max_label_seq. cbn [bind].
  replace (Nat.min mv L) with mv by lia.
  unfold isel at 1.
  assert (Hc : length (kept nan) <= mv).
  { (* kept labels are <= mv, distinct, and miss i *)
    assert (Hjm : j <= mv) by (apply Hmax, kept_In; exact Hj).
    assert (NoDup (i :: kept nan)).
    { constructor; [|apply kept_NoDup]. intros X. apply kept_In in X. congruence. }
    assert (incl (i :: kept nan) (seq 0 (S mv))).
    { intros k [<-|Hk]; apply in_seq; [lia|]. apply Hmax in Hk. lia. }
    pose proof (NoDup_incl_length H H0) as Len. rewrite seq_length in Len. simpl in Len. lia. }
  apply nth_error_None in Hc. rewrite Hc. reflexivity.
Qed.

(** Backends that return n+1 rows (the initial state first): with no NaN at
    all the warning is logged, and with only the last row lost it is not. *)
Lemma c27_warning_refuted__p :
  forall (n : nat),
  0 < n ->
  optimizer_start n (repeat false (S n)) (repeat false (S n)) = Ok (true, (n, n)) /\
  optimizer_start n (repeat false n ++ [true]) (repeat false (S n)) = Ok (false, (n - 1, n - 1)).
Proof.
  intros n Hn. destruct n as [|n]; [lia|]. split.
  - pose proof (c27_nan_suffix__p (S n) (S n) 0 (S n) 0) as H. simpl (repeat true 0) in H. rewrite !app_nil_r in H.
    rewrite H, Nat.min_id. do 3 f_equal. apply negb_true_iff. apply Nat.eqb_neq. lia.
  - pose proof (c27_nan_suffix__p (S n) n 1 (S n) 0) as H. simpl (repeat true _) in H. rewrite app_nil_r in H.
    rewrite H. rewrite Nat.min_l by lia. rewrite Nat.eqb_refl. simpl. rewrite Nat.sub_0_r. reflexivity.
Qed.

(** ** C32 *)
Local Open Scope Q_scope.
Lemma Qltb_spec a b : Qltb a b = true <-> a < b.
Proof.
  unfold Qltb. rewrite negb_true_iff. split; intros H.
  - apply Qnot_le_lt. intros X. apply Qle_bool_iff in X. congruence.
  - destruct (Qle_bool b a) eqn:E; auto. apply Qle_bool_iff in E. lra.
Qed.

Definition Qsum (l : list Q) : Q := fold_right Qplus 0 l.

Lemma c32_decision__p :
  forall (names : list string) (errors : list Q) (tol : Q),
  (check_for_equilibrium names errors tol = None <-> Qsum (map (fun e => e * e) errors) < tol) /\
  (forall l, check_for_equilibrium names errors tol = Some l -> length names = length errors ->
     forall n, In n l <-> exists k e, nth_error names k = Some n /\ nth_error errors k = Some e /\ tol < Qabs e).
Proof.
  intros names errors tol. unfold check_for_equilibrium.
  assert (S : sum_sq errors = Qsum (map (fun e => e * e) errors)).
  { induction errors as [|e l IH]; [reflexivity|]. simpl. now rewrite <- IH. }
  rewrite S. destruct (Qltb _ tol) eqn:E.
  - apply Qltb_spec in E. split; [split; auto|]. intros l H. discriminate.
  - split.
    + split; [discriminate|]. intros H. apply Qltb_spec in H. congruence.
    + intros l H Hlen n. injection H as <-. rewrite in_map_iff. split.
      * intros ([n' e] & <- & Hin). apply filter_In in Hin as (Hin & He). apply Qltb_spec in He.
        apply In_nth_error in Hin as (k & Hk). exists k, e. cbn [fst snd] in *.
        clear -Hk He. revert errors k Hk. induction names as [|y names IH]; intros [|z errors] [|k] Hk; simpl in *; try discriminate.
        -- injection Hk as -> ->. auto.
        -- eauto.
      * intros (k & e & Hn & He & Hlt). exists (n, e). split; auto. apply filter_In. split.
        -- eapply nth_error_In. instantiate (1 := k). clear -Hn He. revert errors k Hn He.
           induction names as [|y names IH]; intros [|z errors] [|k] Hn He; simpl in *; try discriminate; auto. congruence.
        -- apply Qltb_spec. exact Hlt.
Qed.

(** A failed check lists some equation when there are fewer than 1/tol
    residuals. *)
Lemma c32_explained__p :
  forall (names : list string) (errors : list Q) (tol : Q) (l : list string),
  length names = length errors -> 0 < tol -> inject_Z (Z.of_nat (length errors)) * tol < 1 ->
  check_for_equilibrium names errors tol = Some l -> l <> [].
Proof.
  intros names errors tol l Hlen Ht Hn H E. subst l.
  destruct (c32_decision__p names errors tol) as (D1 & D2).
  specialize (D2 [] H Hlen).
  assert (Small : forall k e, nth_error errors k = Some e -> Qabs e <= tol).
  { intros k e Hk. destruct (Qlt_le_dec tol (Qabs e)) as [X|X]; auto. exfalso.
    destruct (nth_error names k) as [n|] eqn:En.
    - destruct (proj2 (D2 n)). eauto.
    - apply nth_error_None in En. assert (k < length errors)%nat by (apply nth_error_Some; congruence). lia. }
  assert (B : Qsum (map (fun e => e * e) errors) <= inject_Z (Z.of_nat (length errors)) * (tol * tol)).
  { clear -Small Ht. induction errors as [|e l IH].
    - change (0 <= 0 * (tol * tol)). rewrite Qmult_0_l. lra.
    - assert (He : Qabs e <= tol) by (apply (Small 0%nat); reflexivity).
      assert (Hl : Qsum (map (fun e => e * e) l) <= inject_Z (Z.of_nat (length l)) * (tol * tol)).
      { apply IH. intros k e' Hk. apply (Small (S k)). exact Hk. }
      cbn [map Qsum fold_right length]. fold (Qsum (map (fun e => e * e) l)).
      rewrite Nat2Z.inj_succ, <- Z.add_1_r, inject_Z_plus.
      assert (Sq : e * e <= tol * tol).
      { apply Qabs_Qle_condition in He as (H1 & H2).
        assert (0 <= (tol - e) * (tol + e)) by (apply Qmult_le_0_compat; lra). lra. }
      change (inject_Z 1) with 1. lra. }
  assert (C : ~ Qsum (map (fun e => e * e) errors) < tol) by (intros X; apply D1 in X; congruence).
  apply C. eapply Qle_lt_trans; [exact B|].
  assert (X : (1 - inject_Z (Z.of_nat (length errors)) * tol) * tol > 0).
  { apply Qmult_lt_0_compat; lra. }
  lra.
Qed.

(** With a tolerance of 1 a residual of 1 fails the check and nothing is
    listed. *)
Lemma c32_unexplained_refuted__p :
  check_for_equilibrium ["market"%string] [1] 1 = Some [].
Proof. vm_compute. reflexivity. Qed.
