(** Lemmas for C33-C36. *)
From Verif Require Import Py PyStr NdArray M_Primitives M_Utilities M_Wrappers.
From Verif Require Import S_Layout L_Utilities L_Layout.
Local Open Scope string_scope.
Local Open Scope list_scope.

Lemma dict_of_combine {V} (names : list string) (l : list V) :
  NoDup names -> length names = length l -> dict_of_list (combine names l) = combine names l.
Proof. intros Hn Hl. apply dict_of_list_NoDup. now rewrite map_fst_combine. Qed.

Lemma dkeys_combine {V} (names : list string) (l : list V) : length names = length l -> dkeys (combine names l) = names.
Proof. intros. unfold dkeys. now rewrite map_fst_combine. Qed.

(** The dictionary seen by a wrapped function. *)
Lemma decoded_blocks {V} (c : coords) (objs : list mobj) shapes (x : list V) :
  NoDup (map o_name objs) -> Forall2 (has_shape c) objs shapes -> length x = total shapes ->
  flat_array_to_variable_dict x objs c = Ok (combine (map o_name objs) (chop shapes x)).
Proof.
  intros Hn HF Hx. rewrite (@decode_exact V c objs shapes x HF Hx). f_equal.
  apply dict_of_combine; auto. rewrite chop_length, map_length. apply (Forall2_length_ HF).
Qed.

Lemma nth_chop {V} shapes (x : list V) j s :
  nth_error shapes j = Some s -> length x = total shapes ->
  nth_error (chop shapes x) j = Some (mkArr s (slice x (total (firstn j shapes)) (prodn s))).
Proof.
  revert x j. induction shapes as [|s0 shapes IH]; intros x [|j] Hj Hx; try discriminate; simpl in *.
  - injection Hj as ->. reflexivity.
  - unfold total in *. simpl in *. rewrite (IH (skipn (prodn s0) x)); auto.
    + do 2 f_equal. unfold slice. rewrite skipn_skipn_. reflexivity.
    + rewrite skipn_length. lia.
Qed.

Lemma dget_nth_NoDup {V} (names : list string) (l : list V) j n v :
  NoDup names -> nth_error names j = Some n -> nth_error l j = Some v -> dget n (combine names l) = Some v.
Proof.
  revert l j. induction names as [|m names IH]; intros [|w l] [|j] Hn H1 H2; simpl in *; try discriminate.
  - injection H1 as ->. injection H2 as ->. now rewrite String.eqb_refl.
  - inversion Hn; subst. destruct (String.eqb_spec n m).
    + subst. exfalso. apply H3. eapply nth_error_In; eauto.
    + eauto.
Qed.

Lemma slice_app_r {V} (x y : list V) a n : slice (x ++ y) (length x + a) n = slice y a n.
Proof. apply slice_shift. Qed.
Lemma slice_app_l {V} (x y : list V) a n : a + n <= length x -> slice (x ++ y) a n = slice x a n.
Proof.
  intros H. unfold slice. rewrite skipn_app, firstn_app, skipn_length.
  replace (n - (length x - a)) with 0 by lia. simpl. now rewrite app_nil_r.
Qed.

Lemma total_firstn_nth shapes j s : nth_error shapes j = Some s -> total (firstn j shapes) + prodn s <= total shapes.
Proof.
  revert j. induction shapes as [|s0 shapes IH]; intros [|j] H; try discriminate; unfold total in *; simpl in *.
  - injection H as ->. lia.
  - apply IH in H. lia.
Qed.

(** ** C33 *)
Lemma c33_own_array__p :
  forall (V W : Type) (f : dict (arr V) -> res W) (c : coords) (vars params : list mobj)
         (sv sp : list (list nat)) (x theta : list V),
  NoDup (map o_name (vars ++ params)) ->
  Forall2 (has_shape c) vars sv -> Forall2 (has_shape c) params sp ->
  length x = total sv -> length theta = total sp ->
  exists data,
    wrap_pytensor_func_for_scipy f vars params c x theta = f data /\
    dkeys data = map o_name (vars ++ params) /\
    (forall j o s, nth_error vars j = Some o -> nth_error sv j = Some s ->
       dget (o_name o) data = Some (mkArr s (slice x (total (firstn j sv)) (prodn s)))) /\
    (forall j o s, nth_error params j = Some o -> nth_error sp j = Some s ->
       dget (o_name o) data = Some (mkArr s (slice theta (total (firstn j sp)) (prodn s)))).
Proof.
  intros V W f c vars params sv sp x theta Hn Hv Hp Hx Ht.
  pose proof (Forall2_app Hv Hp) as HF.
  assert (Hl : length (x ++ theta) = total (sv ++ sp)) by (rewrite app_length, total_app; lia).
  unfold wrap_pytensor_func_for_scipy. rewrite (@decoded_blocks V c _ _ _ Hn HF Hl). cbn [bind].
  eexists. split; [reflexivity|]. split.
  { apply dkeys_combine. rewrite chop_length, map_length. apply (Forall2_length_ HF). }
  pose proof (Forall2_length_ Hv) as Lv. pose proof (Forall2_length_ Hp) as Lp.
  split; intros j o s Ho Hs.
  - assert (Hj : j < length vars) by (apply nth_error_Some; congruence).
    eapply (@dget_nth_NoDup _ _ _ j); [exact Hn| |].
    + rewrite nth_error_map, nth_error_app1, Ho by auto. reflexivity.
    + rewrite (@nth_chop V (sv ++ sp) (x ++ theta) j s); [|rewrite nth_error_app1; [exact Hs|lia]|exact Hl].
      rewrite firstn_app. replace (j - length sv) with 0 by lia. simpl. rewrite app_nil_r.
      do 2 f_equal. apply slice_app_l. rewrite Hx. now apply total_firstn_nth.
  - eapply (@dget_nth_NoDup _ _ _ (length vars + j)); [exact Hn| |].
    + rewrite nth_error_map, nth_error_app2, Nat.add_comm, Nat.add_sub, Ho by lia. reflexivity.
    + rewrite (@nth_chop V (sv ++ sp) (x ++ theta) (length vars + j) s);
        [|rewrite nth_error_app2, Lv, Nat.add_comm, Nat.add_sub by lia; exact Hs|exact Hl].
      rewrite Lv, firstn_app, firstn_all2, Nat.add_comm, Nat.add_sub, total_app by lia.
      do 2 f_equal. rewrite <- Hx. apply slice_app_r.
Qed.

Lemma concat_named_block {V} (c : coords) (objs : list mobj) shapes (x : list V) (d : dict (arr V)) :
  objs <> [] -> Forall2 (has_shape c) objs shapes -> length x = total shapes ->
  (forall j o s, nth_error objs j = Some o -> nth_error shapes j = Some s ->
     dget (o_name o) d = Some (mkArr s (slice x (total (firstn j shapes)) (prodn s)))) ->
  concat_named d objs = Ok x.
Proof.
  intros Hne HF Hx H.
  rewrite <- (@chop_concat V shapes x Hx) at 1. apply concat_named_ok; auto.
  apply in_combine_Forall2. rewrite chop_length. split; [apply (Forall2_length_ HF)|].
  intros o a Hin. apply In_nth_error in Hin as (j & Hj).
  assert (exists s, nth_error shapes j = Some s /\ nth_error objs j = Some o /\ nth_error (chop shapes x) j = Some a) as (s & Hs & Ho & Ha).
  { assert (nth_error objs j = Some o /\ nth_error (chop shapes x) j = Some a) as (A & B).
    { clear -Hj. revert objs j Hj. generalize (chop shapes x) as l. intros l objs. revert l.
      induction objs as [|o' objs IH]; intros [|a' l] [|j] Hj; simpl in *; try discriminate.
      - injection Hj as -> ->. auto.
      - auto. }
    destruct (nth_error shapes j) as [s|] eqn:Es; [eauto|].
    exfalso. apply nth_error_None in Es. apply nth_error_None in Es as Es'. rewrite <- (chop_length shapes x) in Es.
    apply nth_error_None in Es. congruence. }
  rewrite (H j o s Ho Hs). rewrite (@nth_chop V shapes x j s Hs Hx) in Ha. congruence.
Qed.

Lemma c33_flat_round_trip__p :
  forall (V W : Type) (f : list V -> list V -> res W) (c : coords) (vars params : list mobj)
         (sv sp : list (list nat)) (x theta : list V),
  vars <> [] -> params <> [] -> NoDup (map o_name (vars ++ params)) ->
  Forall2 (has_shape c) vars sv -> Forall2 (has_shape c) params sp ->
  length x = total sv -> length theta = total sp ->
  wrap_pytensor_func_for_scipy (wrap_scipy_func_for_pytensor f vars params) vars params c x theta = f x theta.
Proof.
  intros V W f c vars params sv sp x theta Hne1 Hne2 Hn Hv Hp Hx Ht.
  destruct (@c33_own_array__p V W (wrap_scipy_func_for_pytensor f vars params) c vars params sv sp x theta Hn Hv Hp Hx Ht)
    as (data & E & _ & Dv & Dp).
  rewrite E. unfold wrap_scipy_func_for_pytensor, variable_dict_to_flat_array.
  rewrite (@concat_named_block V c vars sv x data), (@concat_named_block V c params sp theta data); auto.
Qed.

(** The other composition: any function of keyword arguments that only looks
    arguments up by name is unchanged. *)
Lemma c33_keyword_round_trip__p :
  forall (V W : Type) (f : dict (arr V) -> res W) (c : coords) (vars params : list mobj) (kwargs : dict (arr V)),
  vars <> [] -> params <> [] -> NoDup (map o_name (vars ++ params)) ->
  (forall o, In o (vars ++ params) -> exists a, dget (o_name o) kwargs = Some a /\ fits c o a) ->
  (forall d1 d2, (forall o, In o (vars ++ params) -> dget (o_name o) d1 = dget (o_name o) d2) -> f d1 = f d2) ->
  wrap_scipy_func_for_pytensor (wrap_pytensor_func_for_scipy f vars params c) vars params kwargs = f kwargs.
Proof.
  intros V W f c vars params kwargs H1 H2 Hn Hf Hext.
  destruct (@c01_pack_unpack__p V c vars params kwargs H1 H2 Hn Hf) as (v & p & d' & E1 & E2 & _ & E3).
  unfold wrap_scipy_func_for_pytensor. rewrite E1. cbn [bind fst snd].
  unfold wrap_pytensor_func_for_scipy. rewrite E2. cbn [bind]. now apply Hext.
Qed.

(** A model without parameters cannot be called through the second wrapper. *)
Lemma c33_no_parameters_refuted__p :
  forall (V W : Type) (f : list V -> list V -> res W) (c : coords) (vars : list mobj) (x theta : list V),
  exists e, wrap_pytensor_func_for_scipy (wrap_scipy_func_for_pytensor f vars []) vars [] c x theta = Err e.
Proof.
  intros V W f c vars x theta. unfold wrap_pytensor_func_for_scipy.
  destruct (flat_array_to_variable_dict _ _ _) as [d|e]; cbn [bind]; [|eauto].
  unfold wrap_scipy_func_for_pytensor. destruct (@c01_no_parameters_refuted__p V vars d) as (e & ->). simpl. eauto.
Qed.

(** ** C34 *)
Lemma point_name_inj a b : point_name a = point_name b -> a = b.
Proof. apply sapp_inv_tail. Qed.

Lemma dget_map_key {V} (g : string -> string) (d : dict V) k :
  (forall a b, g a = g b -> a = b) -> dget (g k) (map (fun kv => (g (fst kv), snd kv)) d) = dget k d.
Proof.
  intros Hg. induction d as [|[k0 v] d IH]; [reflexivity|]. simpl.
  destruct (String.eqb_spec k k0).
  - subst. now rewrite String.eqb_refl.
  - destruct (String.eqb_spec (g k) (g k0)); [exfalso; auto|exact IH].
Qed.

Lemma point_dict_keys {V} (d : dict V) : dkeys (map (fun kv => (point_name (fst kv), snd kv)) d) = map point_name (dkeys d).
Proof. unfold dkeys. rewrite !map_map. reflexivity. Qed.

Lemma NoDup_map_inj {A B} (g : A -> B) l : (forall a b, g a = g b -> a = b) -> NoDup l -> NoDup (map g l).
Proof.
  intros Hg. induction 1; simpl; constructor; auto. intros Hin. apply in_map_iff in Hin as (y & E & Hy).
  apply Hg in E. congruence.
Qed.

Lemma c34_hessp_arguments__p :
  forall (V W : Type) (f : dict (arr V) -> res W) (c : coords) (vars params : list mobj)
         (sv sp : list (list nat)) (x p theta : list V),
  NoDup (map o_name (vars ++ params)) ->
  (forall o v, In o (vars ++ params) -> In v vars -> o_name o <> (o_name v ++ "_point")%string) ->
  Forall2 (has_shape c) vars sv -> Forall2 (has_shape c) params sp ->
  length x = total sv -> length p = total sv -> length theta = total sp ->
  exists data,
    wrap_pytensor_func_for_scipy_p f vars params c x p theta = f data /\
    dkeys data = map o_name (vars ++ params) ++ map (fun v => (o_name v ++ "_point")%string) vars /\
    (forall j o s, nth_error vars j = Some o -> nth_error sv j = Some s ->
       dget (o_name o) data = Some (mkArr s (slice x (total (firstn j sv)) (prodn s))) /\
       dget (o_name o ++ "_point")%string data = Some (mkArr s (slice p (total (firstn j sv)) (prodn s)))) /\
    (forall j o s, nth_error params j = Some o -> nth_error sp j = Some s ->
       dget (o_name o) data = Some (mkArr s (slice theta (total (firstn j sp)) (prodn s)))).
Proof.
  intros V W f c vars params sv sp x p theta Hn Hpt Hv Hp Hx Hpl Ht.
  destruct (@c33_own_array__p V (dict (arr V)) (fun d => Ok d) c vars params sv sp x theta Hn Hv Hp Hx Ht)
    as (data & E & K & Dv & Dp).
  unfold wrap_pytensor_func_for_scipy in E.
  unfold wrap_pytensor_func_for_scipy_p. destruct (flat_array_to_variable_dict (x ++ theta) _ c) as [d|e]; [|discriminate].
  cbn [bind] in E |- *. injection E as ->.
  assert (Hnv : NoDup (map o_name vars)) by (rewrite map_app in Hn; apply NoDup_app_inv in Hn; tauto).
  rewrite (@decoded_blocks V c vars sv p Hnv Hv Hpl). cbn [bind].
  set (pd := combine (map o_name vars) (chop sv p)).
  assert (Kp : dkeys pd = map o_name vars).
  { apply dkeys_combine. rewrite chop_length, map_length. apply (Forall2_length_ Hv). }
  set (pt := map (fun kv => (point_name (fst kv), snd kv)) pd).
  assert (Kpt : dkeys pt = map (fun v => (o_name v ++ "_point")%string) vars).
  { unfold pt. rewrite point_dict_keys, Kp, map_map. reflexivity. }
  assert (Npt : NoDup (map fst pt)).
  { change (map fst pt) with (dkeys pt). unfold pt. rewrite point_dict_keys, Kp. apply NoDup_map_inj; auto. apply point_name_inj. }
  rewrite (dict_of_list_NoDup _ Npt).
  assert (Dis : forall k, In k (dkeys pt) -> ~ In k (dkeys data)).
  { intros k H1 H2. rewrite Kpt in H1. apply in_map_iff in H1 as (v & <- & Hin). rewrite K in H2.
    apply in_map_iff in H2 as (o & Eo & Ho). exact (Hpt o v Ho Hin Eo). }
  exists (data ++ pt). split.
  { transitivity (f (dupdate data pt)); [reflexivity|]. f_equal. apply dupdate_disjoint.
    unfold dkeys. rewrite map_app. apply NoDup_app; auto.
    - change (map fst data) with (dkeys data). now rewrite K.
    - intros k H1 H2. exact (Dis k H2 H1). }
  split; [unfold dkeys in *; rewrite map_app, K, <- Kpt; reflexivity|].
  split.
  - intros j o s Ho Hs. split.
    + rewrite dget_app, (Dv j o s Ho Hs). reflexivity.
    + assert (N : dget (o_name o ++ "_point")%string data = None).
      { apply dget_None. apply Dis. rewrite Kpt. apply in_map_iff. exists o. split; auto. eapply nth_error_In; eauto. }
      rewrite dget_app, N. change (o_name o ++ "_point")%string with (point_name (o_name o)). unfold pt.
      rewrite dget_map_key by apply point_name_inj. unfold pd.
      eapply (@dget_nth_NoDup _ _ _ j); [exact Hnv| |].
      * now rewrite nth_error_map, Ho.
      * exact (@nth_chop V sv p j s Hs Hpl).
  - intros j o s Ho Hs. rewrite dget_app, (Dp j o s Ho Hs). reflexivity.
Qed.

Lemma dget_ddel_other {V} k k' (d : dict V) : k <> k' -> dget k (ddel k' d) = dget k d.
Proof.
  intros Hk. induction d as [|[k0 v] d IH]; [reflexivity|]. simpl.
  destruct (String.eqb_spec k' k0); simpl.
  - subst. destruct (String.eqb_spec k k0); [congruence|reflexivity].
  - destruct (String.eqb_spec k k0); [reflexivity|exact IH].
Qed.

Lemma pop_all_ok {V} (names : list string) (as_ : list (arr V)) : forall kwargs,
  NoDup names -> Forall2 (fun n a => dget n kwargs = Some a) names as_ ->
  exists rest, pop_all names kwargs = Ok (map (@adata V) as_, rest) /\
    (forall k, ~ In k names -> dget k rest = dget k kwargs).
Proof.
  revert as_. induction names as [|n names IH]; intros as_ kwargs Hn HF; inversion HF; subst.
  - exists kwargs. split; auto.
  - inversion Hn as [|? ? Hni Hnd]; subst. simpl. unfold dgetitem. rewrite H1. cbn [bind].
    destruct (IH l' (ddel n kwargs)) as (rest & E & Hr); auto.
    { clear -H3 Hni. induction H3; constructor; auto.
      - rewrite dget_ddel_other; auto. intros ->. apply Hni. now left.
      - apply IHForall2. intros H0. apply Hni. now right. }
    rewrite E. exists rest. split; [reflexivity|].
    intros k Hk. rewrite Hr by (intros H0; apply Hk; now right). apply dget_ddel_other. intros ->. apply Hk. now left.
Qed.

Lemma c34_flat_round_trip__p :
  forall (V W : Type) (f : list V -> list V -> list V -> res W) (c : coords) (vars params : list mobj)
         (sv sp : list (list nat)) (x p theta : list V),
  vars <> [] -> params <> [] -> NoDup (map o_name (vars ++ params)) ->
  (forall o v, In o (vars ++ params) -> In v vars -> o_name o <> (o_name v ++ "_point")%string) ->
  Forall2 (has_shape c) vars sv -> Forall2 (has_shape c) params sp ->
  length x = total sv -> length p = total sv -> length theta = total sp ->
  wrap_pytensor_func_for_scipy_p (wrap_scipy_func_for_pytensor_hessp f vars params) vars params c x p theta = f x p theta.
Proof.
  intros V W f c vars params sv sp x p theta Hne1 Hne2 Hn Hpt Hv Hp Hx Hpl Ht.
  destruct (@c34_hessp_arguments__p V W (wrap_scipy_func_for_pytensor_hessp f vars params) c vars params sv sp x p theta
              Hn Hpt Hv Hp Hx Hpl Ht) as (data & E & K & Dv & Dp).
  rewrite E. unfold wrap_scipy_func_for_pytensor_hessp.
  assert (Hnv : NoDup (map o_name vars)) by (rewrite map_app in Hn; apply NoDup_app_inv in Hn; tauto).
  destruct (@pop_all_ok V (map (fun o => point_name (o_name o)) vars) (chop sv p) data) as (rest & E2 & Hr).
  - rewrite <- map_map. apply NoDup_map_inj; auto. apply point_name_inj.
  - apply in_combine_Forall2. rewrite chop_length, map_length. split; [apply (Forall2_length_ Hv)|].
    intros n a Hin. apply In_nth_error in Hin as (j & Hj).
    assert (nth_error (map (fun o => point_name (o_name o)) vars) j = Some n /\ nth_error (chop sv p) j = Some a) as (A & B).
    { clear -Hj. revert Hj. generalize (map (fun o => point_name (o_name o)) vars) as l1, (chop sv p) as l2.
      intros l1 l2. revert l2 j. induction l1 as [|y l1 IH]; intros [|z l2] [|j] Hj; simpl in *; try discriminate.
      - injection Hj as -> ->. auto.
      - auto. }
    rewrite nth_error_map in A. destruct (nth_error vars j) as [o|] eqn:Eo; [|discriminate]. injection A as <-.
    destruct (nth_error sv j) as [s|] eqn:Es.
    + destruct (Dv j o s Eo Es) as (_ & D2). rewrite (@nth_chop V sv p j s Es Hpl) in B. injection B as <-. exact D2.
    + apply nth_error_None in Es. rewrite <- (chop_length sv p) in Es. apply nth_error_None in Es. congruence.
  - rewrite E2. cbn [bind fst snd].
    assert (Hc : match map (@adata V) (chop sv p) with [] => Err ValueError | ps => Ok (List.concat ps) end = Ok p).
    { rewrite <- (@chop_concat V sv p Hpl) at 2. destruct sv as [|s0 sv]; [|reflexivity].
      inversion Hv; subst. congruence. }
    rewrite Hc. cbn [bind].
    assert (NP : forall o, In o (vars ++ params) -> ~ In (o_name o) (map (fun v => point_name (o_name v)) vars)).
    { intros o Ho Hin. apply in_map_iff in Hin as (v & Ev & Hin). apply (Hpt o v Ho Hin). symmetry. exact Ev. }
    unfold variable_dict_to_flat_array.
    rewrite (@concat_named_block V c vars sv x rest), (@concat_named_block V c params sp theta rest); auto.
    + intros j o s Ho Hs. rewrite Hr; [eapply Dp; eauto|]. apply NP. apply in_or_app. right. eapply nth_error_In; eauto.
    + intros j o s Ho Hs. rewrite Hr; [eapply Dv; eauto|]. apply NP. apply in_or_app. left. eapply nth_error_In; eauto.
Qed.

(** An object called <variable>_point is hidden by the direction. *)
Lemma c34_point_name_refuted__p :
  exists (c : coords) (vars params : list mobj) (x p theta : list nat),
    NoDup (map o_name (vars ++ params)) /\ length x = 1 /\ length p = 1 /\ length theta = 1 /\
    wrap_pytensor_func_for_scipy_p (fun d => dgetitem "Y_point" d) vars params c x p theta = Ok (mkArr [] p) /\
    wrap_pytensor_func_for_scipy (fun d => dgetitem "Y_point" d) vars params c x theta = Ok (mkArr [] theta).
Proof.
  exists [], [exobj KVar "Y" []], [exobj KPar "Y_point" []], [1], [2], [3].
  split; [repeat constructor; simpl; intuition discriminate|]. repeat split; reflexivity.
Qed.

(** ** C35 *)
Lemma c35_unknown_rejected__p :
  forall (V : Type) (f : list V -> list V -> res (fres V)) (fixed : dict (arr V)) (vars params : list mobj)
         (c : coords) (unames : list string),
  (exists k, In k (dkeys fixed) /\ ~ In k unames) <-> wrap_fixed_values f fixed vars params c unames = Err ValueError.
Proof.
  intros V f fixed vars params c unames. unfold wrap_fixed_values.
  destruct (existsb (fun v => negb (mem_str v unames)) (dkeys fixed)) eqn:E.
  - split; auto. intros _. apply existsb_exists in E as (k & Hk & E). exists k. split; auto.
    apply negb_true_iff, mem_str_nIn in E. exact E.
  - split; [|discriminate]. intros (k & H1 & H2). exfalso.
    rewrite <- mem_str_nIn in H2.
    assert (existsb (fun v => negb (mem_str v unames)) (dkeys fixed) = true); [|congruence].
    apply existsb_exists. exists k. rewrite H2. auto.
Qed.

(** Whatever the function, the fixed values and the input: the wrapped function
    raises, because no value of a parameter ever reaches the dictionary. *)
Lemma c35_always_raises_refuted__p :
  forall (V : Type) (f : list V -> list V -> res (fres V)) (fixed : dict (arr V)) (vars params : list mobj)
         (c : coords) (unames : list string) (g : list V -> list V -> res (fres V)) (x theta : list V),
  (params = [] \/ exists o, In o params /\ ~ In (o_name o) (map o_name vars) /\ ~ In (o_name o) unames) ->
  wrap_fixed_values f fixed vars params c unames = Ok g ->
  exists e, g x theta = Err e.
Proof.
  intros V f fixed vars params c unames g x theta Hp Hg. unfold wrap_fixed_values in Hg.
  destruct (existsb _ (dkeys fixed)) eqn:E; [discriminate|]. injection Hg as <-.
  destruct (flat_array_to_variable_dict (x ++ theta) vars c) as [data|e] eqn:D; cbn [bind]; [|eauto].
  destruct (existsb (fun v => mem_str v (dkeys fixed)) (dkeys data)); [eauto|].
  destruct Hp as [->|(o & Ho & Hv & Hu)].
  - destruct (@c01_no_parameters_refuted__p V vars (dupdate data fixed)) as (e & ->). simpl. eauto.
  - destruct (variable_dict_to_flat_array (dupdate data fixed) vars params) as [[v p]|e] eqn:F; cbn [bind]; [|eauto].
    exfalso. unfold variable_dict_to_flat_array in F. apply bind_ok in F as (v' & _ & F).
    apply bind_ok in F as (p' & Hp' & _). apply concat_named_inv in Hp' as (_ & as_ & HA & _).
    assert (exists a, dget (o_name o) (dupdate data fixed) = Some a) as (a & Ha).
    { clear -HA Ho. induction HA; simpl in Ho; [tauto|]. destruct Ho as [->|Ho]; eauto. }
    rewrite dget_dupdate in Ha.
    destruct (dget (o_name o) (rev fixed)) as [b|] eqn:G.
    + assert (K : In (o_name o) (dkeys fixed)).
      { apply dget_In in G. apply in_rev in G. unfold dkeys. apply in_map_iff. exists (o_name o, b). auto. }
      apply Hu. apply mem_str_In. destruct (mem_str (o_name o) unames) eqn:M; auto.
      assert (existsb (fun v => negb (mem_str v unames)) (dkeys fixed) = true); [|congruence].
      apply existsb_exists. exists (o_name o). rewrite M. auto.
    + (* decoded keys are variable names *)
      assert (K : In (o_name o) (dkeys data)) by (apply dget_Some_key; eauto).
      apply Hv. clear -D K. unfold flat_array_to_variable_dict in D.
      assert (G : forall objs cur d d', unpack_loop c (x ++ theta) cur objs d = Ok d' ->
                  forall k, In k (dkeys d') -> In k (dkeys d) \/ In k (map o_name objs)).
      { induction objs as [|o1 objs IH]; intros cur d d' H k Hk; simpl in H.
        - injection H as <-. auto.
        - apply bind_ok in H as (s & _ & H). apply bind_ok in H as (v & _ & H).
          destruct (IH _ _ _ H k Hk) as [H1|H1]; [|simpl; auto].
          rewrite dkeys_dset in H1. destruct (mem_str (o_name o1) (dkeys d)); auto.
          apply in_app_or in H1 as [H1|[H1|[]]]; simpl; auto. }
      destruct (G _ _ _ _ D _ K) as [[]|H]; exact H.
Qed.

(** The masking itself keeps the fixed entries instead of the free ones. *)
Lemma c35_mask_keeps_fixed_refuted__p :
  forall (V : Type) (fixed : dict (arr V)) (unames : list string) (value : string -> V),
  mask_result (map (fun x => mem_str x (dkeys fixed)) unames) (FVec (map value unames)) =
  Ok (FVec (map value (filter (fun n => mem_str n (dkeys fixed)) unames))).
Proof.
  intros V fixed unames value. unfold mask_result, bool_index. rewrite !map_length, Nat.eqb_refl. cbn [bind].
  do 2 f_equal. induction unames as [|n l IH]; simpl; auto. destruct (mem_str n (dkeys fixed)); simpl; congruence.
Qed.

(** Of a list with one entry per name, those at the given names *)
Definition entries_at {A} (names unames : list string) (l l' : list A) : Prop :=
  length l = length unames /\ l' = map snd (filter (fun p => mem_str (fst p) names) (combine unames l)).
Lemma bool_index_entries {A} names unames (l l' : list A) :
  bool_index l (map (fun x => mem_str x names) unames) = Ok l' -> entries_at names unames l l'.
Proof.
  unfold bool_index. rewrite map_length. destruct (Nat.eqb_spec (length unames) (length l)) as [E|E]; [|discriminate].
  intros H. injection H as <-. split; auto.
  clear. revert l. induction unames as [|n u IH]; intros [|a l]; cbn; auto; try now destruct (mem_str n names).
  destruct (mem_str n names); cbn; now rewrite IH.
Qed.
(** If a call does return, the result holds the entries (rows and columns) of
    the fixed variables. *)
Lemma c35_result_refuted__p :
  forall (V : Type) (f : list V -> list V -> res (fres V)) (fixed : dict (arr V)) (vars params : list mobj)
         (c : coords) (unames : list string) (g : list V -> list V -> res (fres V)) (x theta : list V) (r : fres V),
  wrap_fixed_values f fixed vars params c unames = Ok g -> g x theta = Ok r ->
  exists x' theta' r0, f x' theta' = Ok r0 /\
    match r0, r with
    | FNum v, FNum v' => v' = v
    | FVec l, FVec l' => length l = length unames /\ l' = map snd (filter (fun p => mem_str (fst p) (dkeys fixed)) (combine unames l))
    | FMat rows, FMat rows' =>
        length rows = length unames /\
        Forall2 (fun row row' => length row = length unames /\ row' = map snd (filter (fun p => mem_str (fst p) (dkeys fixed)) (combine unames row)))
                (map snd (filter (fun p => mem_str (fst p) (dkeys fixed)) (combine unames rows))) rows'
    | _, _ => False
    end.
Proof.
  intros V f fixed vars params c unames g x theta r W G. unfold wrap_fixed_values in W.
  destruct (existsb (fun v => negb (mem_str v unames)) (dkeys fixed)); [discriminate|]. injection W as <-.
  apply bind_ok in G as (data & _ & G). destruct (existsb _ (dkeys data)); [discriminate|].
  apply bind_ok in G as (xt & _ & G). apply bind_ok in G as (r0 & F & G). exists (fst xt), (snd xt), r0. split; auto.
  destruct r0 as [v|l|rows]; cbn [mask_result] in G.
  - injection G as <-. auto.
  - apply bind_ok in G as (l' & B & G). injection G as <-. exact (bool_index_entries _ _ _ B).
  - apply bind_ok in G as (rows1 & B & G). apply bind_ok in G as (rows2 & B2 & G). injection G as <-.
    destruct (bool_index_entries _ _ _ B) as (L & ->). split; auto. apply map_res_ok_Forall2 in B2. clear -B2.
    revert B2. generalize (map snd (filter (fun p => mem_str (fst p) (dkeys fixed)) (combine unames rows))) as rs. intros rs B2.
    induction B2 as [|row row' rs rs' H B2 IH]; constructor; auto. exact (bool_index_entries _ _ _ H).
Qed.

(** ** C36 *)
Lemma concat_slices_length {V} (result : list (list V)) cur s n :
  (forall row, In row result -> length row = n) -> cur + s <= n ->
  length (List.concat (map (fun row => slice row cur s) result)) = length result * s.
Proof.
  intros H Hs. induction result as [|row result IH]; [reflexivity|]. simpl.
  rewrite app_length, slice_length, IH; auto.
  - intros; apply H; simpl; auto.
  - rewrite (H row (or_introl eq_refl)). exact Hs.
Qed.

Lemma nth_error_slice {V} (x : list V) a n k : k < n -> nth_error (slice x a n) k = nth_error x (a + k).
Proof.
  intros Hk. unfold slice. revert x. induction a as [|a IH]; intros x; simpl.
  - revert n k Hk. induction x as [|v x IHx]; intros n k Hk; destruct n; try lia; destruct k; simpl; auto.
    apply IHx. lia.
  - destruct x as [|v x]; simpl; [|apply IH]. rewrite firstn_nil. destruct k; reflexivity.
Qed.

Lemma nth_concat_slices {V} (result : list (list V)) cur s n t k :
  (forall row, In row result -> length row = n) -> cur + s <= n -> k < s ->
  nth_error (List.concat (map (fun row => slice row cur s) result)) (t * s + k) =
  match nth_error result t with Some row => nth_error row (cur + k) | None => None end.
Proof.
  intros H Hs Hk. rewrite <- flat_map_concat_map.
  rewrite (@nth_error_flat_map_uniform _ _ (fun row => slice row cur s) result s t k).
  - destruct (nth_error result t) as [row|]; [|reflexivity]. now apply nth_error_slice.
  - intros row Hin. apply slice_length. rewrite (H row Hin). exact Hs.
  - exact Hk.
Qed.

Lemma cut_loop_ok {V} (result : list (list V)) n shapes : forall cur,
  (forall row, In row result -> length row = n) -> cur + total shapes <= n ->
  (forall s, In s shapes -> prodn s <> 0) ->
  exists out, cut_loop result cur shapes = Ok out /\ length out = length shapes /\
    (forall j s, nth_error shapes j = Some s ->
       nth_error out j = Some (mkArr (length result :: s)
          (List.concat (map (fun row => slice row (cur + total (firstn j shapes)) (prodn s)) result)))).
Proof.
  induction shapes as [|s shapes IH]; intros cur Hr Hc Hz.
  - exists []. split; [reflexivity|]. split; [reflexivity|]. intros [|j]; discriminate.
  - unfold total in Hc. simpl in Hc. fold (total shapes) in Hc.
    assert (Hs : prodn s <> 0) by (apply Hz; now left).
    simpl. unfold reshape_unknown. rewrite (@concat_slices_length V result cur (prodn s) n) by (auto; lia).
    apply Nat.eqb_neq in Hs as Hs'. rewrite Hs', Nat.mod_mul, Nat.eqb_refl, Nat.div_mul by auto. cbn [bind].
    destruct (IH (cur + prodn s)) as (out & E & L & HN); auto; [lia|intros; apply Hz; now right|].
    rewrite E. cbn [bind]. eexists. split; [reflexivity|]. split; [simpl; lia|].
    intros [|j] s' Hj; simpl in Hj.
    + injection Hj as ->. unfold total. simpl. now rewrite Nat.add_0_r.
    + simpl. rewrite (HN j s' Hj). unfold total. simpl. now rewrite Nat.add_assoc.
Qed.

Lemma c36_trajectory_cut__p :
  forall (V : Type) (euler : list V -> list V -> list V -> nat -> res (list (list V)))
         (c : coords) (vars params : list mobj) (sv sp : list (list nat)) (data : dict (arr V))
         (x0 theta0 theta_final : list V) (n_steps : nat) (rows : list (list V)),
  Forall2 (has_shape c) vars sv -> Forall2 (has_shape c) params sp ->
  (forall s, In s (sv ++ sp) -> prodn s <> 0) ->
  variable_dict_to_flat_array data vars params = Ok (x0, theta0) ->
  euler x0 theta0 theta_final n_steps = Ok rows ->
  (forall row, In row rows -> length row = total (sv ++ sp)) ->
  exists out,
    wrap_numba_euler_function euler vars params c theta_final n_steps data = Ok out /\
    length out = length (vars ++ params) /\
    (forall j s, nth_error (sv ++ sp) j = Some s ->
       exists a, nth_error out j = Some a /\ ashape a = length rows :: s /\ arr_wf a /\
         forall t row idx, nth_error rows t = Some row -> in_range s idx ->
           exists v, aget a (t :: idx) = Ok v /\
                     nth_error row (total (firstn j (sv ++ sp)) + offset s idx) = Some v).
Proof.
  intros V euler c vars params sv sp data x0 theta0 theta_final n_steps rows Hv Hp Hz Hd He Hr.
  pose proof (Forall2_app Hv Hp) as HF.
  unfold variable_dict_to_flat_array in Hd. apply bind_ok in Hd as (v & Hd1 & Hd). apply bind_ok in Hd as (p & Hd2 & Hd).
  injection Hd as -> ->. unfold wrap_numba_euler_function. rewrite Hd1, Hd2. cbn [bind]. rewrite He. cbn [bind].
  assert (Hs : map_res (infer_shape c) (vars ++ params) = Ok (sv ++ sp)).
  { apply map_res_ok_Forall2. clear -HF. induction HF; constructor; auto. now apply infer_shape_spec. }
  rewrite Hs. cbn [bind].
  destruct (@cut_loop_ok V rows (total (sv ++ sp)) (sv ++ sp) 0 Hr (Nat.le_refl _) Hz) as (out & E & L & HN).
  exists out. split; [exact E|]. split; [rewrite L; symmetry; apply (Forall2_length_ HF)|].
  intros j s Hj. eexists. split; [apply HN; exact Hj|]. cbn [ashape]. split; [reflexivity|].
  pose proof (total_firstn_nth _ _ Hj) as Hle.
  assert (W : arr_wf (mkArr (length rows :: s)
          (List.concat (map (fun row => slice row (0 + total (firstn j (sv ++ sp))) (prodn s)) rows)))).
  { unfold arr_wf. cbn [adata ashape]. rewrite (@concat_slices_length V rows _ (prodn s) (total (sv ++ sp))); auto. }
  split; [exact W|].
  intros t row idx Ht Hi.
  assert (Hlt : t < length rows) by (apply nth_error_Some; congruence).
  pose proof (offset_lt Hi) as Ho.
  assert (Hv' : exists v, nth_error row (total (firstn j (sv ++ sp)) + offset s idx) = Some v).
  { destruct (nth_error row _) eqn:G; eauto. apply nth_error_None in G. rewrite (Hr row (nth_error_In _ _ Ht)) in G. lia. }
  destruct Hv' as (val & Hval). exists val. split; [|exact Hval].
  unfold aget. cbn [ashape adata].
  assert (R : in_rangeb (length rows :: s) (t :: idx) = true) by (apply in_rangeb_spec; constructor; auto).
  rewrite R. cbn [offset]. fold (prodn s).
  rewrite (@nth_concat_slices V rows _ (prodn s) (total (sv ++ sp))); auto.
  rewrite Ht. simpl (0 + _). rewrite Hval. reflexivity.
Qed.

(** An object along an empty dimension makes the call fail. *)
Lemma c36_empty_dimension_refuted__p :
  forall (V : Type) (euler : list V -> list V -> list V -> nat -> res (list (list V)))
         (c : coords) (vars params : list mobj) (theta_final : list V) (n_steps : nat) (data : dict (arr V)) (o : mobj) s,
  In o (vars ++ params) -> has_shape c o s -> prodn s = 0 ->
  exists e, wrap_numba_euler_function euler vars params c theta_final n_steps data = Err e.
Proof.
  intros V euler c vars params theta_final n_steps data o s Ho Hs Hz. unfold wrap_numba_euler_function.
  destruct (concat_named data vars) as [x0|e]; cbn [bind]; [|eauto].
  destruct (concat_named data params) as [t0|e]; cbn [bind]; [|eauto].
  destruct (euler _ _ _ _) as [rows|e]; cbn [bind]; [|eauto].
  destruct (map_res (infer_shape c) (vars ++ params)) as [shapes|e] eqn:E; cbn [bind]; [|eauto].
  assert (Hin : In s shapes).
  { apply map_res_ok_Forall2 in E. clear -E Ho Hs. induction E; simpl in Ho; [tauto|].
    destruct Ho as [->|Ho]; [left|right; auto]. apply infer_shape_spec in H. eapply has_shape_fun; eauto. }
  clear E. generalize 0 as cur. revert Hin. induction shapes as [|s0 shapes IH]; intros Hin cur; [destruct Hin|].
  simpl. destruct Hin as [->|Hin].
  - unfold reshape_unknown. rewrite Hz. simpl. eauto.
  - destruct (reshape_unknown _ s0); cbn [bind]; [|eauto]. destruct (IH Hin (cur + prodn s0)) as (e & ->). simpl. eauto.
Qed.
