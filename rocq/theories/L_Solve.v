(** Lemmas for C92. *)
From Verif Require Import Py PyStr NdArray M_Primitives M_Utilities M_Wrappers M_Simulate M_SimResult M_Build M_Solve.
From Verif Require Import S_Layout S_Solve L_Utilities L_Layout L_Scenario L_Wrappers L_SimResult.
Local Open Scope string_scope.
Local Open Scope list_scope.

(** ** States *)
Lemma holds_blocks {V} (c : coords) name (objs : list mobj) shapes (x : list V) (d : dict (arr V)) :
  Forall2 (has_shape c) objs shapes -> length x = total shapes ->
  (forall j o s, nth_error objs j = Some o -> nth_error shapes j = Some s ->
     dget (name o) d = Some (mkArr s (slice x (total (firstn j shapes)) (prodn s)))) ->
  holds c name d objs x.
Proof.
  intros HF Hx H. exists (chop shapes x). split; [|symmetry; now apply chop_concat].
  pose proof (@chop_ok V c objs shapes x HF Hx) as CO. unfold arrays_ok in CO.
  apply in_combine_Forall2. split; [apply (Forall2_length_ CO)|].
  intros o a Hin. split.
  - assert (exists j, nth_error objs j = Some o /\ nth_error (chop shapes x) j = Some a) as (j & Ho & Ha).
    { clear -Hin. revert Hin. generalize (chop shapes x) as l. induction objs as [|o' objs IH]; intros [|a' l] Hin; try destruct Hin.
      - injection H as -> ->. exists 0. split; reflexivity.
      - destruct (IH l H) as (j & A & B). exists (S j). split; assumption. }
    destruct (nth_error shapes j) as [s|] eqn:Es.
    + rewrite (@nth_chop V shapes x j s Es Hx) in Ha. injection Ha as <-. now apply H.
    + apply nth_error_None in Es. assert (j < length objs) by (apply nth_error_Some; congruence). rewrite (Forall2_length_ HF) in H0. lia.
  - apply in_combine_Forall2 in CO as (_ & CO). now apply CO.
Qed.

Lemma holds_sized {V} (c : coords) name (d : dict (arr V)) objs x : holds c name d objs x -> sized c objs x.
Proof.
  intros (arrays & HF & ->). exists (map (@ashape V) arrays). induction HF as [|o a objs arrays (G & W & S) HF IH].
  - split; [constructor|reflexivity].
  - destruct IH as (F & L). split; [constructor; assumption|]. cbn [map List.concat]. unfold total in *. cbn [map list_sum fold_right].
    rewrite app_length, L. unfold arr_wf in W. rewrite W. reflexivity.
Qed.

Lemma holds_flat {V} (c : coords) (d : dict (arr V)) objs x : objs <> [] -> holds c o_name d objs x -> concat_named d objs = Ok x.
Proof.
  intros Ne (arrays & HF & ->). apply concat_named_ok; [exact Ne|]. induction HF as [|o a objs' arrays' (G & _) HF IH]; constructor; auto.
  destruct objs'; [inversion HF; constructor|]. apply IH. discriminate.
Qed.

Lemma holds_vector {V} (c : coords) (d : dict (arr V)) vars params x theta : declared c vars params ->
  holds c o_name d vars x -> holds c o_name d params theta -> variable_dict_to_flat_array d vars params = Ok (x, theta).
Proof.
  intros (N1 & N2 & _) Hv Hp. unfold variable_dict_to_flat_array. now rewrite (holds_flat N1 Hv), (holds_flat N2 Hp).
Qed.

Lemma wrapped_state {V W} (f : dict (arr V) -> res W) c vars params x theta : declared c vars params -> sized c vars x -> sized c params theta ->
  exists d, wrap_pytensor_func_for_scipy f vars params c x theta = f d /\ state_is c vars params d x theta.
Proof.
  intros (N1 & N2 & Nd & _) (sv & Fv & Lv) (sp & Fp & Lp).
  destruct (@c33_own_array__p V W f c vars params sv sp x theta Nd Fv Fp Lv Lp) as (d & E & K & Dv & Dp).
  exists d. split; [exact E|]. split; [now apply (@holds_blocks V c o_name vars sv)|]. split; [now apply (@holds_blocks V c o_name params sp)|].
  intros k. now rewrite K.
Qed.

Lemma sees_wrapped {V Sys Jac Loss Grad Hess Hessp W} (m : model V Sys Jac Loss Grad Hess Hessp) (h : dict (arr V) -> res W) g :
  declared (m_coords m) (m_variables m) (m_parameters m) -> evaluates (m_coords m) (m_variables m) (m_parameters m) (Kw h) g ->
  solver_sees (m_coords m) (m_variables m) (m_parameters m) (wrap m (Kw h)) g.
Proof.
  intros D E x theta Sx St. unfold wrap, call_flat. destruct (@wrapped_state V W (call_keywords (Kw h)) _ _ _ x theta D Sx St) as (d & Ed & Hd).
  rewrite Ed. cbn [call_keywords]. now apply E.
Qed.

Lemma sees_pos {V W} c vars params (h : list V -> list V -> res W) g : evaluates c vars params (Pos h) g -> solver_sees c vars params (Pos h) g.
Proof. intros E x theta Sx St. now apply E. Qed.

(** The function the solver gets, for every backend *)
Lemma sees {V Sys Jac Loss Grad Hess Hessp W} (m : model V Sys Jac Loss Grad Hess Hessp) (f : fn V W) g (b : bool) :
  declared (m_coords m) (m_variables m) (m_parameters m) -> made_by (m_backend m) f ->
  evaluates (m_coords m) (m_variables m) (m_parameters m) f g ->
  b = mem_str (m_backend m) ["pytensor"; "sympytensor"] ->
  solver_sees (m_coords m) (m_variables m) (m_parameters m) (if b then wrap m f else f) g.
Proof.
  intros D M E ->. destruct f as [|h|h]; [destruct E| |].
  - cbn [made_by] in M. rewrite M. cbn [mem_str existsb String.eqb Ascii.eqb Bool.eqb orb]. now apply sees_pos.
  - cbn [made_by] in M. destruct M as [M|M]; rewrite M; cbn [mem_str existsb String.eqb Ascii.eqb Bool.eqb orb]; now apply sees_wrapped.
Qed.

Lemma sees3 {V Sys Jac Loss Grad Hess Hessp W} (m : model V Sys Jac Loss Grad Hess Hessp) (f : fn3 V W) g (b : bool) :
  declared (m_coords m) (m_variables m) (m_parameters m) -> no_point (m_variables m) (m_parameters m) -> made_by3 (m_backend m) f ->
  evaluates3 (m_coords m) (m_variables m) (m_parameters m) f g ->
  b = mem_str (m_backend m) ["pytensor"; "sympytensor"] ->
  solver_sees3 (m_coords m) (m_variables m) (m_parameters m) (if b then wrap3 m f else f) g.
Proof.
  intros D NP M E ->. destruct f as [|h|h]; [destruct E| |].
  - cbn [made_by3] in M. rewrite M. cbn [mem_str existsb String.eqb Ascii.eqb Bool.eqb orb]. intros x p theta Sx Sp St. now apply E.
  - assert (X : solver_sees3 (m_coords m) (m_variables m) (m_parameters m) (wrap3 m (Kw3 h)) g).
    { intros x p theta (sv & Fv & Lv) (sv' & Fv' & Lv') (sp & Fp & Lp). destruct D as (N1 & N2 & Nd & _).
      assert (sv' = sv). { clear -Fv Fv'. revert sv' Fv'. induction Fv; intros sv' F; inversion F; subst; [reflexivity|]. f_equal; [eapply has_shape_fun; eauto|auto]. }
      subst sv'. unfold wrap3, call_flat3.
      destruct (@c34_hessp_arguments__p V W (call_keywords3 (Kw3 h)) (m_coords m) (m_variables m) (m_parameters m) sv sp x p theta Nd NP Fv Fp Lv Lv' Lp) as (d & Ed & K & Dv & Dp).
      rewrite Ed. cbn [call_keywords3]. apply E.
      - apply (@holds_blocks V (m_coords m) o_name (m_variables m) sv x d Fv Lv). intros j o s Ho Hs. now apply (Dv j o s).
      - apply (@holds_blocks V (m_coords m) o_name (m_parameters m) sp theta d Fp Lp). intros j o s Ho Hs. now apply (Dp j o s).
      - apply (@holds_blocks V (m_coords m) (fun o => o_name o ++ "_point")%string (m_variables m) sv p d Fv Lv'). intros j o s Ho Hs. now apply (Dv j o s).
      - intros k. now rewrite K. }
    cbn [made_by3] in M. destruct M as [M|M]; rewrite M; exact X.
Qed.

(** ** The returned groups *)
Lemma declared_step c vars params ls : declared c vars params -> declared (dset "step" ls c) vars params.
Proof.
  intros (N1 & N2 & Nd & H). split; [exact N1|]. split; [exact N2|]. split; [exact Nd|]. intros o Ho. destruct (H o Ho) as (A & B & C).
  split; [exact A|]. split; [exact B|]. intros d Hd. apply dget_Some_key. rewrite dget_dset_other; [apply dget_Some_key; auto|]. intros ->. contradiction.
Qed.

Lemma sized_step {V} c objs ls (x : list V) : (forall o, In o objs -> ~ In "step" (o_dims o)) -> sized (dset "step" ls c) objs x <-> sized c objs x.
Proof.
  intros H. split; intros (shapes & F & L); exists shapes; (split; [|exact L]); clear L.
  - induction F; constructor; [apply (@has_shape_step c x0 y ls); [apply H; now left|assumption]|apply IHF; intros; apply H; now right].
  - induction F; constructor; [apply (@has_shape_step c x0 y ls); [apply H; now left|assumption]|apply IHF; intros; apply H; now right].
Qed.

Lemma stack_rows {V} c c' (initial result : dict (arr V)) objs as_ bs :
  (forall o, In o objs -> forall s, has_shape c' o s <-> has_shape c o s) ->
  Forall2 (fun o a => dget (o_name o) initial = Some a /\ fits c o a) objs as_ ->
  Forall2 (fun o b => dget (o_name o) result = Some b /\ fits c' o b) objs bs ->
  Forall2 (fun o ab => dget (o_name o) initial = Some (fst ab) /\ dget (o_name o) result = Some (snd ab) /\ arr_wf (fst ab) /\ arr_wf (snd ab) /\
             has_shape c o (ashape (fst ab)) /\ ashape (snd ab) = ashape (fst ab)) objs (combine as_ bs) /\
  length as_ = length bs.
Proof.
  intros Hs HA. revert bs. induction HA as [|o a objs as_ (Ga & Wa & Sa) HA IH]; intros bs HB; inversion HB as [|? b ? bs' (Gb & Wb & Sb) HB']; subst.
  - split; [constructor|reflexivity].
  - destruct (IH (fun o Ho => Hs o (or_intror Ho)) bs' HB') as (F & L). split; [|cbn [length]; now rewrite L].
    cbn [combine]. constructor; [|exact F]. cbn [fst snd]. split; [exact Ga|]. split; [exact Gb|]. split; [exact Wa|]. split; [exact Wb|]. split; [exact Sa|].
    apply (Hs o (or_introl eq_refl)) in Sb. eapply has_shape_fun; eauto.
Qed.

Definition stacked {V} (ab : arr V * arr V) : arr V := mkArr (2 :: ashape (fst ab)) (adata (fst ab) ++ adata (snd ab)).

Lemma group_steps {V} (c : coords) (objs : list mobj) (initial result : dict (arr V)) x0 x1 :
  NoDup (map o_name objs) -> (forall o, In o objs -> NoDup (o_dims o) /\ ~ In "step" (o_dims o)) ->
  holds c o_name initial objs x0 -> holds (dset "step" [LInt 0; LInt 1] c) o_name result objs x1 ->
  exists ds, optimizer_group initial result (dset "step" [LInt 0; LInt 1] c) objs = Ok ds /\ step_of ds 0 c objs x0 /\ step_of ds 1 c objs x1.
Proof.
  intros Nd Hd (as_ & HA & ->) (bs & HB & ->).
  destruct (@stack_rows V c (dset "step" [LInt 0; LInt 1] c) initial result objs as_ bs) as (F & L); [|exact HA|exact HB|].
  { intros o Ho s. apply has_shape_step. now apply Hd. }
  destruct (@optimizer_group_ok V c objs initial result Nd) as (ds & E & K & G).
  { intros o Ho. destruct (Hd o Ho) as (A & B). split; [exact A|]. split; [exact B|].
    clear -F Ho. induction F as [|o' ab objs' l (G1 & G2 & _ & _ & S1 & S2) F IH]; [destruct Ho|].
    destruct Ho as [->|Ho]; [exists (fst ab), (snd ab); auto|auto]. }
  exists ds. split; [exact E|].
  assert (T : trajectories c objs 2 (map (@stacked V) (combine as_ bs))).
  { clear -F. induction F as [|o ab objs l (G1 & G2 & W1 & W2 & S1 & S2) F IH]; constructor; [|exact IH]. split.
    - unfold arr_wf, stacked. cbn [ashape adata]. rewrite app_length. unfold arr_wf in W1, W2. rewrite W1, W2, S2. cbn [prodn fold_right]. unfold prodn. lia.
    - exists (ashape (fst ab)). split; [reflexivity|exact S1]. }
  assert (D : Forall2 (fun o a => dget (o_name o) ds = Some ("step" :: o_dims o, a)) objs (map (@stacked V) (combine as_ bs))).
  { assert (G' : forall o a b, In o objs -> dget (o_name o) initial = Some a -> dget (o_name o) result = Some b ->
       dget (o_name o) ds = Some ("step" :: o_dims o, mkArr (2 :: ashape a) (adata a ++ adata b))) by exact G.
    clear -F G'. induction F as [|o ab objs l (G1 & G2 & _) F IH]; constructor.
    - rewrite (G' o _ _ (or_introl eq_refl) G1 G2). reflexivity.
    - apply IH. intros; apply G'; auto. now right. }
  assert (X0 : values_at (map (@stacked V) (combine as_ bs)) 0 (List.concat (map (@adata V) as_))).
  { exists (map (@adata V) as_). split; [|reflexivity]. clear -F L. revert bs F L. generalize objs. clear objs.
    induction as_ as [|a as_ IH]; intros objs [|b bs] F L; try discriminate; [constructor|]. cbn [combine map]. cbn [combine] in F.
    inversion F as [|? ? ? ? (G1 & G2 & W1 & W2 & S1 & S2) F']; subst. cbn [fst snd] in *. constructor; [|apply (IH _ bs F'); now injection L].
    unfold stacked. cbn [ashape tl fst snd]. split; [exact W1|]. intros j v Hj. split; [cbn [ashape tl]; rewrite <- W1; apply nth_error_Some; congruence|].
    cbn [adata]. cbn [Nat.mul Nat.add]. rewrite nth_error_app1; [exact Hj|]. apply nth_error_Some. congruence. }
  assert (X1 : values_at (map (@stacked V) (combine as_ bs)) 1 (List.concat (map (@adata V) bs))).
  { exists (map (@adata V) bs). split; [|reflexivity]. clear -F L. revert bs F L. generalize objs. clear objs.
    induction as_ as [|a as_ IH]; intros objs [|b bs] F L; try discriminate; [constructor|]. cbn [combine map]. cbn [combine] in F.
    inversion F as [|? ? ? ? (G1 & G2 & W1 & W2 & S1 & S2) F']; subst. cbn [fst snd] in *. constructor; [|apply (IH _ bs F'); now injection L].
    unfold stacked. cbn [ashape tl fst snd]. unfold arr_wf in W1, W2. rewrite S2 in W2. split; [exact W2|]. intros j v Hj.
    assert (Lj : j < length (adata b)) by (apply nth_error_Some; congruence). split; [cbn [ashape tl]; rewrite <- W2; exact Lj|].
    cbn [adata ashape tl]. rewrite Nat.mul_1_l, <- W1. rewrite nth_error_app2 by lia. replace (length (adata a) + j - length (adata a)) with j by lia. exact Hj. }
  split; (split; [exact K|]); exists (map (@stacked V) (combine as_ bs)), 2; (split; [lia|]); auto.
Qed.

Lemma decoded_state {V} c vars params (x theta : list V) : declared c vars params -> sized c vars x -> sized c params theta ->
  exists d, flat_array_to_variable_dict (x ++ theta) (vars ++ params) c = Ok d /\ state_is c vars params d x theta.
Proof.
  intros D Sx St. destruct (@wrapped_state V _ (fun d => Ok d) c vars params x theta D Sx St) as (d & E & H). exists d. split; [|exact H].
  unfold wrap_pytensor_func_for_scipy in E. destruct (flat_array_to_variable_dict (x ++ theta) (vars ++ params) c); [|discriminate]. exact E.
Qed.

Lemma result_groups {V} c vars params (initial : dict (arr V)) x0 th0 x theta : declared c vars params ->
  holds c o_name initial vars x0 -> holds c o_name initial params th0 -> sized c vars x -> sized c params theta ->
  exists ds_v ds_p, optimizer_result_to_idata x theta initial c vars params = Ok (ds_v, ds_p) /\
    step_of ds_v 0 c vars x0 /\ step_of ds_p 0 c params th0 /\ step_of ds_v 1 c vars x /\ step_of ds_p 1 c params theta.
Proof.
  intros D Hv Hp Sx St. pose proof D as (N1 & N2 & Nd & Hd).
  assert (Dv : forall o, In o vars -> NoDup (o_dims o) /\ ~ In "step" (o_dims o)) by (intros o Ho; destruct (Hd o) as (A & B & _); [apply in_or_app; now left|auto]).
  assert (Dp : forall o, In o params -> NoDup (o_dims o) /\ ~ In "step" (o_dims o)) by (intros o Ho; destruct (Hd o) as (A & B & _); [apply in_or_app; now right|auto]).
  rewrite map_app in Nd. apply NoDup_app_inv in Nd as (Nv & Np & _).
  destruct (@decoded_state V (dset "step" [LInt 0; LInt 1] c) vars params x theta) as (d & E & Rv & Rp & _).
  { now apply declared_step. } { apply sized_step; [intros; now apply Dv|exact Sx]. } { apply sized_step; [intros; now apply Dp|exact St]. }
  destruct (group_steps Nv Dv Hv Rv) as (ds_v & Ev & V0 & V1). destruct (group_steps Np Dp Hp Rp) as (ds_p & Ep & P0 & P1).
  exists ds_v, ds_p. unfold optimizer_result_to_idata. rewrite E. cbn [bind]. rewrite Ev. cbn [bind]. rewrite Ep. cbn [bind]. auto.
Qed.

Lemma start_decodes {V} c vars params (x theta : list V) : declared c vars params -> sized c vars x -> sized c params theta ->
  exists d, flat_array_to_variable_dict (x ++ theta) (vars ++ params) (dset "step" [LInt 0; LInt 1] c) = Ok d.
Proof.
  intros D Sx St. pose proof D as (N1 & N2 & Nd & Hd). destruct (@decoded_state V (dset "step" [LInt 0; LInt 1] c) vars params x theta) as (d & E & _).
  - now apply declared_step.
  - apply sized_step; [|exact Sx]. intros o Ho. apply Hd. apply in_or_app. now left.
  - apply sized_step; [|exact St]. intros o Ho. apply Hd. apply in_or_app. now right.
  - exists d. exact E.
Qed.

(** ** Rows and steps *)
Lemma row_length {V} (a : arr V) n s k : arr_wf a -> ashape a = n :: s -> k < n -> length (adata (row a k)) = prodn s.
Proof.
  intros W E H. unfold row. rewrite E. cbn [tl adata]. unfold slice. rewrite firstn_length, skipn_length. unfold arr_wf in W. rewrite W, E.
  cbn [prodn fold_right]. fold (prodn s). change (fold_right Nat.mul 1 s) with (prodn s). nia.
Qed.

Lemma nth_firstn_lt {A} (l : list A) n j : j < n -> nth_error (firstn n l) j = nth_error l j.
Proof. revert l j. induction n; intros [|x l] [|j] H; try lia; try reflexivity. cbn. apply IHn. lia. Qed.

Lemma nth_error_skipn_ {A} (l : list A) n j : nth_error (skipn n l) j = nth_error l (n + j).
Proof. revert l. induction n; intros [|x l]; cbn; try reflexivity; [now destruct j|apply IHn]. Qed.

Lemma row_element {V} (a : arr V) k j v : nth_error (adata (row a k)) j = Some v <-> element a k j v.
Proof.
  unfold row, element, slice. cbn [adata]. set (p := prodn (tl (ashape a))). split.
  - intros H. assert (L : j < length (firstn p (skipn (k * p) (adata a)))) by (apply nth_error_Some; congruence).
    rewrite firstn_length in L. assert (J : j < p) by lia. split; [exact J|]. rewrite nth_firstn_lt in H by exact J. now rewrite nth_error_skipn_ in H.
  - intros (J & H). rewrite nth_firstn_lt by exact J. now rewrite nth_error_skipn_.
Qed.

Lemma nth_error_ext_ {A} (l l' : list A) : length l = length l' -> (forall j v, nth_error l j = Some v -> nth_error l' j = Some v) -> l = l'.
Proof.
  revert l'. induction l as [|x l IH]; intros [|y l'] L H; try discriminate; [reflexivity|].
  pose proof (H 0 x eq_refl) as E. injection E as ->. f_equal. apply IH; [now injection L|]. intros j v Hj. exact (H (S j) v Hj).
Qed.

Lemma values_rows {V} c objs n (arrays : list (arr V)) k x : trajectories c objs n arrays -> k < n ->
  (values_at arrays k x <-> x = List.concat (map (fun a => adata (row a k)) arrays)).
Proof.
  intros T Hk. split.
  - intros (rows & F & ->). f_equal. revert rows F. induction T as [|o a objs arrays (W & s & E & _) T IH]; intros rows F; inversion F as [|? r ? rows' (L & H) F']; subst; [reflexivity|].
    cbn [map]. f_equal; [|now apply IH]. apply nth_error_ext_.
    + rewrite L, E. cbn [tl]. symmetry. now apply (row_length W E).
    + intros j v Hj. apply row_element. now apply H.
  - intros ->. exists (map (fun a => adata (row a k)) arrays). split; [|reflexivity].
    induction T as [|o a objs arrays (W & s & E & _) T IH]; constructor; [|exact IH]. split.
    + rewrite E. cbn [tl]. now apply (row_length W E).
    + intros j v Hj. now apply row_element.
Qed.

Lemma firstn_step {A} (l : list A) a b : firstn a l ++ firstn b (skipn a l) = firstn (a + b) l.
Proof. revert l. induction a; intros [|x l]; cbn; try reflexivity; [now rewrite firstn_nil|]. f_equal. apply IHa. Qed.

Lemma rows_firstn {V} (a : arr V) n : flat_map (fun k => adata (row a k)) (seq 0 n) = firstn (n * prodn (tl (ashape a))) (adata a).
Proof.
  induction n; [reflexivity|]. rewrite seq_S, flat_map_app, IHn. cbn [flat_map Nat.add]. rewrite app_nil_r. unfold row. cbn [adata]. unfold slice.
  rewrite firstn_step. f_equal. lia.
Qed.

Definition first_steps {V} (m : nat) (a : arr V) : arr V := mkArr (m :: tl (ashape a)) (firstn (m * prodn (tl (ashape a))) (adata a)).

Lemma first_trajectories {V} c objs n m (arrays : list (arr V)) : trajectories c objs n arrays -> m <= n -> trajectories c objs m (map (first_steps m) arrays).
Proof.
  intros T H. induction T as [|o a objs arrays (W & s & E & Hs) T IH]; constructor; [|exact IH]. split.
  - unfold arr_wf, first_steps. cbn [ashape adata]. rewrite firstn_length. unfold arr_wf in W. rewrite W, E. cbn [tl prodn fold_right]. change (fold_right Nat.mul 1 s) with (prodn s). nia.
  - exists s. unfold first_steps. cbn [ashape]. rewrite E. split; [reflexivity|exact Hs].
Qed.

Lemma first_row {V} (a : arr V) m k : k < m -> row (first_steps m a) k = row a k.
Proof.
  intros H. unfold row, first_steps. cbn [ashape adata tl]. f_equal. unfold slice. set (p := prodn (tl (ashape a))).
  rewrite skipn_firstn_comm, firstn_firstn. f_equal. nia.
Qed.

Lemma keep_entry {V} m (ds : dataset V) k : dget k (keep_steps (seq 0 m) ds) = option_map (fun e => (fst e, first_steps m (snd e))) (dget k ds).
Proof.
  unfold keep_steps. induction ds as [|(k', (dims, a)) ds IH]; [reflexivity|]. cbn [map dget fst snd]. destruct (String.eqb k k'); [|exact IH].
  cbn [option_map fst snd]. rewrite seq_length, rows_firstn. reflexivity.
Qed.
Lemma state_entry {V} k (ds : dataset V) r : dget k (state_at ds r) = option_map (fun e => row (snd e) r) (dget k ds).
Proof. unfold state_at. induction ds as [|(k', (dims, a)) ds IH]; [reflexivity|]. cbn [map dget fst snd]. destruct (String.eqb k k'); [reflexivity|exact IH]. Qed.
Lemma state_keys {V} (ds : dataset V) r : dkeys (state_at ds r) = dkeys ds.
Proof. unfold state_at, dkeys. rewrite map_map. reflexivity. Qed.
Lemma keep_keys {V} l (ds : dataset V) : dkeys (keep_steps l ds) = dkeys ds.
Proof. unfold keep_steps, dkeys. rewrite map_map. reflexivity. Qed.

(** Entries of a group *)
Definition group {V} (ds : dataset V) (objs : list mobj) (arrays : list (arr V)) : Prop :=
  dkeys ds = map o_name objs /\ Forall2 (fun o a => dget (o_name o) ds = Some ("step" :: o_dims o, a)) objs arrays.

Lemma group_fun {V} (ds : dataset V) objs arrays arrays' : group ds objs arrays -> group ds objs arrays' -> arrays = arrays'.
Proof.
  intros (_ & F) (_ & F'). revert arrays' F'. induction F; intros arrays' F'; inversion F' as [|? ? ? ? H1 H2]; subst; [reflexivity|].
  rewrite H in H1. injection H1 as ->. f_equal. now apply IHF.
Qed.

Lemma step_of_group {V} (ds : dataset V) c objs arrays n k x : objs <> [] -> group ds objs arrays -> trajectories c objs n arrays ->
  (step_of ds k c objs x <-> k < n /\ values_at arrays k x).
Proof.
  intros Ne G T. split.
  - intros (K & arrays' & n' & Hk & T' & F' & VA). assert (arrays' = arrays) by (eapply group_fun; [split; [exact K|exact F']|exact G]). subst arrays'.
    split; [|exact VA]. destruct T as [|o a objs arrays (W & s & E & _) T]; [congruence|]. inversion T' as [|? ? ? ? (W' & s' & E' & _) _]; subst. rewrite E in E'. injection E' as <- _. exact Hk.
  - intros (Hk & VA). split; [apply G|]. exists arrays, n. destruct G as (K & F). auto.
Qed.

Lemma group_kept {V} (ds : dataset V) objs arrays m : group ds objs arrays -> group (keep_steps (seq 0 m) ds) objs (map (first_steps m) arrays).
Proof.
  intros (K & F). split; [now rewrite keep_keys|]. clear K. induction F; constructor; [|exact IHF]. rewrite keep_entry, H. reflexivity.
Qed.

Lemma values_first {V} c objs n m (arrays : list (arr V)) k x : trajectories c objs n arrays -> m <= n -> k < m ->
  (values_at (map (first_steps m) arrays) k x <-> values_at arrays k x).
Proof.
  intros T Hm Hk. rewrite (@values_rows V c objs m _ k x (first_trajectories T Hm) Hk), (@values_rows V c objs n _ k x T) by lia.
  rewrite map_map. rewrite (map_ext_in _ (fun a => adata (row a k))); [reflexivity|]. intros a _. now rewrite first_row.
Qed.

Lemma kept_steps_of {V} (ds : dataset V) c objs arrays n a k x : objs <> [] -> group ds objs arrays -> trajectories c objs n arrays -> a < n ->
  (step_of (keep_steps (seq 0 (S a)) ds) k c objs x <-> k <= a /\ values_at arrays k x).
Proof.
  intros Ne G T Ha. rewrite (step_of_group k x Ne (group_kept (S a) G) (first_trajectories T Ha)). split.
  - intros (Hk & VA). split; [lia|]. now apply (@values_first V c objs n (S a) arrays k x T Ha Hk).
  - intros (Hk & VA). split; [lia|]. apply (@values_first V c objs n (S a) arrays k x T Ha); [lia|exact VA].
Qed.

Lemma group_array {V} (ds : dataset V) objs arrays k dims a : NoDup (map o_name objs) -> group ds objs arrays -> In (k, (dims, a)) ds -> In a arrays.
Proof.
  intros Nd (K & F) H. apply dget_In_NoDup in H; [|now rewrite K].
  assert (Hk : In k (map o_name objs)). { rewrite <- K. apply dget_Some_key. eauto. }
  clear K Nd. induction F as [|o a' objs arrays G F IH]; [destruct Hk|]. destruct Hk as [<-|Hk]; [rewrite G in H; injection H as _ ->; now left|right; auto].
Qed.
Lemma array_group {V} (ds : dataset V) objs arrays a : group ds objs arrays -> In a arrays -> exists k dims, In (k, (dims, a)) ds.
Proof.
  intros (_ & F) H. induction F as [|o a' objs arrays G F IH]; [destruct H|]. destruct H as [->|H]; [|auto]. exists (o_name o), ("step" :: o_dims o). now apply dget_In.
Qed.

Lemma nan_step {V} (isnan : V -> bool) (ds : dataset V) objs arrays k : NoDup (map o_name objs) -> group ds objs arrays ->
  (existsb (fun kv : string * (list string * arr V) => existsb isnan (adata (row (snd (snd kv)) k))) ds = false <-> finite_step isnan arrays k).
Proof.
  intros Nd G. split.
  - intros H a j v Ha Hv. apply not_true_is_false. intros Hn. apply Bool.not_true_iff_false in H. apply H. destruct (array_group a G Ha) as (k' & dims & Hin).
    apply existsb_exists. exists (k', (dims, a)). split; [exact Hin|]. apply existsb_exists. exists v. split; [|exact Hn]. apply row_element in Hv. cbn [snd]. eapply nth_error_In. exact Hv.
  - intros H. apply not_true_is_false. intros Hx. apply existsb_exists in Hx as ((k', (dims, a)) & Hin & Hx). apply existsb_exists in Hx as (v & Hv & Hn).
    cbn [snd] in Hv. apply In_nth_error in Hv as (j & Hj). apply row_element in Hj. assert (Ha : In a arrays) by (eapply group_array; eauto). rewrite (H a j v Ha Hj) in Hn. discriminate.
Qed.

Lemma suffix_pattern (f : nat -> bool) n a m : (forall t, m <= t < m + n -> (f t = false <-> t <= m + a)) -> a < n ->
  map f (seq m n) = repeat false (S a) ++ repeat true (n - S a).
Proof.
  revert m a. induction n as [|n IH]; intros m a H Ha; [lia|]. cbn [seq map]. destruct a as [|a].
  - cbn [repeat app]. rewrite (proj2 (H m ltac:(lia)) ltac:(lia)). f_equal. cbn [Nat.sub]. rewrite Nat.sub_0_r.
    assert (X : forall t, S m <= t < S m + n -> f t = true). { intros t Ht. apply not_false_is_true. intros F. apply (H t) in F; lia. }
    clear -X. revert X. generalize (S m) as q. induction n as [|n IH]; intros q X; [reflexivity|]. cbn [seq map repeat]. f_equal; [apply X; lia|]. apply IH. intros; apply X; lia.
  - cbn [repeat app]. rewrite (proj2 (H m ltac:(lia)) ltac:(lia)). f_equal. change (S n - S (S a)) with (n - S a). apply (IH (S m) a); [|lia].
    intros t Ht. rewrite (H t) by lia. split; lia.
Qed.

Lemma nan_pattern {V} (isnan : V -> bool) (ds : dataset V) objs arrays n a : NoDup (map o_name objs) -> group ds objs arrays -> finite_until isnan n arrays a ->
  nan_steps isnan n ds = repeat false (S a) ++ repeat true (n - S a).
Proof.
  intros Nd G (Ha & H). unfold nan_steps. apply suffix_pattern; [|exact Ha]. intros t Ht. rewrite (@nan_step V isnan ds objs arrays t Nd G). apply H. lia.
Qed.

(** ** The Euler approximation *)
Lemma Forall2_nth_dget {V} (ds : dataset V) objs arrays :
  length objs = length arrays ->
  (forall j o a, nth_error objs j = Some o -> nth_error arrays j = Some a -> dget (o_name o) ds = Some ("step" :: o_dims o, a)) ->
  Forall2 (fun o a => dget (o_name o) ds = Some ("step" :: o_dims o, a)) objs arrays.
Proof.
  revert arrays. induction objs as [|o objs IH]; intros [|a arrays] L H; try discriminate; constructor; [exact (H 0 o a eq_refl eq_refl)|].
  apply IH; [now injection L|]. intros j. exact (H (S j)).
Qed.

Lemma list_groups {V} c vars params (av ap : list (arr V)) n : declared c vars params -> trajectories c vars n av -> trajectories c params n ap ->
  exists ds_v ds_p, list_of_array_to_idata (av ++ ap) c vars params = Ok (ds_v, ds_p) /\ group ds_v vars av /\ group ds_p params ap.
Proof.
  intros (N1 & N2 & Nd & Hd) Tv Tp. pose proof (Forall2_length_ Tv) as Lv. pose proof (Forall2_length_ Tp) as Lp.
  destruct (@c25_euler_cells__p V c vars params (av ++ ap) n) as (ds_v & ds_p & E & Kv & Kp & Gv & Gp).
  - destruct vars; [congruence|discriminate].
  - exact Nd.
  - intros o Ho. destruct (Hd o Ho) as (A & B & _). auto.
  - apply Forall2_app; [clear -Tv; induction Tv as [|? ? ? ? (_ & H)]|clear -Tp; induction Tp as [|? ? ? ? (_ & H)]]; constructor; assumption.
  - exists ds_v, ds_p. split; [exact E|]. split; (split; [assumption|]).
    + apply Forall2_nth_dget; [exact Lv|]. intros j o a Ho Ha. apply (Gv j o a Ho). rewrite nth_error_app1; [exact Ha|]. apply nth_error_Some. congruence.
    + apply Forall2_nth_dget; [exact Lp|]. intros j o a Ho Ha. apply (Gp j o a Ho). rewrite nth_error_app2 by lia. rewrite Lv. replace (length av + j - length av) with j by lia. exact Ha.
Qed.

Lemma dget_rev {V} k (d : dict V) : NoDup (dkeys d) -> dget k (rev d) = dget k d.
Proof.
  intros Nd. destruct (dget k (rev d)) as [v|] eqn:E.
  - symmetry. apply dget_In in E. apply in_rev in E. now apply dget_In_NoDup.
  - destruct (dget k d) as [v|] eqn:E'; [|reflexivity]. assert (H : In k (dkeys (rev d))).
    { unfold dkeys. rewrite map_rev, <- in_rev. apply dget_Some_key. eauto. }
    apply dget_Some_key in H as (v' & H). congruence.
Qed.

Lemma joint_entry {V} (ds_v ds_p : dataset V) vars params av ap rv rp : NoDup (map o_name (vars ++ params)) -> group ds_v vars av -> group ds_p params ap ->
  (forall o, In o vars -> dget (o_name o) (dupdate (state_at ds_v rv) (state_at ds_p rp)) = option_map (fun e => row (snd e) rv) (dget (o_name o) ds_v)) /\
  (forall o, In o params -> dget (o_name o) (dupdate (state_at ds_v rv) (state_at ds_p rp)) = option_map (fun e => row (snd e) rp) (dget (o_name o) ds_p)).
Proof.
  intros Nd (Kv & Fv) (Kp & Fp). rewrite map_app in Nd. apply NoDup_app_inv in Nd as (Nv & Np & Nx).
  assert (Np' : NoDup (dkeys (state_at ds_p rp))) by now rewrite state_keys, Kp.
  split; intros o Ho; rewrite dget_dupdate, (@dget_rev _ _ _ Np'), state_entry.
  - destruct (dget (o_name o) ds_p) as [e|] eqn:E.
    + exfalso. apply (Nx (o_name o)); [now apply in_map|]. rewrite <- Kp. apply dget_Some_key. eauto.
    + cbn [option_map]. apply state_entry.
  - assert (H : In (o_name o) (dkeys ds_p)) by (rewrite Kp; now apply in_map). apply dget_Some_key in H as (e & ->). reflexivity.
Qed.

Lemma group_holds {V} (d : dict (arr V)) (ds : dataset V) c objs arrays n r : group ds objs arrays -> trajectories c objs n arrays -> r < n ->
  (forall o, In o objs -> dget (o_name o) d = option_map (fun e => row (snd e) r) (dget (o_name o) ds)) ->
  holds c o_name d objs (List.concat (map (fun a => adata (row a r)) arrays)).
Proof.
  intros (_ & F) T Hr H. exists (map (fun a => row a r) arrays). split; [|now rewrite map_map].
  induction T as [|o a objs arrays (W & s & E & Hs) T IH]; [constructor|]. inversion F as [|? ? ? ? F1 F2]; subst. cbn [map]. constructor.
  - split; [rewrite (H o (or_introl eq_refl)), F1; reflexivity|]. split.
    + unfold arr_wf. rewrite (row_length W E Hr). unfold row. cbn [ashape]. now rewrite E.
    + unfold row. cbn [ashape]. now rewrite E.
  - apply IH; [exact F2|]. intros; apply H. now right.
Qed.

Lemma finite_fun {V} (isnan : V -> bool) n (arrays : list (arr V)) a a' : finite_until isnan n arrays a -> finite_until isnan n arrays a' -> a = a'.
Proof.
  intros (H1 & H2) (H1' & H2'). assert (finite_step isnan arrays a) by (apply H2; lia). assert (finite_step isnan arrays a') by (apply H2'; lia).
  apply H2' in H; [|lia]. apply H2 in H0; [|lia]. lia.
Qed.

Lemma split_same {A} (a b a' b' : list A) : a ++ b = a' ++ b' -> length a = length a' -> a = a' /\ b = b'.
Proof. revert a'. induction a as [|x a IH]; intros [|y a'] E L; try discriminate; [auto|]. injection E as -> E. destruct (IH a' E) as (-> & ->); [now injection L|auto]. Qed.

Lemma euler_ok {V Sys Jac Loss Grad Hess Hessp} isnan f_euler (m : model V Sys Jac Loss Grad Hess Hessp) initial theta x0 o start :
  declared (m_coords m) (m_variables m) (m_parameters m) ->
  starts_from isnan (m_coords m) (m_variables m) (m_parameters m) f_euler initial theta x0 o start -> use_euler o = true ->
  exists groups warned data pd, euler_start isnan f_euler m initial theta (n_iter_euler o) = Ok (groups, warned, data) /\
    holds (m_coords m) o_name data (m_variables m) start /\ holds (m_coords m) o_name data (m_parameters m) pd /\
    approximation isnan (m_coords m) (m_variables m) (m_parameters m) f_euler initial theta o (Some groups).
Proof.
  intros D S U. unfold starts_from in S. rewrite U in S. destruct S as (av & ap & n & a & b & E & Tv & Tp & Fa & Fb & VA).
  pose proof D as (N1 & N2 & Nd & Hd).
  destruct (list_groups D Tv Tp) as (ds_v & ds_p & El & Gv & Gp).
  assert (Nds := Nd). rewrite map_app in Nds. apply NoDup_app_inv in Nds as (Nv & Np & _).
  assert (Ha : a < n) by apply Fa. assert (Hb : b < n) by apply Fb.
  assert (Hn : match av ++ ap with x :: _ => hd 0 (ashape x) | [] => 0 end = n).
  { destruct Tv as [|o' x objs arrays (W & s & Es & _) T]; [congruence|]. cbn [app]. now rewrite Es. }
  destruct (joint_entry (Nat.min a b) (Nat.min a b) Nd Gv Gp) as (Jv & Jp).
  exists (keep_steps (seq 0 (S a)) ds_v, keep_steps (seq 0 (S b)) ds_p), (negb (Nat.eqb (S (Nat.min a b)) (n_iter_euler o))),
    (dupdate (state_at ds_v (Nat.min a b)) (state_at ds_p (Nat.min a b))), (List.concat (map (fun x => adata (row x (Nat.min a b))) ap)).
  split.
  { unfold euler_start. rewrite E. cbn [bind]. rewrite El. cbn [bind fst snd]. cbv zeta. rewrite Hn.
    rewrite (nan_pattern Nv Gv Fa), (nan_pattern Np Gp Fb), c27_nan_suffix__p. cbn [bind]. rewrite !kept_suffix. reflexivity. }
  split. { apply (@values_rows V _ _ _ _ _ _ Tv) in VA; [|lia]. rewrite VA. eapply group_holds; eauto. lia. }
  split. { eapply group_holds; eauto. lia. }
  split; [exact U|]. intros av' ap' n' a' b' E' Tv' Tp' Fa' Fb'. rewrite E in E'. injection E' as E'.
  apply split_same in E' as (-> & ->); [|now rewrite <- (Forall2_length_ Tv), <- (Forall2_length_ Tv')].
  assert (n' = n). { destruct Tv as [|o' x objs arrays (W & s & Es & _) T]; [congruence|]. inversion Tv' as [|? ? ? ? (_ & s' & Es' & _) _]; subst. rewrite Es in Es'. now injection Es'. }
  subst n'. rewrite (finite_fun Fa' Fa), (finite_fun Fb' Fb). split; intros k x; eapply kept_steps_of; eauto.
Qed.

(** ** The solvers *)
Lemma checked_state {V} c vars params (d : dict (arr V)) x theta : state_is c vars params d x theta -> check_initial_state vars params d = Ok tt.
Proof.
  intros (_ & _ & K). unfold check_initial_state. rewrite <- map_app.
  assert (E : forallb (fun x => dmem x d) (map o_name (vars ++ params)) = true).
  { apply forallb_forall. intros k Hk. unfold dmem. apply mem_str_In. now apply K. }
  cbv zeta. rewrite E. cbn [negb]. destruct (existsb _ (dkeys d)) eqn:X; [|reflexivity]. exfalso.
  apply existsb_exists in X as (k & Hk & X). apply K in Hk. apply mem_str_In in Hk. now rewrite Hk in X.
Qed.

Lemma theta_ok {V} vadd vmul c vars params (initial : dict (arr V)) x0 th0 fv fd fp final xf theta :
  declared c vars params -> state_is c vars params initial x0 th0 -> create_final_param_dict vadd vmul initial fv fd fp = Ok final ->
  holds c o_name final vars xf -> holds c o_name final params theta -> simulation_theta vadd vmul vars params initial fv fd fp = Ok theta.
Proof.
  intros D S E Hv Hp. unfold simulation_theta. rewrite (checked_state S). cbn [bind]. rewrite E. cbn [bind]. rewrite (holds_vector D Hv Hp). reflexivity.
Qed.

Lemma start_ok {V Sys Jac Loss Grad Hess Hessp} isnan f_euler (m : model V Sys Jac Loss Grad Hess Hessp) initial theta x0 th0 o start :
  declared (m_coords m) (m_variables m) (m_parameters m) -> state_is (m_coords m) (m_variables m) (m_parameters m) initial x0 th0 ->
  starts_from isnan (m_coords m) (m_variables m) (m_parameters m) f_euler initial theta x0 o start ->
  exists eu data pd,
    (if use_euler o then (let* e := euler_start isnan f_euler m initial theta (n_iter_euler o) in let '(groups, _, data) := e in Ok (Some groups, data)) else Ok (None, initial))
      = Ok (eu, data) /\
    holds (m_coords m) o_name data (m_variables m) start /\ holds (m_coords m) o_name data (m_parameters m) pd /\
    approximation isnan (m_coords m) (m_variables m) (m_parameters m) f_euler initial theta o eu.
Proof.
  intros D S H. destruct (use_euler o) eqn:U.
  - destruct (@euler_ok _ _ _ _ _ _ _ _ _ _ _ _ _ _ _ D H U) as (groups & warned & data & pd & E & Hv & Hp & A). exists (Some groups), data, pd. rewrite E. auto.
  - unfold starts_from in H. rewrite U in H. subst start. destruct S as (Hv & Hp & _). exists None, initial, th0. auto.
Qed.

Lemma c92_root__p :
  forall (V Sys Jac Loss Grad Hess Hessp : Type) (isnan : V -> bool) (vadd vmul : arr V -> arr V -> res (arr V)) (table : dict mode_kwargs)
         (minimize : min_problem V Loss Grad Hess Hessp -> res (answer V)) (f_euler : dict (arr V) -> list V -> nat -> res (list (arr V)))
         (m : model V Sys Jac Loss Grad Hess Hessp) (initial final : dict (arr V)) (x0 th0 xf theta start : list V)
         (fv fd fp : option (dict (arr V))) (o : options)
         (sys : list V -> list V -> res Sys) (jac : list V -> list V -> res Jac),
  let c := m_coords m in let vars := m_variables m in let params := m_parameters m in
  declared c vars params -> state_is c vars params initial x0 th0 ->
  (* the scenario, which gives every parameter a value *)
  create_final_param_dict vadd vmul initial fv fd fp = Ok final -> holds c o_name final vars xf -> holds c o_name final params theta ->
  use_optimizer o = true -> optimizer_mode o = "root"%string -> starts_from isnan c vars params f_euler initial theta x0 o start ->
  (* the compiled functions *)
  made_by (m_backend m) (m_system m) -> evaluates c vars params (m_system m) sys ->
  made_by (m_backend m) (m_jac m) -> (wants_jac o -> evaluates c vars params (m_jac m) jac /\ in_compiled "root"%string (m_compiled m) = true) ->
  exists P eu,
    rp_x0 P = start /\ rp_theta P = theta /\ solver_sees c vars params (rp_f P) sys /\
    (wants_jac o -> exists j, rp_jac P = Some j /\ solver_sees c vars params j jac) /\ (~ wants_jac o -> rp_jac P = None) /\
    approximation isnan c vars params f_euler initial theta o eu /\
    forall root,
      (forall e, root P = Err e -> simulate isnan vadd vmul table root minimize f_euler m (SDict initial) fv fd fp o = Err e) /\
      (forall ans, root P = Ok ans -> sized c vars (a_x ans) ->
         exists ds_v ds_p,
           simulate isnan vadd vmul table root minimize f_euler m (SDict initial) fv fd fp o
             = Ok (MkOutcome eu (Some (ds_v, ds_p)) (negb (a_success ans))) /\
           step_of ds_v 0 c vars x0 /\ step_of ds_p 0 c params th0 /\ step_of ds_v 1 c vars (a_x ans) /\ step_of ds_p 1 c params theta).
Proof.
  intros V Sys Jac Loss Grad Hess Hessp isnan vadd vmul table minimize f_euler m initial final x0 th0 xf theta start fv fd fp o sys jac c vars params
    D S E Hxf Hth UO MO SF Ms Es Mj Ej.
  destruct (@start_ok _ _ _ _ _ _ _ _ _ _ _ _ _ _ _ _ D S SF) as (eu & data & pd & Est & Hdv & Hdp & A).
  pose proof (holds_vector D Hdv Hdp) as Hvec. pose proof (holds_sized Hth) as Sth. pose proof (@theta_ok _ _ _ _ _ _ _ _ _ _ _ _ _ _ _ D S E Hxf Hth) as Eth.
  pose proof S as (Hv0 & Hp0 & _).
  set (b := mem_str (m_backend m) ["pytensor"; "sympytensor"]).
  set (uj := truthy (pop_default (kw_jac o) (Some true))).
  assert (UJ : wants_jac o <-> uj = true). { unfold uj, wants_jac. destruct (kw_jac o) as [[[|]|]|]; cbn; split; intros; try reflexivity; try discriminate; auto; destruct H; discriminate. }
  exists (MkRoot (if b then wrap m (m_system m) else m_system m) start theta (if uj then Some (if b then wrap m (m_jac m) else m_jac m) else None)), eu.
  cbn [rp_f rp_x0 rp_theta rp_jac]. split; [reflexivity|]. split; [reflexivity|]. split; [now apply sees|].
  split. { intros W. destruct (Ej W) as (Ej1 & Ej2). apply UJ in W. rewrite W. eexists. split; [reflexivity|]. now apply sees. }
  split. { intros W. destruct uj; [|reflexivity]. exfalso. apply W. now apply UJ. }
  split; [exact A|]. intros root.
  assert (G : uj && negb (in_compiled "root" (m_compiled m)) = false). { destruct uj eqn:Euj; [|reflexivity]. destruct (Ej (proj2 UJ eq_refl)) as (_ & ->). reflexivity. }
  assert (X : solve_with_root root m data theta uj = root (MkRoot (if b then wrap m (m_system m) else m_system m) start theta (if uj then Some (if b then wrap m (m_jac m) else m_jac m) else None))).
  { unfold solve_with_root. rewrite G. cbv zeta. fold b. fold vars params in Hvec. fold vars params. rewrite Hvec. reflexivity. }
  unfold simulate. cbn [read_state bind]. fold vars params in Eth. fold vars params. rewrite Eth. cbn [bind]. rewrite Est. cbn [bind fst snd]. cbv zeta.
  rewrite UO, MO. cbn [String.eqb Ascii.eqb Bool.eqb]. fold uj. rewrite X. split.
  - intros e ->. reflexivity.
  - intros ans -> Sa. cbn [bind]. destruct (start_decodes D Sa Sth) as (d & Ed). fold vars params c in Ed. fold c. rewrite Ed. cbn [bind subscriptable].
    destruct (result_groups D Hv0 Hp0 Sa Sth) as (ds_v & ds_p & Eo & R). fold vars params c in Eo. rewrite Eo. cbn [bind]. exists ds_v, ds_p. split; [reflexivity|exact R].
Qed.

(** The recorded mode is never a string. *)
Lemma c92_mode__p :
  forall (requested : mode) (s : string), mode_is_not s (recorded_mode requested) = true.
Proof. reflexivity. Qed.

Lemma c92_minimize__p :
  forall (V Sys Jac Loss Grad Hess Hessp : Type) (isnan : V -> bool) (vadd vmul : arr V -> arr V -> res (arr V)) (table : dict mode_kwargs)
         (root : root_problem V Sys Jac -> res (answer V)) (f_euler : dict (arr V) -> list V -> nat -> res (list (arr V)))
         (m : model V Sys Jac Loss Grad Hess Hessp) (requested : mode) (initial final : dict (arr V)) (x0 th0 xf theta start : list V)
         (fv fd fp : option (dict (arr V))) (o : options) (use_jac use_hess use_hessp : bool)
         (loss : list V -> list V -> res Loss) (grad : list V -> list V -> res Grad) (hess : list V -> list V -> res Hess)
         (hessp : list V -> list V -> list V -> res Hessp),
  let c := m_coords m in let vars := m_variables m in let params := m_parameters m in
  declared c vars params -> state_is c vars params initial x0 th0 ->
  create_final_param_dict vadd vmul initial fv fd fp = Ok final -> holds c o_name final vars xf -> holds c o_name final params theta ->
  use_optimizer o = true -> optimizer_mode o = "minimize"%string -> starts_from isnan c vars params f_euler initial theta x0 o start ->
  (* the mode is recorded by the compiler; the model is compiled for minimize *)
  m_mode m = recorded_mode requested -> in_compiled "minimize"%string (m_compiled m) = true ->
  (* the flags, resolved as in C22 *)
  simulate_minimize_passes table (kw_jac o) (kw_hess o) (kw_hessp o) (kw_method o) = Ok (use_jac, use_hess, use_hessp) ->
  made_by (m_backend m) (m_resid m) -> evaluates c vars params (m_resid m) loss ->
  made_by (m_backend m) (m_grad m) -> (use_jac = true -> evaluates c vars params (m_grad m) grad) ->
  made_by (m_backend m) (m_hess m) -> (use_hess = true -> evaluates c vars params (m_hess m) hess) ->
  made_by3 (m_backend m) (m_hessp m) -> (use_hessp = true -> evaluates3 c vars params (m_hessp m) hessp /\ no_point vars params) ->
  exists P eu,
    mp_x0 P = start /\ mp_theta P = theta /\ solver_sees c vars params (mp_f P) loss /\
    (if use_jac then exists f, mp_jac P = Some f /\ solver_sees c vars params f grad else mp_jac P = None) /\
    (if use_hess then exists f, mp_hess P = Some f /\ solver_sees c vars params f hess else mp_hess P = None) /\
    (if use_hessp then exists f, mp_hessp P = Some f /\ solver_sees3 c vars params f hessp else mp_hessp P = None) /\
    approximation isnan c vars params f_euler initial theta o eu /\
    forall minimize,
      (forall e, minimize P = Err e -> simulate isnan vadd vmul table root minimize f_euler m (SDict initial) fv fd fp o = Err e) /\
      (forall ans, minimize P = Ok ans -> sized c vars (a_x ans) ->
         exists ds_v ds_p,
           simulate isnan vadd vmul table root minimize f_euler m (SDict initial) fv fd fp o
             = Ok (MkOutcome eu (Some (ds_v, ds_p)) (negb (a_success ans))) /\
           step_of ds_v 0 c vars x0 /\ step_of ds_p 0 c params th0 /\ step_of ds_v 1 c vars (a_x ans) /\ step_of ds_p 1 c params theta).
Proof.
  intros V Sys Jac Loss Grad Hess Hessp isnan vadd vmul table root f_euler m requested initial final x0 th0 xf theta start fv fd fp o uj uh up loss grad hess hessp c vars params
    D S E Hxf Hth UO MO SF Mm Cm Ef Mr Er Mg Eg Mh Eh Mp Ep.
  destruct (@start_ok _ _ _ _ _ _ _ _ _ _ _ _ _ _ _ _ D S SF) as (eu & data & pd & Est & Hdv & Hdp & A).
  pose proof (holds_vector D Hdv Hdp) as Hvec. pose proof (holds_sized Hth) as Sth. pose proof (@theta_ok _ _ _ _ _ _ _ _ _ _ _ _ _ _ _ D S E Hxf Hth) as Eth.
  pose proof S as (Hv0 & Hp0 & _).
  set (b := (mem_str (m_backend m) ["pytensor"] && mode_is_not "JAX" (m_mode m)) || String.eqb (m_backend m) "sympytensor").
  assert (Eb : b = mem_str (m_backend m) ["pytensor"; "sympytensor"]).
  { unfold b. rewrite Mm, c92_mode__p, andb_true_r. unfold mem_str. cbn [existsb]. now rewrite !orb_false_r. }
  exists (MkMin (if b then wrap m (m_resid m) else m_resid m) start theta (if uj then Some (if b then wrap m (m_grad m) else m_grad m) else None)
    (if uh then Some (if b then wrap m (m_hess m) else m_hess m) else None) (if up then Some (if b then wrap3 m (m_hessp m) else m_hessp m) else None)), eu.
  cbn [mp_f mp_x0 mp_theta mp_jac mp_hess mp_hessp]. split; [reflexivity|]. split; [reflexivity|]. split; [now apply sees|].
  split. { destruct uj; [|reflexivity]. eexists. split; [reflexivity|]. apply sees; auto. }
  split. { destruct uh; [|reflexivity]. eexists. split; [reflexivity|]. apply sees; auto. }
  split. { destruct up; [|reflexivity]. destruct (Ep eq_refl) as (Ep1 & Ep2). eexists. split; [reflexivity|]. apply sees3; auto. }
  split; [exact A|]. intros minimize.
  set (P := MkMin _ _ _ _ _ _).
  assert (X : solve_with_minimize table minimize m data theta (pop_default (kw_jac o) (Some true)) (pop_default (kw_hess o) (Some true))
             (pop_default (kw_hessp o) (Some true)) (pop_default (kw_method o) "trust-ncg") = minimize P).
  { unfold solve_with_minimize. rewrite Cm. cbn [negb]. unfold simulate_minimize_passes in Ef. rewrite Ef. cbn [bind]. cbv zeta. fold b. fold vars params in Hvec. fold vars params. rewrite Hvec. reflexivity. }
  unfold simulate. cbn [read_state bind]. fold vars params in Eth. fold vars params. rewrite Eth. cbn [bind]. rewrite Est. cbn [bind fst snd]. cbv zeta.
  rewrite UO, MO. cbn [String.eqb Ascii.eqb Bool.eqb]. rewrite X. split.
  - intros e ->. reflexivity.
  - intros ans -> Sa. cbn [bind]. destruct (start_decodes D Sa Sth) as (d & Ed). fold vars params c in Ed. fold c. rewrite Ed. cbn [bind subscriptable].
    destruct (result_groups D Hv0 Hp0 Sa Sth) as (ds_v & ds_p & Eo & R). fold vars params c in Eo. rewrite Eo. cbn [bind]. exists ds_v, ds_p. split; [reflexivity|exact R].
Qed.

(** Without the optimizer only the approximation is returned. *)
Lemma c92_euler_only__p :
  forall (V Sys Jac Loss Grad Hess Hessp : Type) (isnan : V -> bool) (vadd vmul : arr V -> arr V -> res (arr V)) (table : dict mode_kwargs)
         (root : root_problem V Sys Jac -> res (answer V)) (minimize : min_problem V Loss Grad Hess Hessp -> res (answer V))
         (f_euler : dict (arr V) -> list V -> nat -> res (list (arr V)))
         (m : model V Sys Jac Loss Grad Hess Hessp) (initial final : dict (arr V)) (x0 th0 xf theta start : list V)
         (fv fd fp : option (dict (arr V))) (o : options),
  let c := m_coords m in let vars := m_variables m in let params := m_parameters m in
  declared c vars params -> state_is c vars params initial x0 th0 ->
  create_final_param_dict vadd vmul initial fv fd fp = Ok final -> holds c o_name final vars xf -> holds c o_name final params theta ->
  use_optimizer o = false -> starts_from isnan c vars params f_euler initial theta x0 o start ->
  exists eu, simulate isnan vadd vmul table root minimize f_euler m (SDict initial) fv fd fp o = Ok (MkOutcome eu None false) /\
    approximation isnan c vars params f_euler initial theta o eu.
Proof.
  intros V Sys Jac Loss Grad Hess Hessp isnan vadd vmul table root minimize f_euler m initial final x0 th0 xf theta start fv fd fp o c vars params D S E Hxf Hth UO SF.
  destruct (@start_ok _ _ _ _ _ _ _ _ _ _ _ _ _ _ _ _ D S SF) as (eu & data & pd & Est & Hdv & Hdp & A). pose proof (@theta_ok _ _ _ _ _ _ _ _ _ _ _ _ _ _ _ D S E Hxf Hth) as Eth. exists eu. split; [|exact A].
  unfold simulate. cbn [read_state bind]. fold vars params in Eth. fold vars params. rewrite Eth. cbn [bind]. rewrite Est. cbn [bind fst snd]. cbv zeta. now rewrite UO.
Qed.

(** What check_for_equilibrium evaluates *)
Lemma step_holds {V} (d : dict (arr V)) (ds : dataset V) c objs k x : step_of ds k c objs x ->
  (forall o, In o objs -> dget (o_name o) d = option_map (fun e => row (snd e) k) (dget (o_name o) ds)) -> holds c o_name d objs x.
Proof.
  intros (K & arrays & n & Hk & T & F & VA) H. apply (@values_rows V _ _ _ _ _ _ T Hk) in VA. subst x. eapply group_holds; eauto. split; assumption.
Qed.

Lemma c92_equilibrium__p :
  forall (V Sys Jac Loss Grad Hess Hessp : Type) (m : model V Sys Jac Loss Grad Hess Hessp) (ds_v ds_p : dataset V) (k : nat) (x theta : list V)
         (sys : list V -> list V -> res Sys),
  let c := m_coords m in let vars := m_variables m in let params := m_parameters m in
  declared c vars params -> made_by (m_backend m) (m_system m) -> evaluates c vars params (m_system m) sys ->
  step_of ds_v k c vars x -> step_of ds_p k c params theta -> equilibrium_errors m (ds_v, ds_p) k = sys x theta.
Proof.
  intros V Sys Jac Loss Grad Hess Hessp m ds_v ds_p k x theta sys c vars params D M E Sv Sp. pose proof D as (N1 & N2 & Nd & Hd).
  pose proof Sv as (Kv & av & nv & _ & _ & Fv & _). pose proof Sp as (Kp & ap & np & _ & _ & Fp & _).
  destruct (joint_entry k k Nd (conj Kv Fv) (conj Kp Fp)) as (Jv & Jp).
  assert (Hv : holds c o_name (dupdate (state_at ds_v k) (state_at ds_p k)) vars x) by (eapply step_holds; eauto).
  assert (Hp : holds c o_name (dupdate (state_at ds_v k) (state_at ds_p k)) params theta) by (eapply step_holds; eauto).
  assert (Hst : state_is c vars params (dupdate (state_at ds_v k) (state_at ds_p k)) x theta).
  { split; [exact Hv|]. split; [exact Hp|]. intros q. assert (Np : NoDup (dkeys (state_at ds_p k))). { rewrite state_keys, Kp. rewrite map_app in Nd. now apply NoDup_app_inv in Nd. }
    rewrite (@dupdate_keys _ _ _ Np), !state_keys, Kv, Kp, map_app, !in_app_iff, filter_In. destruct (mem_str q (map o_name vars)) eqn:Q; cbn [negb]; [|intuition].
    apply mem_str_In in Q. intuition. }
  unfold equilibrium_errors. cbn [fst snd]. cbv zeta. destruct (m_system m) as [|h|h]; [destruct E| |].
  - cbn [made_by] in M. rewrite M. cbn [mem_str existsb String.eqb Ascii.eqb Bool.eqb orb]. fold vars params. rewrite (holds_vector D Hv Hp). cbn [bind fst snd call_flat].
    apply E; eapply holds_sized; eauto.
  - cbn [made_by] in M. cbn [call_keywords]. destruct M as [-> | ->]; cbn [mem_str existsb String.eqb Ascii.eqb Bool.eqb orb]; now apply E.
Qed.

(** ** Refutations *)
(** A Result as initial state: the solver runs, then the call fails. *)
Lemma c92_result_refuted__p :
  forall (V Sys Jac Loss Grad Hess Hessp : Type) (isnan : V -> bool) (vadd vmul : arr V -> arr V -> res (arr V)) (table : dict mode_kwargs)
         (root : root_problem V Sys Jac -> res (answer V)) (minimize : min_problem V Loss Grad Hess Hessp -> res (answer V))
         (f_euler : dict (arr V) -> list V -> nat -> res (list (arr V))) (m : model V Sys Jac Loss Grad Hess Hessp)
         (fitted : dict (arr V)) (fv fd fp : option (dict (arr V))) (o : options) (r : outcome V),
  use_optimizer o = true -> simulate isnan vadd vmul table root minimize f_euler m (SResult fitted) fv fd fp o <> Ok r.
Proof.
  intros V Sys Jac Loss Grad Hess Hessp isnan vadd vmul table root minimize f_euler m fitted fv fd fp o r UO H. unfold simulate in H. cbn [read_state bind] in H.
  destruct (simulation_theta _ _ _ _ _ _ _ _) as [theta|]; [|discriminate]. cbn [bind] in H.
  destruct (if use_euler o then _ else _) as [eu|]; [|discriminate]. cbn [bind] in H. cbv zeta in H. rewrite UO in H.
  destruct (if String.eqb _ "root" then _ else _) as [ans|]; [|discriminate]. cbn [bind] in H.
  destruct (flat_array_to_variable_dict _ _ _); discriminate.
Qed.

(** An xarray Dataset as initial state *)
Lemma c92_dataset_refuted__p :
  forall (V Sys Jac Loss Grad Hess Hessp : Type) (isnan : V -> bool) (vadd vmul : arr V -> arr V -> res (arr V)) (table : dict mode_kwargs)
         (root : root_problem V Sys Jac -> res (answer V)) (minimize : min_problem V Loss Grad Hess Hessp -> res (answer V))
         (f_euler : dict (arr V) -> list V -> nat -> res (list (arr V))) (m : model V Sys Jac Loss Grad Hess Hessp)
         (d : dict (arr V)) (fv fd fp : option (dict (arr V))) (o : options) (r : outcome V),
  m_parameters m <> nil -> simulate isnan vadd vmul table root minimize f_euler m (SDataset d) fv fd fp o <> Ok r.
Proof.
  intros V Sys Jac Loss Grad Hess Hessp isnan vadd vmul table root minimize f_euler m d fv fd fp o r Ne H. unfold simulate in H. cbn [read_state] in H.
  destruct (map_res _ (m_variables m)) as [vs|]; [|discriminate]. cbn [bind] in H. destruct (m_parameters m); [congruence|]. cbn in H. discriminate.
Qed.

(** The initial state is not checked to be an equilibrium. *)
Lemma c92_unchecked_refuted__p :
  exists (m : model Z (list Z) (list Z) Z (list Z) (list Z) (list Z)) (initial : dict (arr Z)) (sys : list Z -> list Z -> res (list Z))
         (x0 th0 : list Z) (o : options) (scenario : dict (arr Z)) (r : outcome Z),
    declared (m_coords m) (m_variables m) (m_parameters m) /\ evaluates (m_coords m) (m_variables m) (m_parameters m) (m_system m) sys /\
    state_is (m_coords m) (m_variables m) (m_parameters m) initial x0 th0 /\ sys x0 th0 = Ok [5%Z] /\
    simulate (fun _ => false) (fun _ _ => Err TypeError) (fun _ _ => Err TypeError) [] (fun P => Ok (MkAnswer (rp_theta P) true)) (fun _ => Err ValueError)
      (fun _ _ _ => Err ValueError) m (SDict initial) (Some scenario) None None o = Ok r /\ r_warned r = false.
Proof.
  set (x := MkObj KVar "x" [] [] "x" "x" "" "x" true false 0). set (t := MkObj KPar "t" [] [] "t" "t" "" "t" true false 0).
  set (sys := fun x th : list Z => Ok [(hd 0 x - hd 0 th)%Z] : res (list Z)).
  exists (MkModel [] [x] [t] "numba" ModeNone (Some [FStr "root"]) (Pos sys) NoFn NoFn NoFn NoFn NoFn3).
  exists [("x", mkArr [] [6%Z]); ("t", mkArr [] [1%Z])], sys, [6%Z], [1%Z], (MkOptions false true "root" 0 (Some (Some false)) None None None), [("t", mkArr [] [2%Z])].
  eexists. split.
  { split; [discriminate|]. split; [discriminate|]. split; [repeat constructor; cbn; intuition discriminate|]. intros o [<-|[<-|[]]]; cbn; (split; [constructor|]); (split; [tauto|]); tauto. }
  split; [intros ? ? _ _; reflexivity|]. split.
  { split; [|split].
    - exists [mkArr [] [6%Z]]. split; [|reflexivity]. repeat constructor.
    - exists [mkArr [] [1%Z]]. split; [|reflexivity]. repeat constructor.
    - intros k. cbn. tauto. }
  split; [reflexivity|]. split; [vm_compute; reflexivity|reflexivity].
Qed.
