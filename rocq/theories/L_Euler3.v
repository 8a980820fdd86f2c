(** Lemmas for C37-C40, C42. *)
From Coq Require Import Reals Lra Permutation.
From Verif Require Import Py PyStr NdArray M_Primitives M_Utilities M_Wrappers M_Euler.
From Verif Require Import S_Layout S_Euler L_Utilities L_Layout L_Wrappers L_Euler L_Euler2.
Local Open Scope string_scope.
Local Open Scope list_scope.

Lemma row_of_cutlist rows shapes t row :
  (forall r, In r rows -> length r = total shapes) -> nth_error rows t = Some row ->
  row_of (cutlist rows shapes) t = row.
Proof.
  intros Hr Ht. unfold row_of.
  assert (Lr : length row = total shapes) by (eapply Hr, nth_error_In; eauto).
  rewrite <- (@chop_concat R shapes row Lr) at 1. f_equal. apply list_ext. intros j.
  rewrite !nth_error_map, nth_cutlist.
  destruct (nth_error shapes j) as [s|] eqn:Es.
  - rewrite (@nth_chop R shapes row j s Es Lr). cbn [option_map]. f_equal. unfold cutarr. cbn [ashape adata tl].
    apply list_ext. intros k. pose proof (total_firstn_nth _ _ Es) as Hle.
    destruct (Nat.lt_ge_cases k (prodn s)) as [Hk|Hk].
    + rewrite !nth_error_slice by auto. rewrite (@nth_concat_slices R rows _ (prodn s) (total shapes)); auto.
      now rewrite Ht.
    + assert (E : forall (l : list R) a, nth_error (slice l a (prodn s)) k = None).
      { intros l a. apply nth_error_None. unfold slice. rewrite firstn_length. lia. }
      now rewrite !E.
  - cbn [option_map]. symmetry. assert (E : nth_error (chop shapes row) j = None).
    { apply nth_error_None. rewrite chop_length. now apply nth_error_None. }
    now rewrite E.
Qed.

Lemma input_keyword c vars params sv sp data x0 th0 th1 :
  euler_input c vars params sv sp data x0 th0 th1 -> NoDup (keyword_names (map o_name vars) (map o_name params)).
Proof. intros H. pose proof (ei_names H) as N. unfold keyword_names. now rewrite !map_map. Qed.

Lemma skipn_tl {A} (l : list A) : skipn 1 l = tl l.
Proof. now destruct l. Qed.

Lemma input_lengths c vars params sv sp data x0 th0 th1 :
  euler_input c vars params sv sp data x0 th0 th1 -> length x0 = total sv /\ length th0 = total sp /\
  Forall2 (fun o a => dget (o_name o) data = Some a) vars (chop sv x0) /\
  Forall2 (fun o a => dget (o_name o) data = Some a) params (chop sp th0).
Proof.
  intros H. pose proof (ei_flat H) as Hd. unfold variable_dict_to_flat_array in Hd.
  apply bind_ok in Hd as (v & Hd1 & Hd). apply bind_ok in Hd as (p & Hd2 & Hd). injection Hd as -> ->.
  destruct (@own_arrays R c vars sv data x0 (ei_sv H) (fun o Ho => ei_data H o (in_or_app _ _ _ (or_introl Ho))) Hd1).
  destruct (@own_arrays R c params sp data th0 (ei_sp H) (fun o Ho => ei_data H o (in_or_app _ _ _ (or_intror Ho))) Hd2).
  auto.
Qed.

Lemma run_rows b rk4 inc c vars params sv sp data x0 th0 th1 n :
  euler_input c vars params sv sp data x0 th0 th1 -> supports b rk4 ->
  well_sized inc (total sv) (total sp) ->
  run_euler b rk4 inc vars params c th1 n data =
  Ok (cutlist (skipn (first_step b) (rows_of (step_inc rk4 inc) (vdiv (vsub th1 th0) n) x0 th0 n)) (sv ++ sp)).
Proof.
  intros H Hs Hi. destruct (input_lengths H) as (Lx & Lt & Ax & At). pose proof (input_keyword H) as Hk.
  assert (Sv : map_res (infer_shape c) vars = Ok sv).
  { apply map_res_ok_Forall2. pose proof (ei_sv H) as F. clear -F. induction F; constructor; auto. now apply infer_shape_spec. }
  assert (Sp : map_res (infer_shape c) params = Ok sp).
  { apply map_res_ok_Forall2. pose proof (ei_sp H) as F. clear -F. induction F; constructor; auto. now apply infer_shape_spec. }
  unfold run_euler. rewrite Sv, Sp. cbn [bind].
  change (list_sum (map prodn sv)) with (total sv).
  assert (Lv : length (map o_name vars) = length sv) by (rewrite map_length; apply (Forall2_length_ (ei_sv H))).
  assert (Lp : length (map o_name params) = length sp) by (rewrite map_length; apply (Forall2_length_ (ei_sp H))).
  assert (Hsv : sv <> []). { pose proof (ei_vars H). destruct sv; [|discriminate]. destruct vars; [congruence|discriminate]. }
  assert (Hsp : sp <> []). { pose proof (ei_params H). destruct sp; [|discriminate]. destruct params; [congruence|discriminate]. }
  destruct b; cbn [supports first_step] in *.
  - subst rk4. cbn [skipn step_inc]. 
    apply (@numba_out c vars params sv sp data x0 th0 th1 n inc (ei_sv H) (ei_sp H) (ei_labels H) (ei_flat H) Lx Lt (ei_final H) Hi).
  - rewrite skipn_tl.
    apply (@python_out c vars params sv sp data x0 th0 th1 n (step_inc rk4 inc) _ (ei_vars H) (ei_params H) Hk (ei_keys H)
             (ei_sv H) (ei_sp H) (ei_data H) (ei_flat H) (ei_final H) (sized_step rk4 Hi)).
    apply jax_step_ok; auto.
  - subst rk4. cbn [step_inc]. rewrite skipn_tl.
    apply (@python_out c vars params sv sp data x0 th0 th1 n inc _ (ei_vars H) (ei_params H) Hk (ei_keys H)
             (ei_sv H) (ei_sp H) (ei_data H) (ei_flat H) (ei_final H) Hi).
    apply pytensor_step_ok; auto.
  - cbn [skipn].
    assert (X : map_res (fun k => dgetitem k data) (map o_name vars) = Ok (chop sv x0)).
    { apply map_res_ok_Forall2. clear -Ax. induction Ax as [|o a objs l E F IH]; constructor; auto. unfold dgetitem. now rewrite E. }
    assert (T : map_res (fun k => dgetitem k data) (map o_name params) = Ok (chop sp th0)).
    { apply map_res_ok_Forall2. clear -At. induction At as [|o a objs l E F IH]; constructor; auto. unfold dgetitem. now rewrite E. }
    rewrite X. cbn [bind]. rewrite T. cbn [bind].
    assert (W : forall shapes y, length y = total shapes -> Forall (fun a : arr R => arr_wf a) (chop shapes y)).
    { clear. induction shapes as [|s shapes IH]; intros y Hy; simpl; constructor.
      - unfold arr_wf. cbn [adata ashape]. unfold total in Hy. simpl in Hy. rewrite firstn_length. lia.
      - apply IH. unfold total in *. simpl in Hy. rewrite skipn_length. lia. }
    pose proof (@scan_out rk4 inc (chop sv x0) (chop sp th0) th1 n) as S. cbv zeta in S.
    rewrite !chop_shapes, !chop_concat in S by auto. apply S; auto.
    + destruct sv; [congruence|discriminate].
    + destruct sp; [congruence|discriminate].
    + apply Forall_app. split; auto.
    + exact (ei_final H).
Qed.

Lemma rows_of_nth inc d x0 th0 n t : t <= n ->
  nth_error (rows_of inc d x0 th0 n) t = Some (fst (path inc d x0 th0 t) ++ snd (path inc d x0 th0 t)).
Proof.
  intros H. unfold rows_of. rewrite nth_error_map.
  rewrite nth_error_nth' with (d := 0) by (rewrite seq_length; lia). rewrite seq_nth by lia. reflexivity.
Qed.

(** The rows of the result *)
Lemma run_row b rk4 inc c vars params sv sp data x0 th0 th1 n :
  euler_input c vars params sv sp data x0 th0 th1 -> supports b rk4 ->
  well_sized inc (total sv) (total sp) ->
  exists out, run_euler b rk4 inc vars params c th1 n data = Ok out /\
    map (@ashape R) out = map (fun s => S n - first_step b :: s) (sv ++ sp) /\
    (forall t, first_step b <= t <= n ->
       let p := path (step_inc rk4 inc) (vdiv (vsub th1 th0) n) x0 th0 t in
       row_of out (t - first_step b) = fst p ++ snd p /\ length (fst p) = total sv /\ length (snd p) = total sp).
Proof.
  intros H Hs Hi. eexists. split; [eapply run_rows; eauto|].
  destruct (input_lengths H) as (Lx & Lt & _).
  set (d := vdiv (vsub th1 th0) n). set (inc' := step_inc rk4 inc).
  assert (Hi' : sized inc' (total sv) (total sp)) by (now apply sized_step).
  assert (Ld : length d = total sp) by (unfold d; rewrite vdiv_length, vsub_length; rewrite ?(ei_final H); congruence).
  assert (HL : length (skipn (first_step b) (rows_of inc' d x0 th0 n)) = S n - first_step b).
  { rewrite skipn_length. unfold rows_of. now rewrite map_length, seq_length. }
  split.
  - apply list_ext. intros j. rewrite !nth_error_map, nth_cutlist. destruct (nth_error (sv ++ sp) j); [|reflexivity].
    cbn [option_map]. unfold cutarr. cbn [ashape]. now rewrite HL.
  - intros t Ht p. pose proof (path_length d x0 th0 Hi' Lx Lt Ld t) as (A & B). fold p in A, B. split; [|auto].
    apply row_of_cutlist.
    + intros r Hr. rewrite total_app. apply (@rows_length inc' d x0 th0 n _ _ Hi' Lx Lt Ld).
      rewrite <- (firstn_skipn (first_step b) (rows_of inc' d x0 th0 n)). apply in_or_app. now right.
    + assert (E : forall (A : Type) (l : list A) a k, nth_error (skipn a l) k = nth_error l (a + k)).
      { clear. intros A l a. revert l. induction a as [|a IH]; intros [|x l] k; simpl; auto. now destruct k. }
      rewrite E. replace (first_step b + (t - first_step b)) with t by lia. apply rows_of_nth. lia.
Qed.

(** ** C37 *)
Lemma c37_line__p :
  forall (b : backend) (use_rk4 : bool) (inc : increment) (c : coords) (vars params : list mobj)
         (sv sp : list (list nat)) (data : dict (arr R)) (x0 theta0 theta1 : list R) (n : nat),
  euler_input c vars params sv sp data x0 theta0 theta1 -> supports b use_rk4 ->
  well_sized inc (total sv) (total sp) -> 1 <= n ->
  exists out, run_euler b use_rk4 inc vars params c theta1 n data = Ok out /\
    (forall a, In a out -> hd 0 (ashape a) = S n - first_step b) /\
    (forall t, first_step b <= t <= n ->
       let th := skipn (total sv) (row_of out (t - first_step b)) in
       length th = total sp /\
       forall k, k < total sp -> exists v, nth_error th k = Some v /\ on_line theta0 theta1 t n k v) /\
    skipn (total sv) (row_of out (n - first_step b)) = theta1.
Proof.
  intros b rk4 inc c vars params sv sp data x0 th0 th1 n H Hs Hi Hn.
  destruct (@run_row b rk4 _ c vars params sv sp data x0 th0 _ n H Hs Hi) as (out & E & HS & HR). exists out. split; [exact E|]. split.
  { intros a Ha. apply (in_map (@ashape R)) in Ha. rewrite HS in Ha. apply in_map_iff in Ha as (s & <- & _). reflexivity. }
  destruct (input_lengths H) as (Lx & Lt & _). pose proof (ei_final H) as L1.
  assert (Hrow : forall t, first_step b <= t <= n ->
     let th := skipn (total sv) (row_of out (t - first_step b)) in
     length th = total sp /\ forall k, k < total sp -> exists v, nth_error th k = Some v /\ on_line th0 th1 t n k v).
  { intros t Ht th. destruct (HR t Ht) as (Er & La & Lb). unfold th. rewrite Er.
    rewrite skipn_app, <- La, skipn_all, Nat.sub_diag. cbn [app skipn]. split; [exact Lb|]. intros k Hk.
    destruct (nth_error th0 k) as [u|] eqn:Eu; [|apply nth_error_None in Eu; lia].
    destruct (nth_error th1 k) as [w|] eqn:Ew; [|apply nth_error_None in Ew; lia].
    eexists. split.
    - apply path_theta; [|exact Eu|].
      + rewrite vdiv_length, vsub_length; congruence.
      + unfold vdiv. rewrite nth_error_map. unfold vsub. rewrite nth_vmap2, Ew, Eu. reflexivity.
    - exists u, w. split; auto. split; auto. unfold Rdiv. ring. }
  split; [exact Hrow|].
  assert (Hf : first_step b <= n <= n) by (destruct b; simpl; lia).
  destruct (Hrow n Hf) as (Ll & Hv). apply list_ext. intros k.
  destruct (Nat.lt_ge_cases k (total sp)) as [Hk|Hk].
  - destruct (Hv k Hk) as (v & -> & u & w & _ & -> & ->). f_equal.
    assert (INR n <> 0%R) by (apply not_0_INR; lia). field. auto.
  - assert (E1 : nth_error (skipn (total sv) (row_of out (n - first_step b))) k = None) by (apply nth_error_None; lia).
    assert (E2 : nth_error th1 k = None) by (apply nth_error_None; lia). congruence.
Qed.

(** ** C39 *)
Lemma zeros_length n : length (zeros n) = n.
Proof. apply repeat_length. Qed.
Lemma vadd_zeros a : vadd a (zeros (length a)) = a.
Proof.
  apply list_ext. intros k. unfold vadd. rewrite nth_vmap2. destruct (nth_error a k) as [u|] eqn:E; [|reflexivity].
  assert (k < length a) by (apply nth_error_Some; congruence).
  unfold zeros. rewrite nth_error_repeat by auto. f_equal. lra.
Qed.
Lemma vsub_self a : vsub a a = zeros (length a).
Proof.
  apply list_ext. intros k. unfold vsub. rewrite nth_vmap2. destruct (nth_error a k) as [u|] eqn:E.
  - assert (k < length a) by (apply nth_error_Some; congruence). unfold zeros. rewrite nth_error_repeat by auto. f_equal. lra.
  - symmetry. apply nth_error_None. rewrite zeros_length. now apply nth_error_None.
Qed.
Lemma map_zeros f n : f 0%R = 0%R -> map f (zeros n) = zeros n.
Proof. intros H. unfold zeros. induction n; simpl; congruence. Qed.
Lemma dot_zeros a n : dot a (zeros n) = 0%R.
Proof.
  unfold dot, vmap2. revert n. induction a as [|x a IH]; intros [|n]; simpl; auto.
  unfold zeros in IH. rewrite IH. lra.
Qed.

Lemma step_zero b inc nv np :
  (forall x th, length x = nv -> length th = np -> inc x th (zeros np) = zeros nv) ->
  forall x th, length x = nv -> length th = np -> step_inc b inc x th (zeros np) = zeros nv.
Proof.
  intros H x th Hx Ht. destruct b; [|now apply H]. cbn [step_inc]. unfold rk4_inc.
  rewrite (H x th Hx Ht). unfold vscale at 2. rewrite map_zeros by lra.
  assert (Z1 : vscale (1 / 2) (zeros nv) = zeros nv) by (apply map_zeros; lra).
  assert (Ex : vadd x (zeros nv) = x) by (subst nv; apply vadd_zeros).
  assert (Et : vadd th (zeros np) = th) by (subst np; apply vadd_zeros).
  assert (Z2 : vscale (1 / 2) (zeros np) = zeros np) by (apply map_zeros; lra).
  assert (Z3 : vscale 2 (zeros nv) = zeros nv) by (apply map_zeros; lra).
  assert (Zz : vadd (zeros nv) (zeros nv) = zeros nv) by (pose proof (vadd_zeros (zeros nv)) as Q; now rewrite zeros_length in Q).
  rewrite ?Z1, ?Z2, ?Ex, ?Et, (H x th Hx Ht), ?Z1, ?Ex, (H x th Hx Ht), ?Ex, ?(H x th Hx Ht), ?Z3, !Zz.
  apply map_zeros. lra.
Qed.

Lemma c39_no_shock__p :
  forall (b : backend) (use_rk4 : bool) (A B : list R -> list R -> list (list R))
         (solve : list (list R) -> list R -> list R) (c : coords) (vars params : list mobj)
         (sv sp : list (list nat)) (data : dict (arr R)) (x0 theta0 : list R) (n : nat),
  euler_input c vars params sv sp data x0 theta0 theta0 -> supports b use_rk4 ->
  (* one equation per variable, and a solver that maps zero to zero *)
  (forall x th, length (B x th) = total sv) ->
  (forall m v, length (solve m v) = length v) ->
  (forall m k, solve m (zeros k) = zeros k) ->
  exists out, run_euler b use_rk4 (euler_inc A B solve) vars params c theta0 n data = Ok out /\
    (forall t, first_step b <= t <= n -> row_of out (t - first_step b) = x0 ++ theta0).
Proof.
  intros b rk4 A B solve c vars params sv sp data x0 th0 n H Hs HB Hl Hz.
  assert (Hi : well_sized (euler_inc A B solve) (total sv) (total sp)).
  { intros x th d _ _ _. unfold euler_inc. rewrite vneg_length, Hl. unfold mv. now rewrite map_length. }
  destruct (@run_row b rk4 _ c vars params sv sp data x0 th0 _ n H Hs Hi) as (out & E & _ & HR). exists out. split; [exact E|].
  destruct (input_lengths H) as (Lx & Lt & _).
  assert (Ed : vdiv (vsub th0 th0) n = zeros (total sp)).
  { rewrite vsub_self, Lt. unfold vdiv. apply map_zeros. unfold Rdiv. lra. }
  assert (HZ : forall x th, length x = total sv -> length th = total sp -> euler_inc A B solve x th (zeros (total sp)) = zeros (total sv)).
  { intros x th _ _. unfold euler_inc.
    assert (Em : mv (B x th) (zeros (total sp)) = zeros (total sv)).
    { rewrite <- (HB x th). unfold mv. clear. induction (B x th) as [|r m IH]; [reflexivity|]. simpl. rewrite IH, dot_zeros. reflexivity. }
    rewrite Em, Hz. unfold vneg. apply map_zeros. lra. }
  intros t Ht. destruct (HR t Ht) as (Er & _). rewrite Er, Ed. clear -HZ Lx Lt.
  assert (P : path (step_inc rk4 (euler_inc A B solve)) (zeros (total sp)) x0 th0 t = (x0, th0)).
  { induction t as [|t IH]; [reflexivity|]. cbn [path]. rewrite IH. cbn [fst snd].
    rewrite (@step_zero rk4 _ (total sv) (total sp) HZ x0 th0 Lx Lt). rewrite <- Lx at 1. rewrite <- Lt at 1. now rewrite !vadd_zeros. }
  rewrite P. reflexivity.
Qed.

(** ** C38 *)
Lemma dot_vadd a : forall u v, length u = length a -> length v = length a -> dot a (vadd u v) = (dot a u + dot a v)%R.
Proof.
  unfold dot, vadd, vmap2. induction a as [|x a IH]; intros [|y u] [|z v] Hu Hv; try discriminate; simpl in *; [lra|].
  rewrite IH by lia. lra.
Qed.
Lemma dot_vneg a : forall u, dot a (vneg u) = (- dot a u)%R.
Proof.
  unfold dot, vneg, vmap2. induction a as [|x a IH]; intros [|y u]; simpl in *; try lra. rewrite IH. lra.
Qed.
Lemma mv_vadd M r k u v : is_matrix r k M -> length u = k -> length v = k -> mv M (vadd u v) = vadd (mv M u) (mv M v).
Proof.
  intros (_ & HM) Hu Hv. unfold mv, vadd at 2, vmap2. induction M as [|row M IH]; [reflexivity|]. simpl.
  rewrite IH by (intros; apply HM; now right). f_equal.
  assert (length row = k) by (apply HM; now left). apply dot_vadd; congruence.
Qed.
Lemma mv_vneg M u : mv M (vneg u) = vneg (mv M u).
Proof. unfold mv, vneg at 2. rewrite map_map. apply map_ext. intros. apply dot_vneg. Qed.
Lemma mv_length M v : length (mv M v) = length M.
Proof. apply map_length. Qed.

Lemma rk4_constant inc x th d g :
  (forall x' th', length x' = length x -> length th' = length th -> inc x' th' d = g) ->
  length g = length x -> length d = length th -> rk4_inc inc x th d = g.
Proof.
  intros H Lg Ld. unfold rk4_inc. rewrite !H; auto; rewrite ?vadd_length; rewrite ?vscale_length; auto.
  apply list_ext. intros k. unfold vadd, vscale. rewrite nth_error_map, !nth_vmap2, !nth_error_map.
  destruct (nth_error g k); [|reflexivity]. cbn [option_map]. f_equal. field.
Qed.

Lemma c38_affine__p :
  forall (b : backend) (use_rk4 : bool) (M N : list (list R)) (k : list R)
         (solve : list (list R) -> list R -> list R) (c : coords) (vars params : list mobj)
         (sv sp : list (list nat)) (data : dict (arr R)) (x0 theta0 theta1 : list R) (n : nat),
  euler_input c vars params sv sp data x0 theta0 theta1 -> supports b use_rk4 -> 1 <= n ->
  is_matrix (total sv) (total sv) M -> is_matrix (total sv) (total sp) N -> length k = total sv ->
  solves solve M (total sv) ->
  residual M N k x0 theta0 = zeros (total sv) ->
  exists out, run_euler b use_rk4 (euler_inc (fun _ _ => M) (fun _ _ => N) solve) vars params c theta1 n data = Ok out /\
    (forall t, first_step b <= t <= n ->
       let row := row_of out (t - first_step b) in
       residual M N k (firstn (total sv) row) (skipn (total sv) row) = zeros (total sv)) /\
    residual M N k (firstn (total sv) (row_of out (n - first_step b))) theta1 = zeros (total sv).
Proof.
  intros b rk4 M N k solve c vars params sv sp data x0 th0 th1 n H Hs Hn HM HN Hk Hsol H0.
  assert (Hi : well_sized (euler_inc (fun _ _ => M) (fun _ _ => N) solve) (total sv) (total sp)).
  { intros x th d _ _ _. unfold euler_inc. rewrite vneg_length. apply Hsol. rewrite mv_length. apply HN. }
  destruct (@run_row b rk4 _ c vars params sv sp data x0 th0 _ n H Hs Hi) as (out & E & _ & HR). exists out. split; [exact E|].
  destruct (input_lengths H) as (Lx & Lt & _). pose proof (ei_final H) as L1.
  set (d := vdiv (vsub th1 th0) n) in *.
  assert (Ld : length d = total sp) by (unfold d; rewrite vdiv_length, vsub_length; congruence).
  set (inc := euler_inc (fun _ _ => M) (fun _ _ => N) solve) in *.
  set (g := vneg (solve M (mv N d))).
  assert (Lg : length g = total sv) by (unfold g; rewrite vneg_length; apply Hsol; rewrite mv_length; apply HN).
  assert (Hg : forall x th, length x = total sv -> length th = total sp -> step_inc rk4 inc x th d = g).
  { intros x th A B. destruct rk4; [|reflexivity]. cbn [step_inc]. apply rk4_constant; try congruence. reflexivity. }
  assert (Mg : mv M g = vneg (mv N d)).
  { unfold g. rewrite mv_vneg. f_equal. apply Hsol. rewrite mv_length. apply HN. }
  assert (R : forall t, residual M N k (fst (path (step_inc rk4 inc) d x0 th0 t)) (snd (path (step_inc rk4 inc) d x0 th0 t)) = zeros (total sv)).
  { pose proof (path_length d x0 th0 (sized_step rk4 Hi) Lx Lt Ld) as PL.
    induction t as [|t IH]; [exact H0|]. cbn [path fst snd]. destruct (PL t) as (A & B).
    set (x := fst (path (step_inc rk4 inc) d x0 th0 t)) in *. set (th := snd (path (step_inc rk4 inc) d x0 th0 t)) in *.
    rewrite (Hg x th A B). rewrite <- IH. unfold residual.
    rewrite (@mv_vadd M _ _ x g HM A Lg), (@mv_vadd N _ _ th d HN B Ld), Mg.
    assert (Lm : length (mv M x) = total sv) by (rewrite mv_length; apply HM).
    assert (Ln1 : length (mv N th) = total sv) by (rewrite mv_length; apply HN).
    assert (Ln2 : length (mv N d) = total sv) by (rewrite mv_length; apply HN).
    apply list_ext. intros j. unfold vadd, vneg. rewrite !nth_vmap2, nth_error_map.
    destruct (nth_error (mv M x) j) as [u1|] eqn:E1; [|reflexivity].
    assert (Hj : j < total sv) by (rewrite <- Lm; apply nth_error_Some; congruence).
    destruct (nth_error (mv N d) j) as [u2|] eqn:E2; [|apply nth_error_None in E2; lia].
    destruct (nth_error (mv N th) j) as [u3|] eqn:E3; [|reflexivity]. cbn [option_map].
    destruct (nth_error k j); [|reflexivity]. f_equal. lra. }
  assert (Hrow : forall t, first_step b <= t <= n ->
       let row := row_of out (t - first_step b) in
       residual M N k (firstn (total sv) row) (skipn (total sv) row) = zeros (total sv)).
  { intros t Ht row. destruct (HR t Ht) as (Er & La & _). unfold row. rewrite Er.
    rewrite firstn_app, skipn_app, <- La, Nat.sub_diag, firstn_all, skipn_all. cbn [firstn skipn app]. rewrite app_nil_r, La. apply R. }
  split; [exact Hrow|].
  destruct (@c37_line__p b rk4 inc c vars params sv sp data x0 th0 th1 n H Hs Hi Hn) as (out' & E' & _ & _ & F).
  assert (out' = out) by congruence. subst out'. rewrite <- F at 1. apply Hrow. destruct b; simpl; lia.
Qed.

(** ** C40 *)
Lemma c40_numba_scan__p :
  forall (inc : increment) (c : coords) (vars params : list mobj)
         (sv sp : list (list nat)) (data : dict (arr R)) (x0 theta0 theta1 : list R) (n : nat),
  euler_input c vars params sv sp data x0 theta0 theta1 -> well_sized inc (total sv) (total sp) ->
  run_euler BNumba false inc vars params c theta1 n data = run_euler BScan false inc vars params c theta1 n data.
Proof.
  intros inc c vars params sv sp data x0 th0 th1 n H Hi.
  rewrite (@run_rows BNumba false inc c vars params sv sp data x0 th0 th1 n H eq_refl Hi).
  rewrite (@run_rows BScan false inc c vars params sv sp data x0 th0 th1 n H I Hi). reflexivity.
Qed.

Lemma c40_python_shifted__p :
  forall (use_rk4 : bool) (inc : increment) (c : coords) (vars params : list mobj)
         (sv sp : list (list nat)) (data : dict (arr R)) (x0 theta0 theta1 : list R) (n : nat),
  euler_input c vars params sv sp data x0 theta0 theta1 -> well_sized inc (total sv) (total sp) ->
  exists out1 out2, run_euler BScan use_rk4 inc vars params c theta1 n data = Ok out1 /\
    run_euler BJax use_rk4 inc vars params c theta1 n data = Ok out2 /\
    (use_rk4 = false -> run_euler BPytensor use_rk4 inc vars params c theta1 n data = Ok out2) /\
    row_of out1 0 = x0 ++ theta0 /\
    forall t, t < n -> row_of out2 t = row_of out1 (S t).
Proof.
  intros rk4 inc c vars params sv sp data x0 th0 th1 n H Hi.
  destruct (@run_row BScan rk4 inc c vars params sv sp data x0 th0 th1 n H I Hi) as (o1 & E1 & _ & R1).
  destruct (@run_row BJax rk4 inc c vars params sv sp data x0 th0 th1 n H I Hi) as (o2 & E2 & _ & R2).
  exists o1, o2. split; [exact E1|]. split; [exact E2|]. split.
  { intros ->. rewrite <- E2.
    rewrite (@run_rows BPytensor false inc c vars params sv sp data x0 th0 th1 n H eq_refl Hi).
    rewrite (@run_rows BJax false inc c vars params sv sp data x0 th0 th1 n H I Hi). reflexivity. }
  cbn [first_step] in *. split.
  - destruct (R1 0) as (A & _); [lia|]. exact A.
  - intros t Ht. destruct (R1 (S t)) as (A & _); [lia|]. destruct (R2 (S t)) as (B & _); [lia|].
    rewrite Nat.sub_0_r in A. replace (S t - 1) with t in B by lia. congruence.
Qed.

(** The label of a state is its position in the result: the python loop's
    labels are one less for every model. *)
Lemma c40_labels_refuted__p :
  forall (inc : increment) (c : coords) (vars params : list mobj)
         (sv sp : list (list nat)) (data : dict (arr R)) (x0 theta0 theta1 : list R) (n : nat),
  euler_input c vars params sv sp data x0 theta0 theta1 -> well_sized inc (total sv) (total sp) ->
  exists out1 out2, run_euler BNumba false inc vars params c theta1 n data = Ok out1 /\
    run_euler BPytensor false inc vars params c theta1 n data = Ok out2 /\
    (forall a, In a out1 -> hd 0 (ashape a) = S n) /\ (forall a, In a out2 -> hd 0 (ashape a) = n) /\ out1 <> out2.
Proof.
  intros inc c vars params sv sp data x0 th0 th1 n H Hi.
  destruct (@run_row BNumba false inc c vars params sv sp data x0 th0 th1 n H eq_refl Hi) as (o1 & E1 & S1 & _).
  destruct (@run_row BPytensor false inc c vars params sv sp data x0 th0 th1 n H eq_refl Hi) as (o2 & E2 & S2 & _).
  cbn [first_step] in *.
  assert (H1 : forall a, In a o1 -> hd 0 (ashape a) = S n).
  { intros a Ha. apply (in_map (@ashape R)) in Ha. rewrite S1 in Ha. apply in_map_iff in Ha as (s & <- & _). reflexivity. }
  assert (H2 : forall a, In a o2 -> hd 0 (ashape a) = n).
  { intros a Ha. apply (in_map (@ashape R)) in Ha. rewrite S2 in Ha. apply in_map_iff in Ha as (s & <- & _). simpl. lia. }
  exists o1, o2. repeat (split; auto). intros E. subst o2.
  assert (sv <> []). { pose proof (ei_vars H). pose proof (ei_sv H) as F. destruct sv; [inversion F; congruence|discriminate]. }
  destruct o1 as [|a o1]; [destruct sv; [congruence|discriminate]|].
  specialize (H1 a (or_introl eq_refl)). specialize (H2 a (or_introl eq_refl)). lia.
Qed.

(** A parameter called like another one with "_final" appended: the python loop
    raises, numba does not. *)
Lemma c40_keyword_clash_refuted__p :
  exists (c : coords) (vars params : list mobj) (data : dict (arr R)) (theta1 : list R),
    NoDup (map o_name (vars ++ params)) /\
    (forall o, In o (vars ++ params) -> exists a, dget (o_name o) data = Some a /\ fits c o a) /\
    forall (inc : increment) (n : nat), well_sized inc 1 2 ->
      (exists out, run_euler BNumba false inc vars params c theta1 (S n) data = Ok out) /\
      run_euler BPytensor false inc vars params c theta1 (S n) data = Err TypeError /\
      run_euler BJax false inc vars params c theta1 (S n) data = Err TypeError.
Proof.
  exists [], [exobj KVar "Y" []], [exobj KPar "a" []; exobj KPar "a_final" []].
  exists [("Y", mkArr [] [0%R]); ("a", mkArr [] [0%R]); ("a_final", mkArr [] [0%R])], [1%R; 1%R].
  split; [repeat constructor; simpl; intuition discriminate|]. split.
  { intros o [<-|[<-|[<-|[]]]]; eexists; (split; [reflexivity|]); split; reflexivity || constructor. }
  intros inc n Hi. split; [|split; reflexivity].
  eexists. apply (@numba_out [] [exobj KVar "Y" []] [exobj KPar "a" []; exobj KPar "a_final" []] [[]] [[]; []]
    [("Y", mkArr [] [0%R]); ("a", mkArr [] [0%R]); ("a_final", mkArr [] [0%R])] [0%R] [0%R; 0%R]); try reflexivity.
  - repeat constructor.
  - repeat constructor.
  - intros s [<-|[<-|[<-|[]]]]; discriminate.
  - exact Hi.
Qed.

(** The scan cannot be reached through the compiler. *)
Lemma c40_scan_unreachable__p :
  forall (A : Type) (f : A), scan_compiled f = Err TypeError.
Proof. reflexivity. Qed.

(** ** C42 *)
Lemma c42_constant_slope__p :
  forall (inc : increment) (x th d g : list R),
  length d = length th -> length g = length x ->
  (forall x' th', length x' = length x -> length th' = length th -> inc x' th' d = g) ->
  rk4_inc inc x th d = inc x th d.
Proof.
  intros inc x th d g Ld Lg H. rewrite (@rk4_constant inc x th d g H Lg Ld). symmetry. now apply H.
Qed.

(** One step along the line through [th] in direction [D], from position [s] to
    position [s + h]; the k-th variable follows the polynomial [nth k ps]. *)
Lemma c42_polynomial_path__p :
  forall (inc : increment) (ps : list (list R)) (th0 D : list R) (s h : R),
  length D = length th0 -> (forall p, In p ps -> length p <= 5) ->
  (forall x r, length x = length ps ->
     inc x (vadd th0 (vscale r D)) (vscale h D) = map (fun p => h * peval (pder p) r)%R ps) ->
  vadd (map (fun p => peval p s) ps) (rk4_inc inc (map (fun p => peval p s) ps) (vadd th0 (vscale s D)) (vscale h D))
  = map (fun p => peval p (s + h)) ps.
Proof.
  intros inc ps th0 D s h LD Hp H. unfold rk4_inc.
  assert (E : forall r q, vadd (vadd th0 (vscale r D)) (vscale q (vscale h D)) = vadd th0 (vscale (r + q * h) D)).
  { intros r q. apply list_ext. intros k. unfold vadd, vscale. rewrite !nth_vmap2, !nth_error_map.
    destruct (nth_error th0 k), (nth_error D k); cbn [option_map]; try reflexivity. f_equal. ring. }
  assert (E1 : vadd (vadd th0 (vscale s D)) (vscale h D) = vadd th0 (vscale (s + h) D)).
  { rewrite <- (vscale_one (vscale h D)), E. do 2 f_equal. ring. }
  rewrite !E, E1.
  set (x := map (fun p => peval p s) ps).
  assert (Lx : length x = length ps) by (unfold x; apply map_length).
  assert (LI : forall y r, length y = length ps -> length (inc y (vadd th0 (vscale r D)) (vscale h D)) = length ps).
  { intros y r Hy. rewrite H by auto. apply map_length. }
  assert (LV : forall y z, length y = length ps -> length z = length ps -> length (vadd y z) = length ps).
  { intros y z A B. rewrite vadd_length; congruence. }
  assert (LS : forall k y, length y = length ps -> length (vscale k y) = length ps).
  { intros k y A. now rewrite vscale_length. }
  rewrite (H x s) by auto.
  assert (L1 : length (vadd x (vscale (1 / 2) (map (fun p => h * peval (pder p) s)%R ps))) = length ps)
    by (apply LV; auto; apply LS; apply map_length).
  rewrite (H _ (s + 1 / 2 * h)%R L1).
  assert (L2 : length (vadd x (vscale (1 / 2) (map (fun p => h * peval (pder p) (s + 1 / 2 * h))%R ps))) = length ps)
    by (apply LV; auto; apply LS; apply map_length).
  rewrite (H _ (s + 1 / 2 * h)%R L2).
  assert (L3 : length (vadd x (map (fun p => h * peval (pder p) (s + 1 / 2 * h))%R ps)) = length ps)
    by (apply LV; auto; apply map_length).
  rewrite (H _ (s + h)%R L3).
  apply list_ext. intros k. unfold x, vadd, vscale. rewrite !nth_vmap2, !nth_error_map, !nth_vmap2, !nth_error_map.
  destruct (nth_error ps k) as [p|] eqn:Ep; [|reflexivity]. cbn [option_map]. f_equal.
  assert (Hl : length p <= 5) by (apply Hp; eapply nth_error_In; eauto).
  destruct p as [|a0 [|a1 [|a2 [|a3 [|a4 [|a5 p]]]]]]; simpl in Hl; try lia; simpl; field.
Qed.

(** Not for degree five. *)
Lemma c42_degree_five_refuted__p :
  exists inc : increment,
    (forall x r, inc x (vadd [0%R] (vscale r [1%R])) [1%R] = [1 * peval (pder [0; 0; 0; 0; 0; 1]) r]%R) /\
    vadd [0%R] (rk4_inc inc [0%R] [0%R] [1%R]) <> [1%R].
Proof.
  exists (fun x th d => match th with [r] => [5 * (r * r * r * r)]%R | _ => [] end). split.
  - intros x r. simpl. f_equal. ring.
  - intros E. unfold rk4_inc, vadd, vscale, vmap2 in E. cbn in E. injection E as E. lra.
Qed.

(** Along a whole run. *)
Lemma c42_polynomial_run__p :
  forall (b : backend) (inc : increment) (ps : list (list R)) (c : coords) (vars params : list mobj)
         (sv sp : list (list nat)) (data : dict (arr R)) (x0 theta0 theta1 : list R) (n : nat),
  euler_input c vars params sv sp data x0 theta0 theta1 -> supports b true ->
  well_sized inc (total sv) (total sp) -> 1 <= n ->
  length ps = total sv -> (forall p, In p ps -> length p <= 5) ->
  x0 = map (fun p => peval p 0) ps ->
  (forall x r h, length x = length ps ->
     inc x (vadd theta0 (vscale r (vsub theta1 theta0))) (vscale h (vsub theta1 theta0)) =
     map (fun p => h * peval (pder p) r)%R ps) ->
  exists out, run_euler b true inc vars params c theta1 n data = Ok out /\
    forall t, first_step b <= t <= n ->
      firstn (total sv) (row_of out (t - first_step b)) = map (fun p => peval p (INR t / INR n)) ps.
Proof.
  intros b inc ps c vars params sv sp data x0 th0 th1 n H Hs Hi Hn Lp Hp Hx0 HI.
  destruct (@run_row b true inc c vars params sv sp data x0 th0 th1 n H Hs Hi) as (out & E & _ & HR).
  exists out. split; [exact E|]. destruct (input_lengths H) as (Lx & Lt & _). pose proof (ei_final H) as L1.
  set (D := vsub th1 th0) in *. assert (LD : length D = length th0) by (unfold D; rewrite vsub_length; congruence).
  assert (Hn0 : INR n <> 0%R) by (apply not_0_INR; lia).
  assert (Ed : vdiv D n = vscale (1 / INR n) D).
  { unfold vdiv, vscale. apply map_ext. intros a. field. auto. }
  assert (P : forall t, path (step_inc true inc) (vdiv D n) x0 th0 t =
              (map (fun p => peval p (INR t / INR n)) ps, vadd th0 (vscale (INR t / INR n) D))).
  { induction t as [|t IH].
    - cbn [path INR]. f_equal.
      + rewrite Hx0. apply map_ext. intros p. f_equal. unfold Rdiv. ring.
      + apply list_ext. intros k. unfold vadd, vscale. rewrite nth_vmap2, nth_error_map.
        destruct (nth_error th0 k) eqn:E0; [|reflexivity].
        destruct (nth_error D k) eqn:E1; cbn [option_map].
        * f_equal. unfold Rdiv. ring.
        * apply nth_error_None in E1. assert (k < length th0) by (apply nth_error_Some; congruence). lia.
    - cbn [path]. rewrite IH. cbn [fst snd step_inc]. rewrite Ed.
      assert (Es : (INR (S t) / INR n = INR t / INR n + 1 / INR n)%R) by (rewrite S_INR; field; auto).
      rewrite Es. f_equal.
      + apply c42_polynomial_path__p; auto.
      + apply list_ext. intros k. unfold vadd, vscale. rewrite !nth_vmap2, !nth_error_map.
        destruct (nth_error th0 k), (nth_error D k); cbn [option_map]; try reflexivity. f_equal. ring. }
  intros t Ht. destruct (HR t Ht) as (Er & La & _). rewrite Er, firstn_app, <- La, firstn_all, Nat.sub_diag.
  cbn [firstn]. rewrite app_nil_r. now rewrite P.
Qed.

Lemma c42_combination__p :
  forall (inc : increment) (x th d k1 k2 k3 k4 : list R),
  k1 = inc x th d ->
  k2 = inc (vadd x (vscale (1 / 2) k1)) (vadd th (vscale (1 / 2) d)) d ->
  k3 = inc (vadd x (vscale (1 / 2) k2)) (vadd th (vscale (1 / 2) d)) d ->
  k4 = inc (vadd x k3) (vadd th d) d ->
  length k1 = length x -> length k2 = length x -> length k3 = length x -> length k4 = length x ->
  length (rk4_inc inc x th d) = length x /\
  forall j a1 a2 a3 a4, nth_error k1 j = Some a1 -> nth_error k2 j = Some a2 -> nth_error k3 j = Some a3 ->
    nth_error k4 j = Some a4 ->
    nth_error (rk4_inc inc x th d) j = Some ((a1 + 2 * a2 + 2 * a3 + a4) / 6)%R.
Proof.
  intros inc x th d k1 k2 k3 k4 E1 E2 E3 E4 L1 L2 L3 L4. unfold rk4_inc.
  rewrite <- E1, <- E2, <- E3, <- E4. split.
  - assert (A : length (vadd k1 (vscale 2 k2)) = length x) by (rewrite vadd_length; rewrite ?vscale_length; congruence).
    assert (B : length (vadd (vadd k1 (vscale 2 k2)) (vscale 2 k3)) = length x) by (rewrite vadd_length; rewrite ?vscale_length; congruence).
    rewrite map_length, vadd_length; congruence.
  - intros j a1 a2 a3 a4 A1 A2 A3 A4. unfold vadd, vscale. rewrite nth_error_map, !nth_vmap2, !nth_error_map.
    rewrite A1, A2, A3, A4. reflexivity.
Qed.

Lemma c42_refused__p :
  forall (b : backend) (inc : increment) (c : coords) (vars params : list mobj)
         (sv sp : list (list nat)) (data : dict (arr R)) (x0 theta0 theta1 : list R) (n : nat),
  euler_input c vars params sv sp data x0 theta0 theta1 -> b = BNumba \/ b = BPytensor ->
  run_euler b true inc vars params c theta1 n data = Err NotImplementedError.
Proof.
  intros b inc c vars params sv sp data x0 th0 th1 n H Hb.
  assert (Sv : map_res (infer_shape c) vars = Ok sv).
  { apply map_res_ok_Forall2. pose proof (ei_sv H) as F. clear -F. induction F; constructor; auto. now apply infer_shape_spec. }
  assert (Sp : map_res (infer_shape c) params = Ok sp).
  { apply map_res_ok_Forall2. pose proof (ei_sp H) as F. clear -F. induction F; constructor; auto. now apply infer_shape_spec. }
  unfold run_euler. rewrite Sv, Sp. cbn [bind]. now destruct Hb as [-> | ->].
Qed.
