(** Lemmas about the Euler approximations, continued (C37, C39, C40). *)
From Coq Require Import Reals Lra Permutation.
From Verif Require Import Py PyStr NdArray M_Primitives M_Utilities M_Wrappers M_Euler.
From Verif Require Import S_Layout L_Utilities L_Layout L_Wrappers L_Euler.
Local Open Scope string_scope.
Local Open Scope list_scope.

(** The trajectory cut into the objects *)
Definition cutarr (rows : list (list R)) (shapes : list (list nat)) (j : nat) (s : list nat) : arr R :=
  mkArr (length rows :: s) (List.concat (map (fun row => slice row (total (firstn j shapes)) (prodn s)) rows)).
Definition cutlist (rows : list (list R)) (shapes : list (list nat)) : list (arr R) :=
  map (fun js => cutarr rows shapes (fst js) (snd js)) (combine (seq 0 (length shapes)) shapes).

Lemma nth_combine_seq {A} (l : list A) : forall m j, nth_error (combine (seq m (length l)) l) j =
  match nth_error l j with Some a => Some (m + j, a) | None => None end.
Proof.
  induction l as [|a l IH]; intros m [|j]; simpl; auto.
  - now rewrite Nat.add_0_r.
  - rewrite IH. destruct (nth_error l j); auto. do 2 f_equal. lia.
Qed.

Lemma nth_cutlist rows shapes j : nth_error (cutlist rows shapes) j =
  match nth_error shapes j with Some s => Some (cutarr rows shapes j s) | None => None end.
Proof.
  unfold cutlist. rewrite nth_error_map, nth_combine_seq. now destruct (nth_error shapes j).
Qed.
Lemma cutlist_length rows shapes : length (cutlist rows shapes) = length shapes.
Proof. unfold cutlist. rewrite map_length, combine_length, seq_length. lia. Qed.

(** A cell of the cut trajectory *)
Lemma cut_cell rows shapes j s t row idx :
  (forall r, In r rows -> length r = total shapes) -> nth_error shapes j = Some s ->
  nth_error rows t = Some row -> in_range s idx ->
  exists v, aget (cutarr rows shapes j s) (t :: idx) = Ok v /\
            nth_error row (total (firstn j shapes) + offset s idx) = Some v.
Proof.
  intros Hr Hj Ht Hi. pose proof (total_firstn_nth _ _ Hj) as Hle. pose proof (offset_lt Hi) as Ho.
  assert (Hlt : t < length rows) by (apply nth_error_Some; congruence).
  assert (Hv' : exists v, nth_error row (total (firstn j shapes) + offset s idx) = Some v).
  { destruct (nth_error row _) eqn:G; eauto. apply nth_error_None in G. rewrite (Hr row (nth_error_In _ _ Ht)) in G. lia. }
  destruct Hv' as (val & Hval). exists val. split; [|exact Hval].
  unfold aget, cutarr. cbn [ashape adata].
  assert (R0 : in_rangeb (length rows :: s) (t :: idx) = true) by (apply in_rangeb_spec; constructor; auto).
  rewrite R0. cbn [offset]. fold (prodn s).
  rewrite (@nth_concat_slices R rows _ (prodn s) (total shapes)); auto.
  rewrite Ht, Hval. reflexivity.
Qed.

Lemma numba_out c vars params sv sp data x0 th0 tf n inc :
  Forall2 (has_shape c) vars sv -> Forall2 (has_shape c) params sp ->
  (forall s, In s (sv ++ sp) -> prodn s <> 0) ->
  variable_dict_to_flat_array data vars params = Ok (x0, th0) ->
  length x0 = total sv -> length th0 = total sp -> length tf = total sp ->
  sized inc (total sv) (total sp) ->
  wrap_numba_euler_function (fun x t tf n => Ok (euler_approx (numba_f_step inc (total sv)) x t tf n)) vars params c tf n data =
  Ok (cutlist (rows_of inc (vdiv (vsub tf th0) n) x0 th0 n) (sv ++ sp)).
Proof.
  intros Hv Hp Hz Hd Lx Lt Lf Hi. pose proof (Forall2_app Hv Hp) as HF.
  unfold variable_dict_to_flat_array in Hd. apply bind_ok in Hd as (v & Hd1 & Hd). apply bind_ok in Hd as (p & Hd2 & Hd).
  injection Hd as -> ->. unfold wrap_numba_euler_function. rewrite Hd1, Hd2. cbn [bind].
  rewrite (@numba_rows inc (total sv) (total sp)) by auto.
  assert (Hs : map_res (infer_shape c) (vars ++ params) = Ok (sv ++ sp)).
  { apply map_res_ok_Forall2. clear -HF. induction HF; constructor; auto. now apply infer_shape_spec. }
  rewrite Hs. cbn [bind].
  set (d := vdiv (vsub tf th0) n). set (rows := rows_of inc d x0 th0 n).
  assert (Hr : forall row, In row rows -> length row = total (sv ++ sp)).
  { intros row Hin. unfold rows, rows_of in Hin. apply in_map_iff in Hin as (t & <- & _).
    assert (Ld : length d = total sp) by (unfold d; rewrite vdiv_length, vsub_length; congruence).
    destruct (path_length _ _ _ Hi Lx Lt Ld t) as (A & B). rewrite app_length, total_app. lia. }
  destruct (@cut_loop_ok R rows (total (sv ++ sp)) (sv ++ sp) 0 Hr (Nat.le_refl _) Hz) as (out & E & L & HN).
  rewrite E. f_equal. apply list_ext. intros j. rewrite nth_cutlist.
  destruct (nth_error (sv ++ sp) j) as [s|] eqn:Ej; [exact (HN j s Ej)|].
  apply nth_error_None. apply nth_error_None in Ej. lia.
Qed.

Lemma rows_length inc d x0 th0 n nv np :
  sized inc nv np -> length x0 = nv -> length th0 = np -> length d = np ->
  forall row, In row (rows_of inc d x0 th0 n) -> length row = nv + np.
Proof.
  intros H Hx Ht Hd row Hin. unfold rows_of in Hin. apply in_map_iff in Hin as (t & <- & _).
  destruct (path_length _ _ _ H Hx Ht Hd t). rewrite app_length. lia.
Qed.

(** ** The python loop *)
Lemma own_arrays {V} (c : coords) objs shapes (data : dict (arr V)) x :
  Forall2 (has_shape c) objs shapes ->
  (forall o, In o objs -> exists a, dget (o_name o) data = Some a /\ fits c o a) ->
  concat_named data objs = Ok x ->
  length x = total shapes /\ Forall2 (fun o a => dget (o_name o) data = Some a) objs (chop shapes x).
Proof.
  intros HF H E. apply concat_named_inv in E as (_ & as_ & HA & ->).
  assert (FF : Forall2 (fits c) objs as_).
  { clear -HA H. induction HA as [|o a objs as_ Ho HA IH]; constructor.
    - destruct (H o (or_introl eq_refl)) as (a' & Ha & F). congruence.
    - apply IH. intros; apply H; simpl; auto. }
  assert (Es : map (@ashape V) as_ = shapes).
  { clear -FF HF. revert shapes HF. induction FF as [|o a objs as_ (W & S) FF IH]; intros shapes HF; inversion HF; subst; [reflexivity|].
    simpl. f_equal; [eapply has_shape_fun; eauto|auto]. }
  assert (Wf : Forall (fun a => arr_wf a) as_).
  { clear -FF. induction FF as [|o a params as_ (W & S) FF IH]; constructor; auto. }
  subst shapes. split; [now apply total_arrays|]. now rewrite chop_arrays.
Qed.

Lemma pieces_filter (c : coords) objs shapes (data : dict (arr R)) x :
  NoDup (map o_name objs) -> NoDup (dkeys data) ->
  Forall2 (fun o a => dget (o_name o) data = Some a) objs (chop shapes x) ->
  pieces (map o_name objs) shapes x (filter (fun kv => mem_str (fst kv) (map o_name objs)) data).
Proof.
  intros Hn Hd HF. unfold pieces. generalize dependent (chop shapes x). intros l HF.
  assert (Ll : length (map o_name objs) = length l) by (rewrite map_length; apply (Forall2_length_ HF)).
  apply NoDup_Permutation.
  - apply NoDup_filter. eapply NoDup_map_inv. exact Hd.
  - eapply NoDup_map_inv. rewrite map_fst_combine; [exact Hn|exact Ll].
  - intros [k a]. rewrite filter_In. cbn [fst]. rewrite mem_str_In. split.
    + intros (Hin & Hk). apply in_map_iff in Hk as (o & <- & Ho).
      apply (@dget_In_NoDup _ _ _ _ Hd) in Hin.
      clear -HF Ho Hin. induction HF as [|o' a' objs l H HF IH]; [destruct Ho|]. simpl.
      destruct Ho as [->|Ho]; [left; congruence|right; auto].
    + intros Hin. split.
      * apply dget_In. clear -HF Hin. induction HF as [|o' a' objs l H HF IH]; [destruct Hin|].
        simpl in Hin. destruct Hin as [E|Hin]; [injection E as <- <-; auto|auto].
      * eapply in_combine_l. exact Hin.
Qed.

Lemma collect_rows names shapes n xs j name s :
  NoDup names -> length names = length shapes -> length xs = n ->
  (forall x, In x xs -> length x = total shapes) ->
  nth_error names j = Some name -> nth_error shapes j = Some s ->
  collect (map (fun x => combine names (chop shapes x)) xs) n s name = Ok (cutarr xs shapes j s).
Proof.
  intros Hn Hl Hx Hlen Hj Hs. unfold collect, cutarr. subst n.
  assert (E : map_res (fun st => let* a := dgetitem name st in
                       if list_eq_dec Nat.eq_dec (ashape a) s then Ok (adata a) else Err ValueError)
                (map (fun x => combine names (chop shapes x)) xs) =
              Ok (map (fun row => slice row (total (firstn j shapes)) (prodn s)) xs)).
  { induction xs as [|x xs IH]; [reflexivity|]. cbn [map map_res].
    assert (G : dget name (combine names (chop shapes x)) = Some (mkArr s (slice x (total (firstn j shapes)) (prodn s)))).
    { eapply (@dget_nth_NoDup _ _ _ j); [exact Hn|exact Hj|]. apply nth_chop; auto. apply Hlen. now left. }
    unfold dgetitem at 1. rewrite G. cbn [bind ashape adata].
    destruct (list_eq_dec Nat.eq_dec s s); [|congruence]. cbn [bind].
    rewrite IH by (intros; apply Hlen; now right). reflexivity. }
  rewrite E. reflexivity.
Qed.

Lemma map_res_collect names shapes n xs :
  NoDup names -> length names = length shapes -> length xs = n ->
  (forall x, In x xs -> length x = total shapes) ->
  map_res (fun ks => collect (map (fun x => combine names (chop shapes x)) xs) n (snd ks) (fst ks)) (combine names shapes) =
  Ok (cutlist xs shapes).
Proof.
  intros Hn Hl Hx Hlen.
  assert (E : map_res (fun ks => collect (map (fun x => combine names (chop shapes x)) xs) n (snd ks) (fst ks)) (combine names shapes) =
              Ok (map (fun js => cutarr xs shapes (fst js) (snd js)) (combine (seq 0 (length shapes)) shapes))); [|exact E].
  apply map_res_ok_Forall2. apply in_combine_Forall2.
  assert (Lc : length (combine names shapes) = length (combine (seq 0 (length shapes)) shapes))
    by (rewrite !combine_length, seq_length; lia).
  split; [now rewrite map_length|].
  intros ks a Hin. apply In_nth_error in Hin as (j & Hj).
  assert (A : nth_error (combine names shapes) j = Some ks /\
              nth_error (map (fun js => cutarr xs shapes (fst js) (snd js)) (combine (seq 0 (length shapes)) shapes)) j = Some a).
  { clear -Hj. revert Hj. generalize (combine names shapes) as l1, (map (fun js => cutarr xs shapes (fst js) (snd js)) (combine (seq 0 (length shapes)) shapes)) as l2.
    revert j. induction j as [|j IH]; intros [|? l1] [|? l2] H; simpl in *; try discriminate; [injection H as -> ->|]; auto. }
  destruct A as (A & B). rewrite nth_error_map, nth_combine_seq in B.
  destruct (nth_error shapes j) as [s|] eqn:Es; [|discriminate]. injection B as <-. cbn [fst snd plus].
  destruct ks as [k s'].
  assert (C : nth_error names j = Some k /\ s' = s).
  { clear -A Es. revert names shapes A Es. induction j as [|j IH]; intros [|? l1] [|? l2] A Es; simpl in *; try discriminate.
    - split; congruence.
    - eauto. }
  destruct C as (C & ->). cbn [fst snd]. apply collect_rows; auto.
Qed.

Lemma in_keyword_nodup vn pn : NoDup (keyword_names vn pn) -> NoDup (vn ++ pn).
Proof.
  unfold keyword_names. intros H. inversion H as [|? ? _ H']; subst. rewrite app_assoc in H'.
  now apply NoDup_app_inv in H'.
Qed.

Lemma python_out c vars params sv sp data x0 th0 tf n inc f :
  vars <> [] -> params <> [] ->
  NoDup (keyword_names (map o_name vars) (map o_name params)) -> NoDup (dkeys data) ->
  Forall2 (has_shape c) vars sv -> Forall2 (has_shape c) params sp ->
  (forall o, In o (vars ++ params) -> exists a, dget (o_name o) data = Some a /\ fits c o a) ->
  variable_dict_to_flat_array data vars params = Ok (x0, th0) -> length tf = total sp ->
  sized inc (total sv) (total sp) ->
  step_ok (map o_name vars) (map o_name params) sv sp n f inc ->
  python_euler f vars params c tf n data =
  Ok (cutlist (tl (rows_of inc (vdiv (vsub tf th0) n) x0 th0 n)) (sv ++ sp)) /\
  length x0 = total sv /\ length th0 = total sp.
Proof.
  intros Hv0 Hp0 Hn Hnd Hv Hp Hfit Hd Lf Hi Hf.
  unfold variable_dict_to_flat_array in Hd. apply bind_ok in Hd as (v & Hd1 & Hd). apply bind_ok in Hd as (p & Hd2 & Hd).
  injection Hd as -> ->.
  destruct (@own_arrays R c vars sv data x0 Hv (fun o Ho => Hfit o (in_or_app _ _ _ (or_introl Ho))) Hd1) as (Lx & Ax).
  destruct (@own_arrays R c params sp data th0 Hp (fun o Ho => Hfit o (in_or_app _ _ _ (or_intror Ho))) Hd2) as (Lt & At).
  split; [|auto].
  pose proof (@in_keyword_nodup _ _ Hn) as Hnd2. destruct (NoDup_app_inv _ _ Hnd2) as (Hnv & Hnp & _).
  pose proof (@pieces_filter c vars sv data x0 Hnv Hnd Ax) as Pv. pose proof (@pieces_filter c params sp data th0 Hnp Hnd At) as Pp.
  assert (Lv : length (map o_name vars) = length sv) by (rewrite map_length; apply (Forall2_length_ Hv)).
  assert (Lp : length (map o_name params) = length sp) by (rewrite map_length; apply (Forall2_length_ Hp)).
  unfold python_euler. rewrite (@decoded_blocks R c params sp tf Hnp Hp Lf). cbn [bind].
  assert (Hkw := Hn). unfold keyword_names in Hkw. inversion Hkw as [|? ? _ Hkw']; subst.
  apply NoDup_app_inv in Hkw' as (_ & Hkw' & _). apply NoDup_app_inv in Hkw' as (_ & Hkw' & _).
  apply NoDup_app_inv in Hkw' as (Hnf & Hni & _).
  assert (Pf : pieces (map final_name (map o_name params)) sp tf
     (dict_of_list (map (fun kv => (final_name (fst kv), snd kv)) (combine (map o_name params) (chop sp tf))))).
  { assert (P : pieces (map final_name (map o_name params)) sp tf (map (fun kv => (final_name (fst kv), snd kv)) (combine (map o_name params) (chop sp tf))))
      by (apply map_key_pieces; [exact Lp|apply Permutation_refl]).
    rewrite dict_of_list_NoDup; [exact P|].
    eapply Permutation_NoDup; [symmetry; eapply pieces_keys; [|exact P]; now rewrite map_length|exact Hnf]. }
  assert (Pi : pieces (map initial_name (map o_name params)) sp th0
     (dict_of_list (map (fun kv => (initial_name (fst kv), snd kv)) (filter (fun kv => mem_str (fst kv) (map o_name params)) data)))).
  { assert (P := @map_key_pieces initial_name (map o_name params) sp th0 _ Lp Pp).
    rewrite dict_of_list_NoDup; [exact P|].
    eapply Permutation_NoDup; [symmetry; eapply pieces_keys; [|exact P]; now rewrite map_length|exact Hni]. }
  assert (Es : map_res (fun k => let* a := dgetitem k data in Ok (ashape a)) (map o_name vars ++ map o_name params) = Ok (sv ++ sp)).
  { apply map_res_ok_Forall2. apply Forall2_app.
    - rewrite <- (chop_shapes sv x0). clear -Ax. induction Ax as [|o a objs l H HF IH]; constructor; auto.
      unfold dgetitem. now rewrite H.
    - rewrite <- (chop_shapes sp th0). clear -At. induction At as [|o a objs l H HF IH]; constructor; auto.
      unfold dgetitem. now rewrite H. }
  rewrite Es. cbn [bind].
  rewrite (py_loop_path Lv Lp Hn Hi Hf Lt Lf Pf Pi n Lx Lt Pp Pv). cbn [bind].
  set (d := vdiv (vsub tf th0) n).
  assert (Ld : length d = total sp) by (unfold d; rewrite vdiv_length, vsub_length; congruence).
  set (xs := map (fun t => fst (path inc d x0 th0 (S t)) ++ snd (path inc d x0 th0 (S t))) (seq 0 n)).
  assert (E1 : tl (rows_of inc d x0 th0 n) = xs).
  { unfold rows_of, xs. change (seq 0 (S n)) with (0 :: seq 1 n). cbn [map tl]. rewrite <- seq_shift, map_map. reflexivity. }
  rewrite E1.
  assert (E2 : map (fun t => combine (map o_name vars) (chop sv (fst (path inc d x0 th0 (S t)))) ++
                             combine (map o_name params) (chop sp (snd (path inc d x0 th0 (S t))))) (seq 0 n) =
               map (fun x => combine (map o_name vars ++ map o_name params) (chop (sv ++ sp) x)) xs).
  { unfold xs. rewrite map_map. apply map_ext. intros t. destruct (path_length _ _ _ Hi Lx Lt Ld (S t)) as (A & B).
    rewrite chop_app' by auto. rewrite combine_app; auto. now rewrite chop_length. }
  rewrite E2. apply map_res_collect; auto.
  - rewrite !app_length. lia.
  - unfold xs. now rewrite map_length, seq_length.
  - intros x Hin. unfold xs in Hin. apply in_map_iff in Hin as (t & <- & _).
    destruct (path_length _ _ _ Hi Lx Lt Ld (S t)) as (A & B). rewrite app_length, total_app. lia.
Qed.

(** ** The scan *)
Lemma vmap2_one a b : vmap2 (fun u v => u + 1 * v)%R a b = vadd a b.
Proof. unfold vadd, vmap2. apply map_ext. intros p. lra. Qed.
Lemma vmap2_scale k a b : vmap2 (fun u v => u + k * v)%R a b = vadd a (vscale k b).
Proof.
  apply list_ext. intros j. unfold vadd, vscale. rewrite !nth_vmap2, nth_error_map.
  destruct (nth_error a j), (nth_error b j); reflexivity.
Qed.

Lemma aplus_chop k shapes a b : aplus k (chop shapes a) (chop shapes b) = chop shapes (vadd a (vscale k b)).
Proof. unfold aplus. now rewrite amap2_chop, vmap2_scale. Qed.
Lemma aplus_chop1 shapes a b : aplus 1 (chop shapes a) (chop shapes b) = chop shapes (vadd a b).
Proof. unfold aplus. now rewrite amap2_chop, vmap2_one. Qed.

Lemma vscale_one a : vscale 1 a = a.
Proof. unfold vscale. rewrite <- (map_id a) at 2. apply map_ext. intros; lra. Qed.

Lemma scan_step_ok b inc sv sp t0 tf n x th :
  sv <> [] -> sp <> [] -> sized inc (total sv) (total sp) ->
  length x = total sv -> length th = total sp -> length t0 = total sp -> length tf = total sp ->
  let d := vdiv (vsub tf t0) n in
  scan_step b inc sv sp t0 tf n (chop sv x) (chop sp th) =
  Ok (chop sv (vadd x (step_inc b inc x th d)), chop sp (vadd th d)).
Proof.
  intros Hsv Hsp Hi Lx Lt L0 L1 d. unfold scan_step. fold d.
  assert (Ld : length d = total sp) by (unfold d; rewrite vdiv_length, vsub_length; congruence).
  rewrite (ragged_chop0 sp d Ld). cbn [bind].
  assert (F : forall y u, length y = total sv -> length u = total sp ->
     scan_f_step inc sv d (chop sv y) (chop sp u) = Ok (chop sv (inc y u d))).
  { intros y u Ly Lu. unfold scan_f_step. rewrite !concat_arrays_chop by auto. cbn [bind]. apply ragged_chop0. now apply Hi. }
  destruct b; cbn [step_inc].
  - unfold rk4_inc. rewrite (F x th Lx Lt). cbn [bind]. rewrite !aplus_chop, ?vscale_one.
    assert (E1 : length (inc x th d) = total sv) by auto. set (dx1 := inc x th d) in *.
    assert (Lh : length (vadd th (vscale (1 / 2) d)) = total sp) by (rewrite vadd_length; rewrite ?vscale_length; congruence).
    rewrite F; auto. 2:{ rewrite vadd_length; rewrite ?vscale_length; congruence. }
    cbn [bind].
    assert (E2 : length (inc (vadd x (vscale (1 / 2) dx1)) (vadd th (vscale (1 / 2) d)) d) = total sv)
      by (apply Hi; auto; rewrite vadd_length; rewrite ?vscale_length; congruence).
    set (dx2 := inc (vadd x (vscale (1 / 2) dx1)) _ d) in *.
    rewrite !aplus_chop, ?vscale_one. rewrite F; auto. 2:{ rewrite vadd_length; rewrite ?vscale_length; congruence. }
    cbn [bind].
    assert (E3 : length (inc (vadd x (vscale (1 / 2) dx2)) (vadd th (vscale (1 / 2) d)) d) = total sv)
      by (apply Hi; auto; rewrite vadd_length; rewrite ?vscale_length; congruence).
    set (dx3 := inc (vadd x (vscale (1 / 2) dx2)) _ d) in *.
    rewrite !aplus_chop, ?vscale_one.
    assert (La : length (vadd x dx3) = total sv) by (rewrite vadd_length; congruence).
    assert (Lb : length (vadd th d) = total sp) by (rewrite vadd_length; congruence).
    rewrite (F _ _ La Lb).
    cbn [bind]. rewrite !aplus_chop, ?vscale_one, amap_chop, !aplus_chop, ?vscale_one. reflexivity.
  - rewrite (F x th Lx Lt). cbn [bind]. now rewrite !aplus_chop, ?vscale_one.
Qed.

Lemma scan_loop_ok b inc sv sp t0 tf n :
  sv <> [] -> sp <> [] -> sized inc (total sv) (total sp) -> length t0 = total sp -> length tf = total sp ->
  let d := vdiv (vsub tf t0) n in
  forall k x th, length x = total sv -> length th = total sp ->
  scan_loop (scan_step b inc sv sp t0 tf n) k (chop sv x) (chop sp th) =
  Ok (map (fun t => chop (sv ++ sp) (fst (path (step_inc b inc) d x th (S t)) ++ snd (path (step_inc b inc) d x th (S t)))) (seq 0 k)).
Proof.
  intros Hsv Hsp Hi L0 L1 d. induction k as [|k IH]; intros x th Lx Lt; [reflexivity|].
  assert (Ld : length d = total sp) by (unfold d; rewrite vdiv_length, vsub_length; congruence).
  pose proof (sized_step b Hi) as Hi'.
  cbn [scan_loop]. rewrite scan_step_ok by auto. cbn [bind fst snd]. fold d.
  assert (Lx' : length (vadd x (step_inc b inc x th d)) = total sv) by (rewrite vadd_length; auto; rewrite (Hi' _ _ _ Lx Lt Ld); auto).
  assert (Lt' : length (vadd th d) = total sp) by (rewrite vadd_length; congruence).
  rewrite IH by auto. cbn [bind]. change (seq 0 (S k)) with (0 :: seq 1 k). cbn [map]. do 2 f_equal.
  - cbn [path fst snd]. now rewrite chop_app' by auto.
  - rewrite <- seq_shift, map_map. apply map_ext. intros t. now rewrite <- (path_shift (step_inc b inc) d x th (S t)).
Qed.

Lemma scan_out b inc xs ths tf n :
  xs <> [] -> ths <> [] -> Forall (fun a => arr_wf a) (xs ++ ths) ->
  let sv := map (@ashape R) xs in let sp := map (@ashape R) ths in
  let x0 := List.concat (map (@adata R) xs) in let th0 := List.concat (map (@adata R) ths) in
  sized inc (total sv) (total sp) -> length tf = total sp ->
  scan_euler b inc xs ths tf n = Ok (cutlist (rows_of (step_inc b inc) (vdiv (vsub tf th0) n) x0 th0 n) (sv ++ sp)).
Proof.
  intros Hx Ht Hw sv sp x0 th0 Hi Lf. apply Forall_app in Hw as (Wx & Wt).
  assert (Lx : length x0 = total sv) by (now apply total_arrays).
  assert (Lt : length th0 = total sp) by (now apply total_arrays).
  assert (Cx : chop sv x0 = xs) by (now apply chop_arrays).
  assert (Ct : chop sp th0 = ths) by (now apply chop_arrays).
  assert (Hsv : sv <> []) by (unfold sv; destruct xs; [congruence|discriminate]).
  assert (Hsp : sp <> []) by (unfold sp; destruct ths; [congruence|discriminate]).
  pose proof (sized_step b Hi) as Hi'.
  unfold scan_euler. fold sv sp. rewrite <- Ct at 1. rewrite concat_arrays_chop by auto. cbn [bind].
  rewrite <- Cx at 1. rewrite <- Ct at 1. rewrite scan_loop_ok by auto. cbn [bind].
  set (d := vdiv (vsub tf th0) n). set (inc' := step_inc b inc) in *.
  assert (Ld : length d = total sp) by (unfold d; rewrite vdiv_length, vsub_length; congruence).
  set (rows := rows_of inc' d x0 th0 n).
  assert (LR : length rows = S n) by (unfold rows, rows_of; now rewrite map_length, seq_length).
  assert (HR : forall row, In row rows -> length row = total (sv ++ sp)).
  { intros row Hin. rewrite total_app. exact (@rows_length inc' d x0 th0 n _ _ Hi' Lx Lt Ld row Hin). }
  assert (ER : rows = (x0 ++ th0) :: map (fun t => fst (path inc' d x0 th0 (S t)) ++ snd (path inc' d x0 th0 (S t))) (seq 0 n)).
  { unfold rows, rows_of. change (seq 0 (S n)) with (0 :: seq 1 n). cbn [map]. rewrite <- (seq_shift n 0), map_map. reflexivity. }
  assert (G : map_res (fun ix =>
             let* rows := map_res (fun st => match nth_error st (fst ix) with Some a => Ok (adata a) | None => Err IndexError end)
                (map (fun t => chop (sv ++ sp) (fst (path inc' d x0 th0 (S t)) ++ snd (path inc' d x0 th0 (S t)))) (seq 0 n)) in
             Ok (mkArr (S n :: ashape (snd ix)) (adata (snd ix) ++ List.concat rows)))
          (combine (seq 0 (length (xs ++ ths))) (xs ++ ths)) =
     Ok (map (fun js => cutarr rows (sv ++ sp) (fst js) (snd js)) (combine (seq 0 (length (sv ++ sp))) (sv ++ sp)))); [|exact G].
  apply map_res_ok_Forall2. apply in_combine_Forall2.
  assert (Ls : length (sv ++ sp) = length (xs ++ ths)) by (unfold sv, sp; now rewrite !app_length, !map_length).
  split; [rewrite map_length, !combine_length, !seq_length; lia|].
  intros ix a Hin. apply In_nth_error in Hin as (j & Hj).
  assert (A : nth_error (combine (seq 0 (length (xs ++ ths))) (xs ++ ths)) j = Some ix /\
              nth_error (map (fun js => cutarr rows (sv ++ sp) (fst js) (snd js)) (combine (seq 0 (length (sv ++ sp))) (sv ++ sp))) j = Some a).
  { clear -Hj. revert Hj. generalize (combine (seq 0 (length (xs ++ ths))) (xs ++ ths)) as l1, (map (fun js => cutarr rows (sv ++ sp) (fst js) (snd js)) (combine (seq 0 (length (sv ++ sp))) (sv ++ sp))) as l2.
    revert j. induction j as [|j IH]; intros [|? l1] [|? l2] H; simpl in *; try discriminate; [injection H as -> ->|]; auto. }
  destruct A as (A & B). rewrite nth_combine_seq in A. rewrite nth_error_map, nth_combine_seq in B.
  destruct (nth_error (xs ++ ths) j) as [a0|] eqn:Ea; [|discriminate]. injection A as <-.
  destruct (nth_error (sv ++ sp) j) as [s|] eqn:Es; [|discriminate]. injection B as <-. cbn [fst snd plus].
  assert (E : chop (sv ++ sp) (x0 ++ th0) = xs ++ ths) by (rewrite chop_app' by auto; congruence).
  assert (La : length (x0 ++ th0) = total (sv ++ sp)) by (rewrite app_length, total_app; lia).
  pose proof (@nth_chop R (sv ++ sp) (x0 ++ th0) j s Es La) as NC. rewrite E, Ea in NC. injection NC as ->.
  cbn [ashape adata].
  assert (M : map_res (fun st => match nth_error st j with Some a => Ok (adata a) | None => Err IndexError end)
                (map (fun t => chop (sv ++ sp) (fst (path inc' d x0 th0 (S t)) ++ snd (path inc' d x0 th0 (S t)))) (seq 0 n)) =
              Ok (map (fun row => slice row (total (firstn j (sv ++ sp))) (prodn s))
                  (map (fun t => fst (path inc' d x0 th0 (S t)) ++ snd (path inc' d x0 th0 (S t))) (seq 0 n)))).
  { rewrite map_map. clear -Hi' Lx Lt Ld Es. generalize (seq 0 n) as l. induction l as [|t l IH]; [reflexivity|]. cbn [map map_res].
    destruct (path_length _ _ _ Hi' Lx Lt Ld (S t)) as (P & Q).
    rewrite (@nth_chop R (sv ++ sp) _ j s Es) by (rewrite app_length, total_app; lia). cbn [bind adata].
    rewrite IH. reflexivity. }
  rewrite M. cbn [bind]. unfold cutarr. rewrite LR, ER. reflexivity.
Qed.
