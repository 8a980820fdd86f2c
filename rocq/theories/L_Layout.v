(** Proofs of C01-C04. *)
From Verif Require Import Py PyStr NdArray M_Primitives M_Utilities S_Layout L_Utilities.

(** C01 *)
Lemma c01_pack_unpack__p :
  forall {V : Type} (c : coords) (vars params : list mobj) (d : dict (arr V)),
  vars <> [] -> params <> [] ->
  NoDup (map o_name (vars ++ params)) ->
  (forall o, In o (vars ++ params) -> exists a, dget (o_name o) d = Some a /\ fits c o a) ->
  exists v p d',
    variable_dict_to_flat_array d vars params = Ok (v, p) /\
    flat_array_to_variable_dict (v ++ p) (vars ++ params) c = Ok d' /\
    dkeys d' = map o_name (vars ++ params) /\
    (forall o, In o (vars ++ params) -> dget (o_name o) d' = dget (o_name o) d).
Proof.
  intros V c vars params d.
  intros Hv Hp Hnd Hd.
  destruct (@lookup_arrays V d (vars ++ params)) as (as_ & HF).
  { intros o Ho. destruct (Hd o Ho) as (a & Ha & _). eauto. }
  assert (HO : arrays_ok c (vars ++ params) as_).
  { unfold arrays_ok. rewrite in_combine_Forall2 in *. destruct HF as (Hl & HF). split; auto.
    intros o a Hin. destruct (Hd o) as (a' & Ha' & Hfit).
    - eapply in_combine_l; eauto.
    - apply HF in Hin. rewrite Hin in Ha'. inversion Ha'; subst. exact Hfit. }
  pose proof HF as HF0.
  apply Forall2_app_inv_l in HF as (av & ap & HFv & HFp & ->).
  exists (List.concat (map (@adata V) av)), (List.concat (map (@adata V) ap)).
  exists (dict_of_list (combine (map o_name (vars ++ params)) (av ++ ap))).
  repeat split.
  - unfold variable_dict_to_flat_array.
    rewrite (@concat_named_ok V d _ _ Hv HFv), (@concat_named_ok V d _ _ Hp HFp). reflexivity.
  - assert (E := @unpack_loop_concat V c _ _ [] [] [] HO). simpl in E.
    rewrite app_nil_r, map_app, concat_app in E. exact E.
  - rewrite dict_of_list_NoDup; [|rewrite (combine_fst_Forall2 _ HF0); exact Hnd].
    unfold dkeys. now rewrite (combine_fst_Forall2 _ HF0).
  - intros o Ho.
    rewrite dict_of_list_NoDup; [|rewrite (combine_fst_Forall2 _ HF0); exact Hnd].
    apply In_nth_error in Ho as (j & Hj).
    assert (Hja : exists a, nth_error (av ++ ap) j = Some a).
    { destruct (nth_error (av ++ ap) j) eqn:E; eauto.
      apply nth_error_None in E. apply Forall2_length_ in HF0.
      assert (j < length (vars ++ params)) by (apply nth_error_Some; congruence). lia. }
    destruct Hja as (a & Hja).
    assert (Hin : In (o, a) (combine (vars ++ params) (av ++ ap))).
    { clear -Hj Hja. revert j Hj Hja. generalize (av ++ ap).
      induction (vars ++ params); intros l' j Hj Hja; destruct j; simpl in *; try discriminate.
      - destruct l'; simpl in *; [discriminate|]. inversion Hj; inversion Hja; subst; auto.
      - destruct l'; simpl in *; [discriminate|]. right; eauto. }
    rewrite (@dget_combine_names V _ _ _ _ Hnd Hin).
    apply in_combine_Forall2 in HF0 as (_ & HF0). symmetry. now apply HF0.
Qed.

(** Only the entries of the listed objects are read. *)
Lemma c01_other_entries_irrelevant__p :
  forall {V : Type} (vars params : list mobj) (d1 d2 : dict (arr V)),
  (forall o, In o (vars ++ params) -> dget (o_name o) d1 = dget (o_name o) d2) ->
  variable_dict_to_flat_array d1 vars params = variable_dict_to_flat_array d2 vars params.
Proof.
  intros V vars params d1 d2.
  intros H. unfold variable_dict_to_flat_array, concat_named.
  rewrite (@map_res_ext _ _ _ (fun o => let* a := dgetitem (o_name o) d2 in Ok (ravel a)) vars).
  2:{ intros o Ho. unfold dgetitem. rewrite H; auto. apply in_or_app; auto. }
  rewrite (@map_res_ext _ _ _ (fun o => let* a := dgetitem (o_name o) d2 in Ok (ravel a)) params).
  2:{ intros o Ho. unfold dgetitem. rewrite H; auto. apply in_or_app; auto. }
  reflexivity.
Qed.

(** The non-emptiness hypotheses of C01 are needed: a model without
    parameters cannot be flattened, whatever the data. *)
Lemma c01_no_parameters_refuted__p :
  forall {V : Type} (vars : list mobj) (d : dict (arr V)),
  exists e, variable_dict_to_flat_array d vars [] = Err e.
Proof.
  intros V vars d.
  unfold variable_dict_to_flat_array. destruct (concat_named d vars); simpl; eauto.
Qed.

(** C02 *)
Lemma c02_unpack_pack__p :
  forall {V : Type} (c : coords) (vars params : list mobj) (sv sp : list (list nat)) (x : list V),
  vars <> [] -> params <> [] ->
  NoDup (map o_name (vars ++ params)) ->
  Forall2 (has_shape c) vars sv -> Forall2 (has_shape c) params sp ->
  length x = total sv + total sp ->
  exists d v p,
    flat_array_to_variable_dict x (vars ++ params) c = Ok d /\
    dkeys d = map o_name (vars ++ params) /\
    (forall o, In o (vars ++ params) -> exists a, dget (o_name o) d = Some a /\ fits c o a) /\
    variable_dict_to_flat_array d vars params = Ok (v, p) /\
    v ++ p = x /\ length v = total sv.
Proof.
  intros V c vars params sv sp x.
  intros Hv Hp Hnd HFv HFp Hx.
  assert (HF : Forall2 (has_shape c) (vars ++ params) (sv ++ sp)) by now apply Forall2_app.
  assert (Hx' : length x = total (sv ++ sp)) by (rewrite total_app; exact Hx).
  assert (Hfst : length x = length (firstn (total sv) x) + length (skipn (total sv) x)).
  { rewrite <- app_length, firstn_skipn. reflexivity. }
  assert (Hl1 : length (firstn (total sv) x) = total sv) by (rewrite firstn_length; lia).
  assert (Hl2 : length (skipn (total sv) x) = total sp) by (rewrite skipn_length; lia).
  set (as_ := chop (sv ++ sp) x).
  assert (HO : arrays_ok c (vars ++ params) as_) by now apply chop_ok.
  assert (HOl := Forall2_length_ HO).
  set (d := combine (map o_name (vars ++ params)) as_).
  assert (Hdk : map fst d = map o_name (vars ++ params)) by (apply (combine_fst_Forall2 _ HO)).
  assert (Hdd : dict_of_list d = d) by (apply dict_of_list_NoDup; rewrite Hdk; exact Hnd).
  assert (Hget : Forall2 (fun o a => dget (o_name o) d = Some a) (vars ++ params) as_).
  { apply in_combine_Forall2. split; auto. intros o a Hin. now apply dget_combine_names. }
  exists d, (firstn (total sv) x), (skipn (total sv) x). repeat split.
  - rewrite (@decode_exact V c _ _ x HF Hx'). now rewrite <- Hdd.
  - exact Hdk.
  - intros o Ho. apply In_nth_error in Ho as (j & Hj).
    destruct (nth_error as_ j) as [a|] eqn:Ha.
    2:{ apply nth_error_None in Ha. assert (j < length (vars ++ params)) by (apply nth_error_Some; congruence). lia. }
    assert (Hin : In (o, a) (combine (vars ++ params) as_)).
    { clear -Hj Ha. revert j Hj Ha. generalize as_.
      induction (vars ++ params); intros l' j Hj Hja; destruct j; simpl in *; try discriminate.
      - destruct l'; simpl in *; [discriminate|]. inversion Hj; inversion Hja; subst; auto.
      - destruct l'; simpl in *; [discriminate|]. right; eauto. }
    exists a. split.
    + apply in_combine_Forall2 in Hget as (_ & Hget). auto.
    + apply in_combine_Forall2 in HO as (_ & HO). now apply HO.
  - unfold variable_dict_to_flat_array.
    unfold as_ in Hget. rewrite chop_app in Hget by lia.
    apply Forall2_app_inv_len in Hget.
    + destruct Hget as (Hg1 & Hg2).
      rewrite (@concat_named_ok V d _ _ Hv Hg1), (@concat_named_ok V d _ _ Hp Hg2). simpl.
      rewrite !chop_concat by auto. reflexivity.
    + rewrite chop_length. now apply Forall2_length_ in HFv.
  - apply firstn_skipn.
  - exact Hl1.
Qed.

(** C03, encoding direction. *)
Lemma c03_addressing__p :
  forall {V : Type} (vars params : list mobj) (d : dict (arr V)) (v p : list V),
  (forall o a, In o (vars ++ params) -> dget (o_name o) d = Some a -> arr_wf a) ->
  variable_dict_to_flat_array d vars params = Ok (v, p) ->
  forall group vec, (group, vec) = (vars, v) \/ (group, vec) = (params, p) ->
  (** every element is at its row-major position ... *)
  (forall j o a idx,
      nth_error group j = Some o -> dget (o_name o) d = Some a -> in_range (ashape a) idx ->
      exists val, aget a idx = Ok val /\
                  nth_error vec (start_of d group j + offset (ashape a) idx) = Some val) /\
  (** ... and every position holds exactly one element. *)
  (forall k, k < length vec ->
      exists! ji : nat * list nat,
        exists o a, nth_error group (fst ji) = Some o /\ dget (o_name o) d = Some a /\
                    in_range (ashape a) (snd ji) /\
                    k = start_of d group (fst ji) + offset (ashape a) (snd ji)).
Proof.
  intros V vars params d v p.
  intros Hwf H group vec Hg.
  assert (HG : concat_named d group = Ok vec /\ (forall o, In o group -> In o (vars ++ params))).
  { unfold variable_dict_to_flat_array in H. apply bind_ok in H as (v' & Hv & H).
    apply bind_ok in H as (p' & Hp & H). inversion H; subst.
    destruct Hg as [E|E]; inversion E; subst; split; auto; intros; apply in_or_app; auto. }
  destruct HG as (HG & Hsub). apply concat_named_inv in HG as (_ & as_ & HF & ->).
  assert (Hwf' : forall o a, In o group -> dget (o_name o) d = Some a -> arr_wf a) by eauto.
  clear H Hg Hwf Hsub vars params v p.
  set (ls := map (@adata V) as_).
  assert (Hst : forall j, start_of d group j = list_sum (map (@length V) (firstn j ls))).
  { intros j. unfold start_of, ls. clear -HF Hwf'. revert j.
    induction HF as [|o a g as_ Ho HF IH]; intros j; destruct j; simpl; auto.
    unfold size_in at 1. rewrite Ho. rewrite IH by (intros; eapply Hwf'; simpl; eauto).
    f_equal. symmetry. apply (Hwf' o a); simpl; auto. }
  assert (Hnth : forall j o a, nth_error group j = Some o -> dget (o_name o) d = Some a ->
                               nth_error ls j = Some (adata a) /\ length (adata a) = prodn (ashape a)).
  { intros j o a Hj Ha. split.
    - unfold ls. rewrite nth_error_map. clear Hst Hwf' ls. revert j Hj.
      induction HF as [|o' a' g as_ Ho HF IH]; intros j Hj; destruct j; simpl in *; try discriminate.
      + inversion Hj; subst. rewrite Ho in Ha. inversion Ha; reflexivity.
      + auto.
    - eapply Hwf'; eauto. eapply nth_error_In; eauto. }
  split.
  - intros j o a idx Hj Ha Hr. destruct (Hnth j o a Hj Ha) as (Hl & Hsz).
    assert (Ho := offset_lt Hr).
    rewrite Hst. fold ls. rewrite (@nth_error_concat V ls j (adata a)); auto; [|lia].
    unfold aget. replace (in_rangeb (ashape a) idx) with true by (symmetry; now apply in_rangeb_spec).
    destruct (nth_error (adata a) (offset (ashape a) idx)) as [val|] eqn:E.
    + exists val. auto.
    + apply nth_error_None in E. lia.
  - intros k Hk. destruct (@concat_position V ls k Hk) as (i & l & m & Hi & Hm & ->).
    assert (Hi' : exists o a, nth_error group i = Some o /\ dget (o_name o) d = Some a /\ l = adata a).
    { unfold ls in Hi. rewrite nth_error_map in Hi. clear -HF Hi. revert i Hi.
      induction HF as [|o' a' g as_ Ho HF IH]; intros i Hi; destruct i; simpl in *; try discriminate.
      - inversion Hi; subst. eauto.
      - auto. }
    destruct Hi' as (o & a & Ho & Ha & ->).
    destruct (Hnth i o a Ho Ha) as (_ & Hsz).
    assert (Hidx : exists idx, nth_error (ndindex (ashape a)) m = Some idx).
    { destruct (nth_error (ndindex (ashape a)) m) eqn:E; eauto.
      apply nth_error_None in E. rewrite ndindex_length in E. lia. }
    destruct Hidx as (idx & Hidx). apply offset_nth_ndindex in Hidx as (Hr & Hoff).
    exists (i, idx). split.
    + exists o, a. simpl. rewrite Hst. rewrite Hoff. repeat split; auto.
    + intros (i' & idx') (o' & a' & Ho' & Ha' & Hr' & E). simpl in *.
      destruct (Hnth i' o' a' Ho' Ha') as (Hl' & Hsz').
      rewrite Hst in E. assert (Hlt := offset_lt Hr').
      destruct (@concat_position_unique V ls i (adata a) m i' (adata a') (offset (ashape a') idx'))
        as (-> & Em); auto; [lia|].
      rewrite Ho in Ho'. inversion Ho'; subst o'. rewrite Ha in Ha'. inversion Ha'; subst a'.
      f_equal. apply (@offset_inj (ashape a)); auto. congruence.
Qed.

(** C04: too short is rejected ... *)
Lemma c04_short_rejected__p :
  forall {V : Type} (c : coords) (objs : list mobj) (shapes : list (list nat)) (x : list V),
  Forall2 (has_shape c) objs shapes -> length x < total shapes ->
  flat_array_to_variable_dict x objs c = Err ValueError.
Proof.
  intros V c objs shapes x.
  intros HF Hx. unfold flat_array_to_variable_dict. eapply unpack_loop_short; eauto; simpl; lia.
Qed.

(** ... but any excess is silently dropped, for every model and vector. *)
Lemma c04_excess_accepted__p :
  forall {V : Type} (c : coords) (objs : list mobj) (shapes : list (list nat)) (x extra : list V),
  Forall2 (has_shape c) objs shapes -> length x = total shapes ->
  exists d, flat_array_to_variable_dict (x ++ extra) objs c = Ok d /\
            flat_array_to_variable_dict x objs c = Ok d.
Proof.
  intros V c objs shapes x extra.
  intros HF Hx. eexists. split.
  - apply (@decode_prefix V c objs shapes x extra HF Hx).
  - apply (@decode_exact V c objs shapes x HF Hx).
Qed.


(** ** Masks (C05, C06) *)

(** A mask made of consecutive constant blocks. *)
Definition mask_of (blocks : list (nat * bool)) : list bool :=
  flat_map (fun nb => repeat (snd nb) (fst nb)) blocks.

Lemma set_slice_app pre mask n b :
  set_slice (pre ++ mask) (length pre) n b = pre ++ set_slice mask 0 n b.
Proof. induction pre; simpl; [reflexivity|now rewrite IHpre]. Qed.

Lemma set_slice_repeat n m b b' :
  set_slice (repeat b' (n + m)) 0 n b = repeat b n ++ repeat b' m.
Proof.
  induction n; simpl.
  - destruct m; reflexivity.
  - now rewrite IHn.
Qed.

Lemma return_mask_loop_ok c omit objs shapes pre :
  Forall2 (has_shape c) objs shapes ->
  return_mask_loop c omit (length pre) objs (pre ++ repeat true (total shapes)) =
  Ok (pre ++ mask_of (combine (map prodn shapes) (map (fun o => negb (mem_str (o_name o) omit)) objs))).
Proof.
  intros H. revert pre. induction H as [|o s objs shapes Hs HF IH]; intros pre; simpl.
  - unfold total. simpl. reflexivity.
  - apply infer_shape_spec in Hs. rewrite Hs. simpl.
    unfold total. simpl. fold (total shapes).
    assert (E : (if mem_str (o_name o) omit
                 then set_slice (pre ++ repeat true (prodn s + total shapes)) (length pre) (prodn s) false
                 else pre ++ repeat true (prodn s + total shapes))
                = (pre ++ repeat (negb (mem_str (o_name o) omit)) (prodn s)) ++ repeat true (total shapes)).
    { rewrite <- app_assoc. destruct (mem_str (o_name o) omit); simpl.
      - now rewrite set_slice_app, set_slice_repeat.
      - now rewrite repeat_app. }
    rewrite E. specialize (IH (pre ++ repeat (negb (mem_str (o_name o) omit)) (prodn s))).
    rewrite app_length, repeat_length in IH. rewrite IH, <- app_assoc. reflexivity.
Qed.

Lemma select_app {V} m1 m2 (x1 x2 : list V) :
  length m1 = length x1 -> select (m1 ++ m2) (x1 ++ x2) = select m1 x1 ++ select m2 x2.
Proof.
  revert x1. induction m1; destruct x1; simpl; intros H; try discriminate; auto.
  destruct a; simpl; rewrite IHm1 by lia; reflexivity.
Qed.

Lemma select_repeat {V} b (x : list V) : select (repeat b (length x)) x = if b then x else [].
Proof. induction x; simpl; destruct b; simpl; congruence. Qed.

Lemma select_mask_of {V} (ls : list (list V)) (bs : list bool) :
  length ls = length bs ->
  select (mask_of (combine (map (@length V) ls) bs)) (List.concat ls) =
  List.concat (map fst (filter snd (combine ls bs))).
Proof.
  revert bs. induction ls as [|l ls IH]; destruct bs as [|b bs]; simpl; intros H; try discriminate; auto.
  rewrite select_app by now rewrite repeat_length.
  rewrite select_repeat, IH by lia. destruct b; reflexivity.
Qed.

Lemma mask_of_length blocks : length (mask_of blocks) = list_sum (map fst blocks).
Proof.
  induction blocks as [|[n b] bl IH]; simpl; auto. now rewrite app_length, repeat_length, IH.
Qed.

Lemma map_fst_combine {A B} (l1 : list A) (l2 : list B) :
  length l1 = length l2 -> map fst (combine l1 l2) = l1.
Proof. revert l2. induction l1; destruct l2; simpl; intros; try discriminate; auto. f_equal; auto. Qed.

(** C05 *)
Lemma c05_return_mask__p :
  forall {V : Type} (c : coords) (objs : list mobj) (omit : list string) (arrays : list (arr V)),
  Forall2 (fits c) objs arrays ->
  let x := List.concat (map (@adata V) arrays) in
  exists mask,
    make_flat_array_return_mask x objs omit c = Ok mask /\
    length mask = length x /\
    bool_index x mask =
      Ok (List.concat (map (fun oa => adata (snd oa))
           (filter (fun oa => negb (mem_str (o_name (fst oa)) omit)) (combine objs arrays)))) /\
    (forall j o a k, nth_error objs j = Some o -> nth_error arrays j = Some a -> k < length (adata a) ->
       nth_error mask (list_sum (map (fun b => length (adata b)) (firstn j arrays)) + k)
       = Some (negb (mem_str (o_name o) omit))).
Proof.
  intros V c objs omit arrays H x.
  assert (HS : Forall2 (has_shape c) objs (map (@ashape V) arrays)).
  { induction H; simpl; constructor; auto. apply H. }
  assert (HW : map prodn (map (@ashape V) arrays) = map (@length V) (map (@adata V) arrays)).
  { clear HS x. induction H; simpl; auto. f_equal; auto. symmetry. apply H. }
  assert (Hl := Forall2_length_ H).
  assert (HT : length x = total (map (@ashape V) arrays)).
  { unfold total. rewrite HW. unfold x. clear. induction arrays; simpl; auto. rewrite app_length. lia. }
  assert (E := @return_mask_loop_ok c omit objs _ [] HS). simpl in E.
  rewrite HW in E. unfold make_flat_array_return_mask. rewrite HT.
  eexists. split; [exact E|].
  assert (Hlen : length (mask_of (combine (map (@length V) (map (@adata V) arrays))
                   (map (fun o => negb (mem_str (o_name o) omit)) objs))) = length x).
  { rewrite mask_of_length, map_fst_combine by (rewrite !map_length; auto).
    unfold x. clear. induction arrays; simpl; auto. rewrite app_length. lia. }
  rewrite <- HT. split; [exact Hlen|]. split.
  - unfold bool_index. rewrite Hlen, Nat.eqb_refl. f_equal. unfold x.
    rewrite select_mask_of by (rewrite !map_length; auto). f_equal.
    clear -Hl. revert arrays Hl. induction objs; destruct arrays; simpl; intros; try discriminate; auto.
    destruct (negb _); simpl; f_equal; auto.
  - clear -Hl. revert arrays Hl. induction objs as [|o' objs IH]; intros arrays Hl j o a k Ho Ha Hk.
    + destruct j; discriminate.
    + destruct arrays as [|a' arrays]; [discriminate|]. destruct j; simpl in *.
      * inversion Ho; inversion Ha; subst. rewrite nth_error_app1 by (rewrite repeat_length; auto).
        rewrite nth_error_repeat; auto.
      * rewrite nth_error_app2 by (rewrite repeat_length; lia). rewrite repeat_length.
        rewrite <- (IH arrays ltac:(lia) j o a k Ho Ha Hk). f_equal. lia.
Qed.

(** C06 *)
Lemma asize_wf {V} (a : arr V) : arr_wf a -> asize a = length (adata a).
Proof. unfold arr_wf, asize. intros ->. destruct (ashape a); reflexivity. Qed.

Definition in_slice (k : nat) (s : nat * nat) : bool := Nat.leb (fst s) k && Nat.ltb k (fst s + snd s).

Lemma dget_slice_dict_key {V} (d : dict (arr V)) start k : In k (dkeys (slice_dict start d)) <-> In k (dkeys d).
Proof.
  revert start. induction d as [|[k' a] d IH]; intros start; simpl; [tauto|]. rewrite IH. tauto.
Qed.

Lemma slice_dict_ge {V} (d : dict (arr V)) start k s :
  dget k (slice_dict start d) = Some s -> start <= fst s.
Proof.
  revert start. induction d as [|[k' a] d IH]; intros start; simpl; [discriminate|].
  destruct (String.eqb k k'); intros H.
  - inversion H; simpl; lia.
  - apply IH in H. lia.
Qed.

Lemma fold_mask_spec (sd : dict (nat * nat)) names mask0 :
  (forall n, In n names -> exists s, dget n sd = Some s) ->
  exists mask,
    fold_res (fun mask name => let* s := dgetitem name sd in
                               Ok (set_slice mask (fst s) (snd s) true)) mask0 names = Ok mask /\
    length mask = length mask0 /\
    forall k b, nth_error mask0 k = Some b ->
      nth_error mask k = Some (b || existsb (fun n => match dget n sd with
                                                      | Some s => in_slice k s | None => false end) names)%bool.
Proof.
  revert mask0. induction names as [|n names IH]; intros mask0 H; simpl.
  - exists mask0. repeat split; auto. intros. now rewrite orb_false_r.
  - destruct (H n) as (s & Hs); [simpl; auto|]. unfold dgetitem at 1. rewrite Hs. simpl.
    destruct (IH (set_slice mask0 (fst s) (snd s) true)) as (mask & E & Hl & Hk).
    { intros; apply H; simpl; auto. }
    exists mask. split; [exact E|]. split; [rewrite Hl; apply set_slice_length|].
    intros k b Hb. rewrite (Hk k (b || in_slice k s)%bool).
    + rewrite orb_assoc. reflexivity.
    + rewrite nth_set_slice, Hb. unfold in_slice.
      destruct (_ && _)%bool; [now rewrite orb_true_r|now rewrite orb_false_r].
Qed.

Lemma block_pos {V} (d : dict (arr V)) start names k :
  NoDup (dkeys d) ->
  k < list_sum (map (fun kv => asize (snd kv)) d) ->
  nth_error (mask_of (map (fun kv => (asize (snd kv), mem_str (fst kv) names)) d)) k =
  Some (existsb (fun n => match dget n (slice_dict start d) with
                          | Some s => in_slice (start + k) s | None => false end) names).
Proof.
  revert start k. induction d as [|[k0 a] d IH]; intros start k Hnd Hk; simpl in *; [lia|].
  inversion Hnd as [|? ? Hni Hnd']; subst.
  destruct (Nat.lt_ge_cases k (asize a)) as [Hlt|Hge].
  - rewrite nth_error_app1 by now rewrite repeat_length. rewrite nth_error_repeat by auto.
    f_equal. unfold mem_str. clear -Hni Hlt. induction names as [|n names IHn]; simpl; auto.
    rewrite IHn. f_equal. rewrite String.eqb_sym.
    destruct (String.eqb_spec n k0) as [->|Hne].
    + unfold in_slice. simpl. symmetry. apply andb_true_iff. rewrite Nat.leb_le, Nat.ltb_lt. lia.
    + destruct (dget n (slice_dict (start + asize a) d)) eqn:E; auto.
      apply slice_dict_ge in E. unfold in_slice. symmetry. apply andb_false_iff. left.
      apply Nat.leb_gt. lia.
  - rewrite nth_error_app2 by now rewrite repeat_length. rewrite repeat_length.
    rewrite (IH (start + asize a)); auto; [|lia].
    f_equal. replace (start + asize a + (k - asize a)) with (start + k) by lia.
    clear -Hge Hni. induction names as [|n names IHn]; simpl; auto. rewrite IHn. f_equal.
    destruct (String.eqb_spec n k0) as [->|Hne]; auto.
    assert (N : dget k0 (slice_dict (start + asize a) d) = None).
    { apply dget_None. now rewrite dget_slice_dict_key. }
    rewrite N. unfold in_slice. simpl. symmetry. apply andb_false_iff. right.
    apply Nat.ltb_ge. lia.
Qed.

Lemma nth_error_ext_ {A} (l1 l2 : list A) :
  length l1 = length l2 -> (forall k, k < length l1 -> nth_error l1 k = nth_error l2 k) -> l1 = l2.
Proof.
  revert l2. induction l1; destruct l2; simpl; intros Hl H; try discriminate; auto.
  assert (H0 := H 0 ltac:(lia)). simpl in H0. inversion H0; subst. f_equal. apply IHl1; auto.
  intros k Hk. apply (H (S k)). lia.
Qed.

Lemma c06_param_mask__p :
  forall {V : Type} (d : dict (arr V)) (names : list string),
  d <> [] -> NoDup (dkeys d) -> (forall k a, In (k, a) d -> arr_wf a) ->
  (forall n, In n names -> In n (dkeys d)) ->
  let x := List.concat (map (fun kv => adata (snd kv)) d) in
  exists mask,
    flat_mask_from_param_names d names = Ok mask /\
    length mask = length x /\
    bool_index x mask =
      Ok (List.concat (map (fun kv => adata (snd kv)) (filter (fun kv => mem_str (fst kv) names) d))) /\
    (forall j k a i, nth_error d j = Some (k, a) -> i < length (adata a) ->
       nth_error mask (list_sum (map (fun kv => length (adata (snd kv))) (firstn j d)) + i)
       = Some (mem_str k names)).
Proof.
  intros V d names Hne Hnd Hwf Hn x.
  destruct (@fold_mask_spec (slice_dict 0 d) names (repeat false (length x))) as (mask & E & Hl & Hk).
  { intros n Hi. apply dget_Some_key. apply dget_slice_dict_key. auto. }
  assert (Hsz : map (fun kv => asize (snd kv)) d = map (fun kv => length (adata (snd kv))) d).
  { clear -Hwf. induction d as [|[k a] d IH]; simpl; auto. f_equal.
    - apply asize_wf. eapply Hwf; simpl; eauto.
    - apply IH. intros. eapply Hwf; simpl; eauto. }
  assert (Hx : length x = list_sum (map (fun kv => asize (snd kv)) d)).
  { rewrite Hsz. unfold x. clear. induction d; simpl; auto. rewrite app_length. lia. }
  rewrite repeat_length in Hl.
  assert (Em : mask = mask_of (map (fun kv => (asize (snd kv), mem_str (fst kv) names)) d)).
  { apply nth_error_ext_.
    - rewrite mask_of_length, map_map. simpl. lia.
    - intros k Hlt. rewrite (Hk k false); [|apply nth_error_repeat; lia].
      rewrite (@block_pos V d 0) by (auto; lia). reflexivity. }
  exists mask. split; [|split; [exact Hl|split]].
  - unfold flat_mask_from_param_names. destruct d; [congruence|]. exact E.
  - unfold bool_index. rewrite Hl, Nat.eqb_refl. f_equal. rewrite Em.
    assert (EE : map (fun kv : string * arr V => (asize (snd kv), mem_str (fst kv) names)) d
                 = combine (map (@length V) (map (fun kv => adata (snd kv)) d))
                           (map (fun kv => mem_str (fst kv) names) d)).
    { rewrite map_map, <- Hsz. clear. induction d; simpl; congruence. }
    rewrite EE. unfold x. rewrite select_mask_of by now rewrite !map_length. f_equal.
    clear. induction d as [|[k a] d IH]; simpl; auto. destruct (mem_str k names); simpl; congruence.
  - intros j k a i Hj Hi. rewrite Em. clear -Hj Hi Hwf. revert j Hj.
    induction d as [|[k0 a0] d IH]; intros j Hj; [destruct j; discriminate|].
    assert (Hw0 : asize a0 = length (adata a0)) by (apply asize_wf; eapply Hwf; simpl; eauto).
    destruct j; simpl in *.
    + inversion Hj; subst. rewrite nth_error_app1 by (rewrite repeat_length; lia).
      apply nth_error_repeat. lia.
    + rewrite nth_error_app2 by (rewrite repeat_length; lia). rewrite repeat_length, Hw0.
      rewrite <- (IH ltac:(intros; eapply Hwf; eauto) j Hj). f_equal. lia.
Qed.

(** Names that are not in the dictionary are rejected. *)
Lemma c06_unknown_name_rejected__p :
  forall {V : Type} (d : dict (arr V)) (names : list string) (n : string),
  d <> [] -> In n names -> ~ In n (dkeys d) ->
  flat_mask_from_param_names d names = Err KeyError.
Proof.
  intros V d names n Hne Hin Hn. unfold flat_mask_from_param_names. destruct d as [|kv d0]; [congruence|].
  set (d := kv :: d0) in *.
  generalize (repeat false (length (List.concat (map (fun kv => ravel (snd kv)) d)))).
  assert (N : dget n (slice_dict 0 d) = None).
  { apply dget_None. now rewrite dget_slice_dict_key. }
  revert N. generalize (slice_dict 0 d). intros sd N.
  induction names as [|m names IH]; intros mask; simpl in *; [tauto|].
  destruct Hin as [->|Hin].
  - unfold dgetitem. rewrite N. reflexivity.
  - unfold dgetitem at 1. destruct (dget m sd); simpl; auto.
Qed.

(** ** Refutation witness for C04 *)
Lemma c04_wrong_length_rejected_refuted__p :
  exists (c : coords) (objs : list mobj) (shapes : list (list nat)) (x : list nat) d,
    Forall2 (has_shape c) objs shapes /\ length x <> total shapes /\
    flat_array_to_variable_dict x objs c = Ok d.
Proof.
  exists [("j"%string, [LStr "P"; LStr "Q"; LStr "R"])], [exobj KPar "a" ["j"%string]], [[3]], [1; 2; 3; 4].
  eexists. repeat split.
  - repeat constructor. eexists. split; reflexivity.
  - discriminate.
Qed.
