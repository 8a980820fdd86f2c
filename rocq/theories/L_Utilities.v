(** Lemmas about the flat-vector functions of base/utilities.py. *)
From Verif Require Import Py PyStr NdArray M_Primitives M_Utilities S_Layout.

Lemma infer_shape_spec c o shape : infer_shape c o = Ok shape <-> has_shape c o shape.
Proof.
  unfold infer_shape, has_shape. rewrite map_res_ok_Forall2. split; intros H.
  - induction H; constructor; auto. apply bind_ok in H as (ls & Hls & H). inversion H.
    unfold dgetitem in Hls. destruct (dget x c); inversion Hls; subst. eauto.
  - induction H; constructor; auto. destruct H as (ls & Hls & Hn).
    unfold dgetitem. rewrite Hls. simpl. congruence.
Qed.

Lemma has_shape_fun c o s1 s2 : has_shape c o s1 -> has_shape c o s2 -> s1 = s2.
Proof. rewrite <- !infer_shape_spec. congruence. Qed.

Section Flat.
Context {V : Type}.
Implicit Types (d : dict (arr V)) (x : list V).

Lemma slice_0_app (x y : list V) n : n = length x -> slice (x ++ y) 0 n = x.
Proof. intros ->. unfold slice. simpl. now rewrite firstn_app, Nat.sub_diag, firstn_all, app_nil_r. Qed.

Lemma slice_shift (pre x : list V) k n : slice (pre ++ x) (length pre + k) n = slice x k n.
Proof.
  unfold slice. f_equal. rewrite skipn_app.
  replace (length pre + k - length pre) with k by lia.
  rewrite skipn_all2 by lia. reflexivity.
Qed.

(** Arrays of a list of objects, with their shapes. *)
Definition arrays_ok c (objs : list mobj) (as_ : list (arr V)) : Prop :=
  Forall2 (fun o a => arr_wf a /\ has_shape c o (ashape a)) objs as_.

Lemma unpack_loop_concat c objs as_ pre post d :
  arrays_ok c objs as_ ->
  unpack_loop c (pre ++ List.concat (map (@adata V) as_) ++ post) (length pre) objs d
  = Ok (dupdate d (combine (map o_name objs) as_)).
Proof.
  intros H. revert pre d. induction H as [|o a objs as_ (Hwf & Hs) HF IH]; intros pre d; simpl.
  - reflexivity.
  - apply infer_shape_spec in Hs. rewrite Hs. simpl.
    replace (length pre) with (length pre + 0) at 1 by lia.
    rewrite slice_shift, <- app_assoc.
    rewrite slice_0_app by (symmetry; exact Hwf).
    unfold reshape. unfold arr_wf in Hwf. rewrite Hwf, Nat.eqb_refl. simpl.
    rewrite <- Hwf, <- app_length, app_assoc. rewrite IH.
    unfold dupdate at 2. simpl. destruct a; reflexivity.
Qed.

Lemma concat_named_ok d objs as_ :
  objs <> [] -> Forall2 (fun o a => dget (o_name o) d = Some a) objs as_ ->
  concat_named d objs = Ok (List.concat (map (@adata V) as_)).
Proof.
  intros Hne H. unfold concat_named.
  assert (E : map_res (fun o => let* a := dgetitem (o_name o) d in Ok (ravel a)) objs
              = Ok (map (@adata V) as_)).
  { apply map_res_ok_Forall2. clear Hne. induction H; simpl; constructor; auto.
    unfold dgetitem. rewrite H. reflexivity. }
  rewrite E. simpl. destruct H; simpl; [congruence|reflexivity].
Qed.

Lemma concat_named_inv d objs x :
  concat_named d objs = Ok x ->
  objs <> [] /\ exists as_, Forall2 (fun o a => dget (o_name o) d = Some a) objs as_ /\
                            x = List.concat (map (@adata V) as_).
Proof.
  unfold concat_named. intros H. apply bind_ok in H as (parts & Hp & H).
  apply map_res_ok_Forall2 in Hp.
  assert (E : exists as_, Forall2 (fun o a => dget (o_name o) d = Some a) objs as_ /\
                          parts = map (@adata V) as_).
  { clear H. induction Hp.
    - exists []; auto.
    - destruct IHHp as (as_ & HF & ->). apply bind_ok in H as (a & Ha & H).
      inversion H; subst. unfold dgetitem in Ha. destruct (dget (o_name x0) d) eqn:E; inversion Ha; subst.
      exists (a :: as_). split; auto. }
  destruct E as (as_ & HF & ->).
  split.
  - intros ->. inversion HF; subst. simpl in H. discriminate.
  - exists as_. split; auto. destruct as_; simpl in *; inversion H; reflexivity.
Qed.

Lemma lookup_arrays d objs :
  (forall o, In o objs -> exists a, dget (o_name o) d = Some a) ->
  exists as_, Forall2 (fun o a => dget (o_name o) d = Some a) objs as_.
Proof.
  induction objs as [|o objs IH]; intros H.
  - exists []; constructor.
  - destruct (H o) as (a & Ha); [simpl; auto|].
    destruct IH as (as_ & HF); [intros; apply H; simpl; auto|].
    exists (a :: as_). constructor; auto.
Qed.

Lemma combine_fst_Forall2 {A B C} (P : A -> B -> Prop) (f : A -> C) l1 l2 :
  Forall2 P l1 l2 -> map fst (combine (map f l1) l2) = map f l1.
Proof. induction 1; simpl; congruence. Qed.

Lemma dget_combine_names objs (as_ : list (arr V)) o a :
  NoDup (map o_name objs) -> In (o, a) (combine objs as_) ->
  dget (o_name o) (combine (map o_name objs) as_) = Some a.
Proof.
  intros Hn Hin. apply dget_In_NoDup.
  - unfold dkeys. revert as_ Hin Hn. induction objs; intros as_ Hin Hn; simpl; [constructor|].
    destruct as_; simpl; [constructor|]. inversion Hn; subst. simpl in Hin.
    constructor.
    + intros Hi. apply H1. clear -Hi. revert as_ Hi. induction objs; simpl; intros as_ Hi; auto.
      destruct as_; simpl in Hi; [tauto|]. destruct Hi; auto. right; eauto.
    + destruct Hin as [E|Hin].
      * clear -H2. revert as_. induction objs; intros as_; simpl; [constructor|].
        destruct as_; simpl; [constructor|]. inversion H2; subst. constructor; auto.
        intros Hi. apply H1. clear -Hi. revert as_ Hi. induction objs; simpl; intros as_ Hi; auto.
        destruct as_; simpl in Hi; [tauto|]. destruct Hi; auto. right; eauto.
      * eauto.
  - clear Hn. revert as_ Hin. induction objs; intros as_ Hin; simpl in *; [tauto|].
    destruct as_; simpl in *; [tauto|]. destruct Hin as [E|Hin].
    + inversion E; auto.
    + right; eauto.
Qed.

(** Chop a vector into consecutive pieces of given shapes. *)
Fixpoint chop (shapes : list (list nat)) x : list (arr V) :=
  match shapes with
  | [] => []
  | s :: shapes' => mkArr s (firstn (prodn s) x) :: chop shapes' (skipn (prodn s) x)
  end.

Lemma chop_concat shapes x :
  length x = total shapes -> List.concat (map (@adata V) (chop shapes x)) = x.
Proof.
  revert x. induction shapes as [|s shapes IH]; intros x H; unfold total in *; simpl in *.
  - destruct x; [reflexivity|discriminate].
  - rewrite IH.
    + apply firstn_skipn.
    + rewrite skipn_length. unfold total. lia.
Qed.

Lemma chop_ok c objs shapes x :
  Forall2 (has_shape c) objs shapes -> length x = total shapes -> arrays_ok c objs (chop shapes x).
Proof.
  intros H. revert x. induction H as [|o s objs shapes Hs HF IH]; intros x Hx; simpl; constructor.
  - unfold total in Hx. simpl in *. split; auto. unfold arr_wf. simpl. rewrite firstn_length. lia.
  - apply IH. unfold total in *. simpl in Hx. rewrite skipn_length. lia.
Qed.

Lemma shapes_exist c objs :
  (forall o, In o objs -> exists s, has_shape c o s) ->
  exists shapes, Forall2 (has_shape c) objs shapes.
Proof.
  induction objs as [|o objs IH]; intros H.
  - exists []; constructor.
  - destruct (H o) as (s & Hs); [simpl; auto|].
    destruct IH as (ss & HF); [intros; apply H; simpl; auto|].
    exists (s :: ss). constructor; auto.
Qed.

(** decoding a vector followed by anything *)
Lemma decode_prefix c objs shapes x post :
  Forall2 (has_shape c) objs shapes -> length x = total shapes ->
  flat_array_to_variable_dict (x ++ post) objs c
  = Ok (dict_of_list (combine (map o_name objs) (chop shapes x))).
Proof.
  intros HF Hx. unfold flat_array_to_variable_dict.
  assert (H := @unpack_loop_concat c objs (chop shapes x) [] post [] (@chop_ok c objs shapes x HF Hx)).
  simpl in H. rewrite chop_concat in H by auto. exact H.
Qed.

Lemma decode_exact c objs shapes x :
  Forall2 (has_shape c) objs shapes -> length x = total shapes ->
  flat_array_to_variable_dict x objs c
  = Ok (dict_of_list (combine (map o_name objs) (chop shapes x))).
Proof.
  intros HF Hx. rewrite <- (app_nil_r x) at 1. now apply decode_prefix.
Qed.

Lemma unpack_loop_short c objs shapes x cursor d :
  Forall2 (has_shape c) objs shapes -> cursor <= length x ->
  length x < cursor + total shapes ->
  unpack_loop c x cursor objs d = Err ValueError.
Proof.
  intros H. revert cursor d. induction H as [|o s objs shapes Hs HF IH]; intros cursor d Hc Hx;
    unfold total in *; simpl in *.
  - lia.
  - apply infer_shape_spec in Hs. rewrite Hs. simpl. unfold reshape.
    destruct (Nat.eqb_spec (length (slice x cursor (prodn s))) (prodn s)) as [E|E]; simpl; auto.
    unfold slice in E. rewrite firstn_length, skipn_length in E.
    apply IH; lia.
Qed.

Lemma total_app s1 s2 : total (s1 ++ s2) = total s1 + total s2.
Proof. unfold total. rewrite map_app, list_sum_app. reflexivity. Qed.

Lemma Forall2_length_ {A B} (P : A -> B -> Prop) l1 l2 : Forall2 P l1 l2 -> length l1 = length l2.
Proof. induction 1; simpl; auto. Qed.

Lemma chop_length shapes x : length (chop shapes x) = length shapes.
Proof. revert x. induction shapes; simpl; auto. Qed.

Lemma in_combine_Forall2 {A B} (P : A -> B -> Prop) l1 l2 :
  Forall2 P l1 l2 <-> length l1 = length l2 /\ forall a b, In (a, b) (combine l1 l2) -> P a b.
Proof.
  split.
  - intros H. split; [eapply Forall2_length_; eauto|].
    induction H; simpl; [tauto|]. intros a b [E|Hin]; [inversion E; subst; auto|auto].
  - revert l2. induction l1; destruct l2; simpl; intros (Hl & H); try discriminate; constructor; auto.
Qed.

Lemma Forall2_app_inv_len {A B} (P : A -> B -> Prop) l1 l1' l2 l2' :
  length l1 = length l2 -> Forall2 P (l1 ++ l1') (l2 ++ l2') -> Forall2 P l1 l2 /\ Forall2 P l1' l2'.
Proof.
  revert l2. induction l1; destruct l2; simpl; intros Hl H; try discriminate; auto.
  inversion H; subst. destruct (IHl1 l2) as (H1 & H2); auto.
Qed.

Lemma combine_app {A B} (l1 l1' : list A) (l2 l2' : list B) :
  length l1 = length l2 -> combine (l1 ++ l1') (l2 ++ l2') = combine l1 l2 ++ combine l1' l2'.
Proof.
  revert l2. induction l1; destruct l2; simpl; intros H; try discriminate; auto.
  f_equal. auto.
Qed.

Lemma skipn_skipn_ {A} (l : list A) a b : skipn a (skipn b l) = skipn (b + a) l.
Proof.
  revert l. induction b; intros l; simpl; auto. destruct l; simpl; auto. now rewrite skipn_nil.
Qed.

Lemma chop_app s1 s2 x :
  length x = total s1 + total s2 ->
  chop (s1 ++ s2) x = chop s1 (firstn (total s1) x) ++ chop s2 (skipn (total s1) x).
Proof.
  revert x. induction s1 as [|s s1 IH]; intros x Hx; simpl.
  - unfold total. simpl. reflexivity.
  - unfold total in *. simpl in *. rewrite IH by (rewrite skipn_length; unfold total; lia).
    f_equal; [|f_equal].
    + f_equal. rewrite firstn_firstn. f_equal. lia.
    + f_equal. rewrite skipn_firstn_comm. f_equal. lia.
    + f_equal. now rewrite skipn_skipn_.
Qed.

(** Selecting positions in a concatenation *)
Lemma nth_error_concat (ls : list (list V)) i l k :
  nth_error ls i = Some l -> k < length l ->
  nth_error (List.concat ls) (list_sum (map (@length V) (firstn i ls)) + k) = nth_error l k.
Proof.
  revert i. induction ls as [|l0 ls IH]; intros i Hi Hk.
  - destruct i; discriminate.
  - destruct i; simpl in *.
    + inversion Hi; subst. now rewrite nth_error_app1.
    + rewrite nth_error_app2 by lia.
      match goal with |- nth_error _ ?n = _ =>
        replace n with (list_sum (map (@length V) (firstn i ls)) + k) by lia end.
      auto.
Qed.

Lemma concat_position (ls : list (list V)) p :
  p < length (List.concat ls) ->
  exists i l k, nth_error ls i = Some l /\ k < length l /\
                p = list_sum (map (@length V) (firstn i ls)) + k.
Proof.
  revert p. induction ls as [|l0 ls IH]; intros p Hp; simpl in *; [lia|].
  rewrite app_length in Hp. destruct (Nat.lt_ge_cases p (length l0)) as [H|H].
  - exists 0, l0, p. simpl. auto.
  - destruct (IH (p - length l0)) as (i & l & k & Hi & Hk & E); [lia|].
    exists (S i), l, k. simpl. repeat split; auto. lia.
Qed.

Lemma concat_position_unique (ls : list (list V)) i1 l1 k1 i2 l2 k2 :
  nth_error ls i1 = Some l1 -> k1 < length l1 ->
  nth_error ls i2 = Some l2 -> k2 < length l2 ->
  list_sum (map (@length V) (firstn i1 ls)) + k1 = list_sum (map (@length V) (firstn i2 ls)) + k2 ->
  i1 = i2 /\ k1 = k2.
Proof.
  revert i1 i2. induction ls as [|l0 ls IH]; intros i1 i2 H1 Hk1 H2 Hk2 E.
  - destruct i1; discriminate.
  - destruct i1, i2; simpl in *.
    + auto.
    + inversion H1; subst. lia.
    + inversion H2; subst. lia.
    + destruct (IH i1 i2); auto; lia.
Qed.

(** masks *)
Lemma set_slice_length mask a n b : length (set_slice mask a n b) = length mask.
Proof.
  revert a n. induction mask as [|m mask IH]; intros a n; simpl; auto.
  destruct a; [destruct n|]; simpl; auto.
Qed.

Lemma nth_set_slice mask a n b k :
  nth_error (set_slice mask a n b) k =
  if (Nat.leb a k && Nat.ltb k (a + n))%bool
  then match nth_error mask k with Some _ => Some b | None => None end
  else nth_error mask k.
Proof.
  revert a n k. induction mask as [|m mask IH]; intros a n k; simpl.
  - destruct k; simpl; destruct (_ && _)%bool; reflexivity.
  - destruct a as [|a].
    + destruct n as [|n].
      * destruct (_ && _)%bool eqn:E; auto.
        apply andb_true_iff in E as (_ & E). apply Nat.ltb_lt in E. lia.
      * destruct k as [|k]; simpl; auto. rewrite IH. simpl. reflexivity.
    + destruct k as [|k]; simpl; auto. rewrite IH. reflexivity.
Qed.

End Flat.
