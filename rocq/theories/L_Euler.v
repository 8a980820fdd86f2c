(** Lemmas about the Euler approximations (C37-C40, C42). *)
From Coq Require Import Reals Lra Permutation.
From Verif Require Import Py PyStr NdArray M_Primitives M_Utilities M_Wrappers M_Euler.
From Verif Require Import S_Layout L_Utilities L_Layout L_Wrappers.
Local Open Scope string_scope.
Local Open Scope list_scope.

(** ** Vectors *)
Lemma vmap2_length f a b : length (vmap2 f a b) = Nat.min (length a) (length b).
Proof. unfold vmap2. now rewrite map_length, combine_length. Qed.
Lemma vmap2_app f a a' b b' : length a = length b -> vmap2 f (a ++ a') (b ++ b') = vmap2 f a b ++ vmap2 f a' b'.
Proof. intros H. unfold vmap2. now rewrite combine_app, map_app. Qed.
Lemma vadd_length a b : length b = length a -> length (vadd a b) = length a.
Proof. intros H. unfold vadd. rewrite vmap2_length. lia. Qed.
Lemma vsub_length a b : length b = length a -> length (vsub a b) = length a.
Proof. intros H. unfold vsub. rewrite vmap2_length. lia. Qed.
Lemma vscale_length k a : length (vscale k a) = length a.
Proof. apply map_length. Qed.
Lemma vneg_length a : length (vneg a) = length a.
Proof. apply map_length. Qed.
Lemma vdiv_length a n : length (vdiv a n) = length a.
Proof. apply map_length. Qed.
Lemma nth_vmap2 f a b k : nth_error (vmap2 f a b) k =
  match nth_error a k, nth_error b k with Some u, Some v => Some (f u v) | _, _ => None end.
Proof.
  unfold vmap2. revert b k. induction a as [|x a IH]; intros [|y b] [|k]; simpl; auto.
  now destruct (nth_error a k).
Qed.
Lemma list_ext {A} (a b : list A) : (forall k, nth_error a k = nth_error b k) -> a = b.
Proof.
  revert b. induction a as [|x a IH]; intros [|y b] H; auto.
  - specialize (H 0). discriminate.
  - specialize (H 0). discriminate.
  - pose proof (H 0) as H0. injection H0 as ->. f_equal. apply IH. intros k. apply (H (S k)).
Qed.
Lemma firstn_vmap2 f a b n : firstn n (vmap2 f a b) = vmap2 f (firstn n a) (firstn n b).
Proof. unfold vmap2. now rewrite firstn_map, combine_firstn. Qed.
Lemma skipn_combine {A B} (a : list A) (b : list B) n : skipn n (combine a b) = combine (skipn n a) (skipn n b).
Proof.
  revert a b. induction n as [|n IH]; intros [|x a] [|y b]; simpl; auto.
  destruct (skipn n a); reflexivity.
Qed.
Lemma skipn_vmap2 f a b n : skipn n (vmap2 f a b) = vmap2 f (skipn n a) (skipn n b).
Proof. unfold vmap2. now rewrite skipn_map, skipn_combine. Qed.

(** ** The path of states *)
Fixpoint path (inc : increment) (d x0 th0 : list R) (t : nat) : list R * list R :=
  match t with
  | 0 => (x0, th0)
  | S t' => let p := path inc d x0 th0 t' in (vadd (fst p) (inc (fst p) (snd p) d), vadd (snd p) d)
  end.

(** An increment for [nv] variables and [np] parameters *)
Definition sized (inc : increment) (nv np : nat) : Prop :=
  forall x th d, length x = nv -> length th = np -> length d = np -> length (inc x th d) = nv.

Lemma sized_rk4 inc nv np : sized inc nv np -> sized (rk4_inc inc) nv np.
Proof.
  intros H x th d Hx Ht Hd. unfold rk4_inc. rewrite map_length.
  assert (E1 : length (inc x th d) = nv) by auto.
  set (dx1 := inc x th d) in *.
  assert (E2 : length (inc (vadd x (vscale (1 / 2) dx1)) (vadd th (vscale (1 / 2) d)) d) = nv).
  { apply H; auto; rewrite vadd_length; rewrite ?vscale_length; congruence. }
  set (dx2 := inc (vadd x (vscale (1 / 2) dx1)) _ d) in *.
  assert (E3 : length (inc (vadd x (vscale (1 / 2) dx2)) (vadd th (vscale (1 / 2) d)) d) = nv).
  { apply H; auto; rewrite vadd_length; rewrite ?vscale_length; congruence. }
  set (dx3 := inc (vadd x (vscale (1 / 2) dx2)) _ d) in *.
  assert (E4 : length (inc (vadd x dx3) (vadd th d) d) = nv).
  { apply H; auto; rewrite vadd_length; congruence. }
  rewrite vadd_length; rewrite vadd_length; rewrite vadd_length; rewrite ?vscale_length; congruence.
Qed.
Lemma sized_step b inc nv np : sized inc nv np -> sized (step_inc b inc) nv np.
Proof. destruct b; [apply sized_rk4|auto]. Qed.

Lemma path_length inc d x0 th0 nv np :
  sized inc nv np -> length x0 = nv -> length th0 = np -> length d = np ->
  forall t, length (fst (path inc d x0 th0 t)) = nv /\ length (snd (path inc d x0 th0 t)) = np.
Proof.
  intros H Hx Ht Hd. induction t as [|t (A & B)]; [auto|]. simpl. split.
  - rewrite vadd_length; auto. rewrite (H _ _ _ A B Hd). auto.
  - rewrite vadd_length; congruence.
Qed.

Lemma path_shift inc d x0 th0 t :
  path inc d x0 th0 (S t) = path inc d (vadd x0 (inc x0 th0 d)) (vadd th0 d) t.
Proof.
  induction t as [|t IH]; [reflexivity|].
  change (path inc d x0 th0 (S (S t))) with
    (let p := path inc d x0 th0 (S t) in (vadd (fst p) (inc (fst p) (snd p) d), vadd (snd p) d)).
  rewrite IH. reflexivity.
Qed.

(** The parameters on the path *)
Lemma path_theta inc x0 th0 d t k a b : length d = length th0 ->
  nth_error th0 k = Some a -> nth_error d k = Some b ->
  nth_error (snd (path inc d x0 th0 t)) k = Some (a + INR t * b)%R.
Proof.
  intros Hl Ha Hb. induction t as [|t IH].
  - simpl. rewrite Ha. f_equal. lra.
  - change (snd (path inc d x0 th0 (S t))) with (vadd (snd (path inc d x0 th0 t)) d).
    unfold vadd. rewrite nth_vmap2, IH, Hb, S_INR. f_equal. lra.
Qed.

(** ** numba *)
Lemma numba_loop_path inc nv np step :
  sized inc nv np -> length step = np ->
  forall k x th, length x = nv -> length th = np ->
  numba_loop (numba_f_step inc nv) step k (x ++ th) =
  map (fun t => fst (path inc step x th (S t)) ++ snd (path inc step x th (S t))) (seq 0 k).
Proof.
  intros H Hs. induction k as [|k IH]; intros x th Hx Ht; [reflexivity|].
  assert (E : numba_f_step inc nv step (x ++ th) = inc x th step).
  { unfold numba_f_step. rewrite firstn_app, skipn_app, Hx, Nat.sub_diag, <- Hx, firstn_all, skipn_all. simpl. now rewrite app_nil_r. }
  cbn [numba_loop]. rewrite E. unfold vadd at 1 2. rewrite vmap2_app.
  2:{ rewrite (H _ _ _ Hx Ht Hs). auto. }
  change (seq 0 (S k)) with (0 :: seq 1 k). cbn [map]. f_equal.
  fold (vadd x (inc x th step)) (vadd th step). fold vadd.
  change (vmap2 Rplus x (inc x th step)) with (vadd x (inc x th step)). change (vmap2 Rplus th step) with (vadd th step).
  rewrite IH.
  - rewrite <- seq_shift, map_map. apply map_ext. intros t. now rewrite <- !path_shift.
  - rewrite vadd_length; auto. rewrite (H _ _ _ Hx Ht Hs). auto.
  - rewrite vadd_length; congruence.
Qed.

Definition rows_of (inc : increment) (d x0 th0 : list R) (n : nat) : list (list R) :=
  map (fun t => fst (path inc d x0 th0 t) ++ snd (path inc d x0 th0 t)) (seq 0 (S n)).

Lemma numba_rows inc nv np x0 th0 tf n :
  sized inc nv np -> length x0 = nv -> length th0 = np -> length tf = np ->
  euler_approx (numba_f_step inc nv) x0 th0 tf n = rows_of inc (vdiv (vsub tf th0) n) x0 th0 n.
Proof.
  intros H Hx Ht Hf. unfold euler_approx, rows_of. change (seq 0 (S n)) with (0 :: seq 1 n). cbn [map]. f_equal.
  rewrite (@numba_loop_path inc nv np); auto.
  - rewrite <- seq_shift, map_map. reflexivity.
  - rewrite vdiv_length, vsub_length; congruence.
Qed.

(** ** Ragged lists *)
Lemma ragged_chop shapes : forall tensor cur, length tensor = cur + total shapes ->
  ragged tensor cur shapes = Ok (chop shapes (skipn cur tensor)).
Proof.
  induction shapes as [|s shapes IH]; intros tensor cur H; [reflexivity|].
  unfold total in H. simpl in H. fold (total shapes) in H. simpl.
  unfold reshape. rewrite slice_length, Nat.eqb_refl by lia. cbn [bind].
  rewrite IH by lia. cbn [bind]. unfold slice. now rewrite skipn_skipn_.
Qed.
Lemma ragged_chop0 shapes tensor : length tensor = total shapes -> ragged tensor 0 shapes = Ok (chop shapes tensor).
Proof. intros H. now rewrite ragged_chop. Qed.

Lemma chop_shapes {V} shapes (x : list V) : map (@ashape V) (chop shapes x) = shapes.
Proof. revert x. induction shapes; intros x; simpl; congruence. Qed.

Lemma concat_arrays_chop shapes x : shapes <> [] -> length x = total shapes -> concat_arrays (chop shapes x) = Ok x.
Proof.
  intros H Hx. unfold concat_arrays. pose proof (@chop_concat R shapes x Hx) as E.
  destruct shapes; [congruence|]. cbn [chop] in *. now rewrite E.
Qed.

Lemma amap2_chop f shapes : forall a b,
  map (fun p => amap2 f (fst p) (snd p)) (combine (chop shapes a) (chop shapes b)) = chop shapes (vmap2 f a b).
Proof.
  induction shapes as [|s shapes IH]; intros a b; [reflexivity|]. cbn [chop combine map fst snd].
  rewrite IH, skipn_vmap2, firstn_vmap2. reflexivity.
Qed.
Lemma amap_chop f shapes : forall a, map (amap f) (chop shapes a) = chop shapes (map f a).
Proof.
  induction shapes as [|s shapes IH]; intros a; [reflexivity|]. cbn [chop map].
  rewrite IH, firstn_map, skipn_map. reflexivity.
Qed.

Lemma chop_arrays {V} (l : list (arr V)) : Forall (fun a => arr_wf a) l -> chop (map (@ashape V) l) (List.concat (map (@adata V) l)) = l.
Proof.
  induction 1 as [|a l W Wf IH]; [reflexivity|]. simpl.
  rewrite <- W. rewrite firstn_app, Nat.sub_diag, firstn_all, skipn_app, Nat.sub_diag, skipn_all.
  simpl. rewrite app_nil_r, IH. now destruct a.
Qed.
Lemma total_arrays {V} (l : list (arr V)) : Forall (fun a => arr_wf a) l -> length (List.concat (map (@adata V) l)) = total (map (@ashape V) l).
Proof.
  induction 1 as [|a l W Wf IH]; [reflexivity|]. simpl. rewrite app_length, IH. unfold total. simpl. now rewrite W.
Qed.

Lemma chop_app' {V} s1 s2 (x y : list V) : length x = total s1 -> length y = total s2 ->
  chop (s1 ++ s2) (x ++ y) = chop s1 x ++ chop s2 y.
Proof.
  intros Hx Hy. rewrite chop_app by (rewrite app_length; lia).
  rewrite <- Hx, firstn_app, skipn_app, Nat.sub_diag, firstn_all, skipn_all. simpl. now rewrite app_nil_r.
Qed.

(** ** The python loop *)
Section Python.
Variables (vn pn : list string) (sv sp : list (list nat)).
Hypothesis (Hv : length vn = length sv) (Hp : length pn = length sp).
Hypothesis (Hv0 : sv <> []) (Hp0 : sp <> []).
Variable n : nat.

(** kwargs in which every object has its own piece *)
Definition holds (kw : dict (arr R)) (x th t0 tf : list R) : Prop :=
  map_res (fun v => dgetitem v kw) vn = Ok (chop sv x) /\
  map_res (fun v => dgetitem v kw) pn = Ok (chop sp th) /\
  map_res (fun v => dgetitem (initial_name v) kw) pn = Ok (chop sp t0) /\
  map_res (fun v => dgetitem (final_name v) kw) pn = Ok (chop sp tf).

Definition step_ok (f : nat -> dict (arr R) -> res (list (arr R))) (inc : increment) : Prop :=
  forall kw x th t0 tf, holds kw x th t0 tf ->
    length x = total sv -> length th = total sp -> length t0 = total sp -> length tf = total sp ->
    f n kw = Ok (chop sv (vadd x (inc x th (vdiv (vsub tf t0) n))) ++ chop sp (vadd th (vdiv (vsub tf t0) n))).

Lemma jax_step_ok b inc : sized inc (total sv) (total sp) ->
  step_ok (jax_step b inc vn pn sv sp) (step_inc b inc).
Proof.
  intros Hi kw x th t0 tf (A & B & C & D) Lx Lt L0 L1. unfold jax_step. rewrite A, B, C, D. cbn [bind].
  rewrite !concat_arrays_chop by auto. cbn [bind].
  assert (Ld : length (vdiv (vsub tf t0) n) = total sp) by (rewrite vdiv_length, vsub_length; congruence).
  rewrite ragged_chop0. 2:{ rewrite vadd_length; auto. rewrite (sized_step b Hi _ _ _ Lx Lt Ld). auto. }
  cbn [bind]. rewrite ragged_chop0. 2:{ rewrite vadd_length; congruence. }
  reflexivity.
Qed.

Lemma pytensor_step_ok inc : sized inc (total sv) (total sp) ->
  step_ok (pytensor_step inc vn pn sv) inc.
Proof.
  intros Hi kw x th t0 tf (A & B & C & D) Lx Lt L0 L1. unfold pytensor_step. rewrite A, B, C, D. cbn [bind].
  set (d := vdiv (vsub tf t0) n).
  assert (Ld : length d = total sp) by (unfold d; rewrite vdiv_length, vsub_length; congruence).
  replace (map (fun p => amap (fun z => Rdiv z (INR n)) (amap2 Rminus (fst p) (snd p))) (combine (chop sp tf) (chop sp t0)))
    with (chop sp d).
  2:{ unfold d, vdiv, vsub. rewrite <- amap_chop, <- amap2_chop, map_map. reflexivity. }
  rewrite !concat_arrays_chop by auto. cbn [bind].
  rewrite ragged_chop0 by (rewrite (Hi _ _ _ Lx Lt Ld); auto). cbn [bind].
  rewrite !amap2_chop. reflexivity.
Qed.

(** lookups in disjoint pieces *)
Lemma map_res_lookup {V} (g : string -> string) (names : list string) (kw : dict V) (l : list V) :
  length names = length l ->
  (forall j k v, nth_error names j = Some k -> nth_error l j = Some v -> dget (g k) kw = Some v) ->
  map_res (fun k => dgetitem (g k) kw) names = Ok l.
Proof.
  revert l. induction names as [|k names IH]; intros [|v l] Hl H; try discriminate; [reflexivity|].
  simpl. unfold dgetitem at 1. rewrite (H 0 k v eq_refl eq_refl). cbn [bind].
  rewrite (IH l); auto. intros j k' v' A B. apply (H (S j)); auto.
Qed.
End Python.

Lemma nodup_keys_spec l : nodup_keys l = true <-> NoDup l.
Proof.
  induction l as [|x l IH]; simpl; [split; auto; constructor|].
  rewrite andb_true_iff, negb_true_iff, mem_str_nIn, IH. split.
  - intros (A & B). now constructor.
  - intros H. inversion H; auto.
Qed.

(** Names that keep the keyword arguments of a step apart *)
Definition keyword_names (vn pn : list string) : list string :=
  "n_steps" :: vn ++ pn ++ map (fun s => (s ++ "_final")%string) pn ++ map (fun s => (s ++ "_initial")%string) pn.

(** A dictionary assigning to the names the pieces of a vector, in any order *)
Definition pieces (names : list string) (shapes : list (list nat)) (x : list R) (d : dict (arr R)) : Prop :=
  Permutation d (combine names (chop shapes x)).

Lemma pieces_get names shapes x d j k v :
  NoDup names -> length names = length shapes -> pieces names shapes x d ->
  nth_error names j = Some k -> nth_error (chop shapes x) j = Some v -> dget k d = Some v.
Proof.
  intros Hn Hl HP Hk Hv.
  assert (K : map fst (combine names (chop shapes x)) = names) by (apply map_fst_combine; now rewrite chop_length).
  apply dget_In_NoDup.
  - unfold dkeys. eapply Permutation_NoDup; [apply Permutation_map; symmetry; exact HP|]. now rewrite K.
  - eapply Permutation_in; [symmetry; exact HP|]. apply dget_In. eapply (@dget_nth_NoDup _ _ _ j); eauto.
Qed.

Lemma pieces_keys names shapes x d : length names = length shapes -> pieces names shapes x d -> Permutation (dkeys d) names.
Proof.
  intros Hl HP. unfold dkeys. rewrite (Permutation_map fst HP). rewrite map_fst_combine; [reflexivity|now rewrite chop_length].
Qed.

Lemma dget_app_l {V} k (a b : dict V) v : dget k a = Some v -> dget k (a ++ b) = Some v.
Proof. intros H. rewrite dget_app. now rewrite H. Qed.
Lemma dget_app_r {V} k (a b : dict V) : ~ In k (dkeys a) -> dget k (a ++ b) = dget k b.
Proof. intros H. rewrite dget_app. apply dget_None in H. now rewrite H. Qed.

Lemma map_key_pieces (g : string -> string) names shapes x d :
  length names = length shapes -> pieces names shapes x d ->
  pieces (map g names) shapes x (map (fun kv => (g (fst kv), snd kv)) d).
Proof.
  intros Hl HP. unfold pieces. rewrite (Permutation_map (fun kv : string * arr R => (g (fst kv), snd kv)) HP).
  apply Permutation_refl'. clear. generalize (chop shapes x) as l. induction names; intros [|y l]; simpl; congruence.
Qed.

Lemma kwargs_hold vn pn sv sp x th t0 tf cp cv dtf dti :
  length vn = length sv -> length pn = length sp -> NoDup (keyword_names vn pn) ->
  pieces pn sp th cp -> pieces vn sv x cv ->
  pieces (map final_name pn) sp tf dtf -> pieces (map initial_name pn) sp t0 dti ->
  call_kwargs (cp ++ cv ++ dtf ++ dti) = Ok (cp ++ cv ++ dtf ++ dti) /\
  holds vn pn sv sp (cp ++ cv ++ dtf ++ dti) x th t0 tf.
Proof.
  intros Lv Lp Hn Pp Pv Pf Pi.
  assert (KP : Permutation ("n_steps" :: dkeys (cp ++ cv ++ dtf ++ dti)) (keyword_names vn pn)).
  { unfold keyword_names. constructor. unfold dkeys. rewrite !map_app. fold (dkeys cp) (dkeys cv) (dkeys dtf) (dkeys dti).
    rewrite (pieces_keys Lp Pp), (pieces_keys Lv Pv).
    rewrite (@pieces_keys _ _ _ _ (eq_trans (map_length _ _) Lp) Pf), (@pieces_keys _ _ _ _ (eq_trans (map_length _ _) Lp) Pi).
    unfold final_name, initial_name. apply Permutation_app_swap_app. }
  assert (ND : NoDup ("n_steps" :: dkeys (cp ++ cv ++ dtf ++ dti))) by (eapply Permutation_NoDup; [symmetry; exact KP|exact Hn]).
  split. { unfold call_kwargs. assert (E : nodup_keys ("n_steps" :: dkeys (cp ++ cv ++ dtf ++ dti)) = true) by now apply nodup_keys_spec. now rewrite E. }
  inversion ND as [|? ? _ ND']; subst.
  unfold keyword_names in Hn. inversion Hn as [|? ? _ Hn']; subst.
  apply NoDup_app_inv in Hn' as (Hnv & Hn' & _). apply NoDup_app_inv in Hn' as (Hnp & Hn' & _).
  apply NoDup_app_inv in Hn' as (Hnf & Hni & _).
  assert (G : forall names shapes y d, In d [cp; cv; dtf; dti] -> NoDup names -> length names = length shapes -> pieces names shapes y d ->
     forall j k v, nth_error names j = Some k -> nth_error (chop shapes y) j = Some v -> dget k (cp ++ cv ++ dtf ++ dti) = Some v).
  { intros names shapes y d Hd N L P j k v A B.
    pose proof (@pieces_get names shapes y d j k v N L P A B) as Hg. apply dget_In in Hg.
    apply dget_In_NoDup; [exact ND'|]. rewrite !in_app_iff. destruct Hd as [<-|[<-|[<-|[<-|[]]]]]; auto. }
  unfold holds. repeat apply conj.
  - apply (@map_res_lookup (arr R) (fun s => s)); [now rewrite chop_length|]. intros j k v A B.
    refine (G vn sv x cv _ Hnv Lv Pv j k v A B). simpl; auto.
  - apply (@map_res_lookup (arr R) (fun s => s)); [now rewrite chop_length|]. intros j k v A B.
    refine (G pn sp th cp _ Hnp Lp Pp j k v A B). simpl; auto.
  - apply (@map_res_lookup (arr R) initial_name); [now rewrite chop_length|]. intros j k v A B.
    refine (G (map initial_name pn) sp t0 dti _ Hni _ Pi j _ v _ B); [simpl; auto|now rewrite map_length|].
    now rewrite nth_error_map, A.
  - apply (@map_res_lookup (arr R) final_name); [now rewrite chop_length|]. intros j k v A B.
    refine (G (map final_name pn) sp tf dtf _ Hnf _ Pf j _ v _ B); [simpl; auto|now rewrite map_length|].
    now rewrite nth_error_map, A.
Qed.

Lemma py_loop_path vn pn sv sp n f inc t0 tf dtf dti :
  length vn = length sv -> length pn = length sp -> NoDup (keyword_names vn pn) ->
  sized inc (total sv) (total sp) -> step_ok vn pn sv sp n f inc ->
  length t0 = total sp -> length tf = total sp ->
  pieces (map final_name pn) sp tf dtf -> pieces (map initial_name pn) sp t0 dti ->
  let d := vdiv (vsub tf t0) n in
  forall k x th cp cv, length x = total sv -> length th = total sp -> pieces pn sp th cp -> pieces vn sv x cv ->
  py_loop f vn pn n dtf dti k cp cv =
  Ok (map (fun t => combine vn (chop sv (fst (path inc d x th (S t)))) ++ combine pn (chop sp (snd (path inc d x th (S t)))))
          (seq 0 k)).
Proof.
  intros Lv Lp Hn Hi Hf L0 L1 Pf Pi d. induction k as [|k IH]; intros x th cp cv Lx Lt Pp Pv; [reflexivity|].
  assert (Ld : length d = total sp) by (unfold d; rewrite vdiv_length, vsub_length; congruence).
  destruct (kwargs_hold Lv Lp Hn Pp Pv Pf Pi) as (E & H). cbn [py_loop]. rewrite E. cbn [bind].
  rewrite (Hf _ _ _ _ _ H Lx Lt L0 L1). cbn [bind]. fold d.
  set (x' := vadd x (inc x th d)). set (th' := vadd th d).
  assert (Lx' : length x' = total sv) by (unfold x'; rewrite vadd_length; auto; rewrite (Hi _ _ _ Lx Lt Ld); auto).
  assert (Lt' : length th' = total sp) by (unfold th'; rewrite vadd_length; congruence).
  unfold keyword_names in Hn. inversion Hn as [|? ? _ Hn']; subst.
  apply NoDup_app_inv in Hn' as (Hnv & Hn' & _). apply NoDup_app_inv in Hn' as (Hnp & _ & _).
  rewrite Lv. rewrite <- (chop_length sv x'). rewrite firstn_app, skipn_app, Nat.sub_diag, firstn_all, skipn_all.
  cbn [firstn skipn app]. rewrite app_nil_r.
  rewrite !dict_of_combine; auto; try (rewrite chop_length; auto).
  rewrite (IH x' th'); auto; try (unfold pieces; apply Permutation_refl).
  cbn [bind]. change (seq 0 (S k)) with (0 :: seq 1 k). cbn [map]. do 2 f_equal.
  rewrite <- seq_shift, map_map. apply map_ext. intros t. unfold x', th'. now rewrite <- (path_shift inc d x th (S t)).
Qed.
