(** Lemmas for C82: array expressions mean what they say in index notation. *)
From Coq Require Import Ascii Reals Lra Lia ZArith.
From Verif Require Import Py PyStr NdArray M_Primitives M_PyExpr M_Equations M_Tensor S_PyExpr S_Meaning S_Production S_Tensor L_PyExpr L_Meaning.
Local Open Scope string_scope.
Local Open Scope list_scope.

(** ** Arrays *)
Lemma Forall2_length {A B} (P : A -> B -> Prop) l m : Forall2 P l m -> length l = length m.
Proof. induction 1; simpl; congruence. Qed.
Lemma aget_ok {V} (a : arr V) idx : arr_wf a -> in_range (ashape a) idx -> exists v, aget a idx = Ok v.
Proof.
  intros W R. unfold aget. rewrite (proj2 (in_rangeb_spec _ _) R). destruct (nth_error (adata a) (offset (ashape a) idx)) eqn:E; eauto.
  apply nth_error_None in E. rewrite W in E. pose proof (offset_lt R). lia.
Qed.
Lemma map_res_spec {A B} (f : A -> res B) l : (forall x, In x l -> exists v, f x = Ok v) ->
  exists vs, map_res f l = Ok vs /\ length vs = length l /\ forall k x, nth_error l k = Some x -> exists v, f x = Ok v /\ nth_error vs k = Some v.
Proof.
  induction l as [|x l IH]; intros H; [exists []; repeat split; intros [|]; discriminate|].
  destruct (H x (or_introl eq_refl)) as (v & Ev). destruct IH as (vs & E & L & N); [intros; apply H; now right|].
  exists (v :: vs). cbn [map_res]. rewrite Ev. cbn [bind]. rewrite E. cbn [bind]. repeat split; [simpl; congruence|].
  intros [|k] y Hy; cbn in Hy; [injection Hy as <-; exists v; auto|]. now apply N.
Qed.
Lemma build_spec {V} s (f : list nat -> res V) : (forall idx, in_range s idx -> exists v, f idx = Ok v) ->
  exists a, build s f = Ok a /\ ashape a = s /\ arr_wf a /\ forall idx, in_range s idx -> aget a idx = f idx.
Proof.
  intros H. destruct (@map_res_spec _ _ f (ndindex s)) as (vs & E & L & N); [intros x Hx; apply H; now apply in_ndindex|].
  exists (mkArr s vs). unfold build. rewrite E. cbn [bind ashape]. split; [reflexivity|]. split; [reflexivity|].
  split; [unfold arr_wf; cbn; rewrite L; apply ndindex_length|]. intros idx R. unfold aget. cbn [ashape adata].
  rewrite (proj2 (in_rangeb_spec _ _) R). destruct (N _ _ (nth_ndindex_offset R)) as (v & Ev & ->). now rewrite Ev.
Qed.

Section Tensor.
Variable c : coords.

Definition realizes (a : arr R) (axes : list axis) (F : indices -> option R) : Prop :=
  ashape a = map (axis_size c) axes /\ arr_wf a /\
  forall ix v, within c ix axes -> F ix = Some v -> aget a (map (position ix) axes) = Ok v.

Lemma within_range ix axes : within c ix axes -> in_range (map (axis_size c) axes) (map (position ix) axes).
Proof.
  induction axes as [|a axes IH]; intros W; [constructor|]. constructor.
  - destruct a as [d|]; cbn; [apply W; now left|lia].
  - apply IH. intros d D. apply W. now right.
Qed.
Lemma within_app ix a b : within c ix (a ++ b) <-> within c ix a /\ within c ix b.
Proof. unfold within. split; [intros H; split; intros d D; apply H, in_or_app; auto|]. intros (A & B) d D. apply in_app_or in D as [D|D]; auto. Qed.

(** ** Broadcasting *)
Lemma meets_length a b r : meets a b r -> length a = length b /\ length r = length a.
Proof. induction 1; simpl; lia. Qed.
Lemma meets_shape a b r : meets a b r -> broadcast_lens (map (axis_size c) a) (map (axis_size c) b) = Some (map (axis_size c) r).
Proof.
  induction 1 as [|a b r s t u M H IH]; [reflexivity|]. cbn [map broadcast_lens]. rewrite IH.
  assert (broadcast_len (axis_size c a) (axis_size c b) = Some (axis_size c r)) as ->; [|reflexivity].
  unfold broadcast_len. destruct M as [(-> & [-> | ->])|(-> & ->)]; cbn [axis_size].
  - now rewrite Nat.eqb_refl.
  - destruct (Nat.eqb_spec (axis_size c a) 1) as [->|]; reflexivity.
  - destruct (Nat.eqb_spec 1 (axis_size c b)) as [<-|]; reflexivity.
Qed.
Lemma pad_map {A B} (f : A -> B) x n l : pad (f x) n (map f l) = map f (pad x n l).
Proof. unfold pad. rewrite map_app, map_length. f_equal. induction (n - length l); simpl; congruence. Qed.
Lemma joined_shape a b r : joined a b r -> broadcast_shape (map (axis_size c) a) (map (axis_size c) b) = Some (map (axis_size c) r).
Proof.
  unfold joined, broadcast_shape. intros H. rewrite !map_length. change 1 with (axis_size c None). rewrite !pad_map. apply meets_shape. exact H.
Qed.

(** Each axis of an operand is an axis of the result or inserted *)
Lemma meets_sides a b r : meets a b r ->
  Forall2 (fun x z => x = z \/ x = None) a r /\ Forall2 (fun y z => y = z \/ y = None) b r.
Proof.
  induction 1 as [|a b r s t u M H (I1 & I2)]; [split; constructor|].
  destruct M as [(-> & [-> | ->])|(-> & ->)]; split; constructor; auto.
Qed.
Lemma skipn_app_exact {A} (l m : list A) : skipn (length l) (l ++ m) = m.
Proof. induction l; simpl; auto. Qed.
Lemma side_index ix n a r : Forall2 (fun x z => x = z \/ x = None) (padded n a) r -> length a <= n -> within c ix r ->
  within c ix a /\ broadcast_index (map (axis_size c) a) (map (position ix) r) = map (position ix) a.
Proof.
  unfold padded. intros H L W. apply Forall2_app_inv_l in H as (r1 & r2 & H1 & H2 & ->).
  assert (L1 : length r1 = n - length a) by (rewrite <- (Forall2_length H1), repeat_length; reflexivity).
  pose proof (Forall2_length H2) as L2. apply within_app in W as (_ & W). unfold broadcast_index. rewrite map_app, app_length, !map_length.
  replace (length r1 + length r2 - length a) with (length (map (position ix) r1)) by (rewrite map_length; lia). rewrite skipn_app_exact.
  clear H1 L1 L L2. induction H2 as [|x z a r2 Hx H IH]; [split; [intros d []|reflexivity]|].
  destruct IH as (I1 & I2); [intros d D; apply W; now right|]. cbn [map combine fst snd]. rewrite I2. split.
  - intros d [D|D]; [|now apply I1]. subst x. destruct Hx as [<- |]; [|discriminate]. apply W. now left.
  - f_equal. destruct Hx as [-> | ->]; [|reflexivity]. destruct z as [d|]; cbn [axis_size position]; [|reflexivity].
    destruct (Nat.eqb_spec (size c d) 1) as [E|]; [|reflexivity]. assert (ix d < size c d) by (apply W; now left). lia.
Qed.

(** The index positions behind a multi-index of a shape: any in-range index
    vector of an operand stays in range *)
Lemma broadcast_in_range s t r idx : broadcast_shape s t = Some r -> in_range r idx ->
  in_range s (broadcast_index s idx) /\ in_range t (broadcast_index t idx).
Proof.
  unfold broadcast_shape. set (n := Nat.max (length s) (length t)). intros H R.
  assert (K : forall x y z, broadcast_lens x y = Some z -> length x = length y ->
            Forall2 (fun p q => p = q \/ p = 1) x z /\ Forall2 (fun p q => p = q \/ p = 1) y z).
  { induction x as [|p x IH]; intros [|q y] z E L; try discriminate; [injection E as <-; split; constructor|]. cbn in E.
    unfold broadcast_len in E. destruct (broadcast_lens x y) as [u|] eqn:U.
    2:{ destruct (Nat.eqb p q); [discriminate|]. destruct (Nat.eqb p 1); [discriminate|]. destruct (Nat.eqb q 1); discriminate. }
    destruct (IH y u U) as (I1 & I2); [simpl in L; lia|].
    destruct (Nat.eqb_spec p q); [injection E as <-; subst; split; constructor; auto|].
    destruct (Nat.eqb_spec p 1); [injection E as <-; subst; split; constructor; auto|].
    destruct (Nat.eqb_spec q 1); [injection E as <-; subst; split; constructor; auto|discriminate]. }
  assert (P1 : length (pad 1 n s) = n) by (unfold pad; rewrite app_length, repeat_length; lia).
  assert (P2 : length (pad 1 n t) = n) by (unfold pad; rewrite app_length, repeat_length; lia).
  destruct (K _ _ _ H ltac:(congruence)) as (K1 & K2).
  assert (M : forall x, length x <= n -> Forall2 (fun p q => p = q \/ p = 1) (pad 1 n x) r -> in_range x (broadcast_index x idx)).
  { intros x Lx F. unfold pad in F. apply Forall2_app_inv_l in F as (r1 & r2 & F1 & F2 & ->).
    unfold in_range in R. apply Forall2_app_inv_r in R as (i1 & i2 & R1 & R2 & ->). unfold broadcast_index. rewrite app_length.
    pose proof (Forall2_length R2). pose proof (Forall2_length F2). replace (length i1 + length i2 - length x) with (length i1) by lia.
    rewrite skipn_app_exact. clear - F2 R2. revert i2 R2. induction F2 as [|p q x r2 E F IH]; intros i2 R2; [constructor|].
    inversion R2; subst. cbn [combine map fst snd]. constructor; [|now apply IH]. destruct (Nat.eqb_spec p 1); [lia|]. destruct E; [congruence|contradiction]. }
  split; apply M; auto; lia.
Qed.

Lemma elemwise_realizes f op a b A B r F G : joined A B r -> realizes a A F -> realizes b B G ->
  (forall x y v, apply_op op x y = Some v -> f x y = v) ->
  exists z, elemwise f a b = Ok z /\ realizes z r (fun ix => lift2 (apply_op op) (F ix) (G ix)).
Proof.
  intros J (Sa & Wa & Va) (Sb & Wb & Vb) Hf. unfold elemwise. pose proof (joined_shape J) as S. rewrite Sa, Sb, S.
  destruct (@build_spec _ (map (axis_size c) r) (fun idx => let* x := aget a (broadcast_index (map (axis_size c) A) idx) in
              let* y := aget b (broadcast_index (map (axis_size c) B) idx) in Ok (f x y))) as (z & E & Sz & Wz & Gz).
  { intros idx R. destruct (@broadcast_in_range _ _ _ _ S R) as (Ra & Rb). rewrite <- Sa in Ra at 1. rewrite <- Sb in Rb at 1.
    destruct (aget_ok Wa Ra) as (x & ->). destruct (aget_ok Wb Rb) as (y & ->). cbn [bind]. eauto. }
  exists z. split; [exact E|]. split; [exact Sz|]. split; [exact Wz|]. intros ix v W H. rewrite Gz by now apply within_range.
  pose proof (meets_sides J) as (J1 & J2).
  destruct (@side_index ix _ _ _ J1 (Nat.le_max_l _ _) W) as (Wi & ->). destruct (@side_index ix _ _ _ J2 (Nat.le_max_r _ _) W) as (Wj & ->).
  destruct (F ix) as [x|] eqn:Fx; [|discriminate]. destruct (G ix) as [y|] eqn:Gy; [|discriminate]. cbn [lift2] in H.
  rewrite (Va ix x Wi Fx), (Vb ix y Wj Gy). cbn [bind]. f_equal. now apply Hf.
Qed.

(** ** Indexing *)
Lemma index_in_range items : forall s t idx, index_shape items s = Ok t -> in_range t idx -> in_range s (source_index items idx).
Proof.
  induction items as [|i items IH]; intros s t idx E R; [injection E as <-; destruct idx; exact R|]. destruct i; cbn [index_shape] in E.
  - destruct s as [|n s]; [discriminate|]. destruct (index_shape items s) as [t'|] eqn:Et; [|discriminate]. injection E as <-.
    inversion R; subst. cbn [source_index]. constructor; [assumption|]. now apply IH with t'.
  - assert (exists t', index_shape items s = Ok t' /\ t = 1 :: t') as (t' & Et & ->) by (destruct s; (destruct (index_shape items _) as [t'|]; [|discriminate]); injection E as <-; eauto).
    inversion R; subst. cbn [source_index tl]. now apply IH with t'.
  - destruct s as [|n s]; [discriminate|]. destruct (Nat.ltb_spec k n); [|discriminate]. cbn [source_index].
    assert (in_range (n :: s) (k :: source_index items idx)) by (constructor; [assumption|now apply IH with t]). destruct idx; assumption.
Qed.
Lemma index_realizes items a A B F F' : realizes a A F -> index_shape items (map (axis_size c) A) = Ok (map (axis_size c) B) ->
  (forall ix v, within c ix B -> F' ix = Some v ->
     exists ix', within c ix' A /\ source_index items (map (position ix) B) = map (position ix') A /\ F ix' = Some v) ->
  exists z, index_array a items = Ok z /\ realizes z B F'.
Proof.
  intros (Sa & Wa & Va) E H. unfold index_array. rewrite Sa, E. cbn [bind].
  destruct (@build_spec _ (map (axis_size c) B) (fun idx => aget a (source_index items idx))) as (z & Ez & Sz & Wz & Gz).
  { intros idx R. apply aget_ok; [exact Wa|]. rewrite Sa. exact (@index_in_range items _ _ idx E R). }
  exists z. split; [exact Ez|]. split; [exact Sz|]. split; [exact Wz|]. intros ix v W Fv. rewrite Gz by now apply within_range.
  destruct (H ix v W Fv) as (ix' & W' & -> & F1). now apply Va.
Qed.
Lemma inserted_items args A B : inserted args A B -> exists items, index_items args = Ok items /\
  index_shape items (map (axis_size c) A) = Ok (map (axis_size c) B) /\
  (forall ix, within c ix B -> within c ix A) /\ forall ix, source_index items (map (position ix) B) = map (position ix) A.
Proof.
  induction 1 as [a|rest a b H (items & E & S & W & X)|rest x a b H (items & E & S & W & X)].
  - exists []. repeat split; auto.
  - exists (INew :: items). cbn [index_items String.eqb Ascii.eqb Bool.eqb bind]. rewrite E. cbn [bind]. split; [reflexivity|]. split.
    + cbn [map axis_size]. assert (forall s, index_shape (INew :: items) s = let* s' := index_shape items s in Ok (1 :: s')) as -> by (intros []; reflexivity). now rewrite S.
    + split; [|exact X]. intros ix D. apply W. intros d I. apply D. now right.
  - exists (IAll :: items). cbn [index_items bind]. rewrite E. cbn [bind]. split; [reflexivity|]. split; [cbn [map index_shape]; now rewrite S|]. split.
    + intros ix D d [->|I]; [apply D; now left|]. apply W; [|exact I]. intros d' I'. apply D. now right.
    + intros ix. cbn [map source_index]. now rewrite X.
Qed.

Lemma upd_same ix d k : upd ix d k d = k.
Proof. unfold upd. now rewrite String.eqb_refl. Qed.
Lemma upd_other ix d k e : e <> d -> upd ix d k e = ix e.
Proof. intros N. unfold upd. destruct (String.eqb_spec d e); congruence. Qed.
Lemma position_upd ix d k A : ~ In (Some d) A -> map (position (upd ix d k)) A = map (position ix) A.
Proof.
  intros N. apply map_ext_in. intros [e|] I; [|reflexivity]. cbn. apply upd_other. intros ->. contradiction.
Qed.
Lemma within_upd ix d k A : ~ In (Some d) A -> within c ix A -> within c (upd ix d k) A.
Proof. intros N W e I. rewrite upd_other; [now apply W|]. intros ->. contradiction. Qed.

(** ** Reductions *)
Lemma total_of_some f z l v : total_of f z l = Some v -> exists vs, l = map Some vs /\ v = fold_right f z vs.
Proof.
  revert v. induction l as [|x l IH]; intros v H; cbn in H; [injection H as <-; now exists []|].
  unfold total_of in IH. destruct x as [x|]; [|discriminate]. destruct (fold_right _ _ l) as [w|]; [|discriminate]. cbn in H. injection H as <-.
  destruct (IH w eq_refl) as (vs & -> & ->). now exists (x :: vs).
Qed.
Lemma map_res_const {A B} (f : A -> res B) l vs : map f l = map Ok vs -> map_res f l = Ok vs.
Proof.
  revert vs. induction l as [|x l IH]; intros [|v vs] H; try discriminate; [reflexivity|]. cbn in H. injection H as Hx Hl.
  cbn [map_res]. rewrite Hx. cbn [bind]. now rewrite (IH vs Hl).
Qed.
Lemma firstn_app_exact {A} (l m : list A) : firstn (length l) (l ++ m) = l.
Proof. induction l; simpl; congruence. Qed.
Lemma skipn_S_app {A} (l m : list A) x : skipn (S (length l)) (l ++ x :: m) = m.
Proof. induction l; simpl; auto. Qed.
Lemma reduce_axis_realizes f z a A d B F : realizes a (A ++ Some d :: B) F -> ~ In (Some d) (A ++ B) ->
  exists y, reduce_axis f z (length A) a = Ok y /\ realizes y (A ++ B) (over c f z d F).
Proof.
  intros (Sa & Wa & Va) N. unfold reduce_axis. rewrite Sa, map_app. cbn [map axis_size].
  replace (nth_error (map (axis_size c) A ++ size c d :: map (axis_size c) B) (length A)) with (Some (size c d)).
  2:{ rewrite nth_error_app2 by (rewrite map_length; lia). rewrite map_length, Nat.sub_diag. reflexivity. }
  assert (LA : length A = length (map (axis_size c) A)) by now rewrite map_length.
  replace (firstn (length A) (map (axis_size c) A ++ size c d :: map (axis_size c) B)) with (map (axis_size c) A) by (rewrite LA; symmetry; apply firstn_app_exact).
  replace (skipn (S (length A)) (map (axis_size c) A ++ size c d :: map (axis_size c) B)) with (map (axis_size c) B) by (rewrite LA; symmetry; apply skipn_S_app).
  rewrite <- map_app.
  destruct (@build_spec _ (map (axis_size c) (A ++ B)) (fun idx => let* xs := map_res (fun j => aget a (firstn (length A) idx ++ j :: skipn (length A) idx)) (seq 0 (size c d)) in
              Ok (fold_right f z xs))) as (y & Ey & Sy & Wy & Gy).
  { intros idx R. destruct (@map_res_spec _ _ (fun j => aget a (firstn (length A) idx ++ j :: skipn (length A) idx)) (seq 0 (size c d))) as (vs & -> & _); [|cbn [bind]; eauto].
    intros j J. apply in_seq in J. apply aget_ok; [exact Wa|]. rewrite Sa, map_app. cbn [map axis_size]. unfold in_range in *. rewrite map_app in R.
    apply Forall2_app_inv_r in R as (i1 & i2 & R1 & R2 & ->). pose proof (Forall2_length R1) as L1. rewrite map_length in L1.
    rewrite <- L1, firstn_app_exact, skipn_app_exact. apply Forall2_app; [exact R1|]. constructor; [lia|exact R2]. }
  exists y. split; [exact Ey|]. split; [exact Sy|]. split; [exact Wy|]. intros ix v W H. rewrite Gy by now apply within_range.
  apply total_of_some in H as (vs & H & ->).
  assert (LP : length A = length (map (position ix) A)) by now rewrite map_length. rewrite map_app. rewrite LP, firstn_app_exact, skipn_app_exact.
  rewrite (@map_res_const _ _ _ (seq 0 (size c d)) vs); [reflexivity|].
  assert (Q : forall k, In k (seq 0 (size c d)) -> forall w, F (upd ix d k) = Some w -> aget a (map (position ix) A ++ k :: map (position ix) B) = Ok w).
  { intros k K w Fw. apply in_seq in K. assert (NA : ~ In (Some d) A) by (intros I; apply N, in_or_app; now left). assert (NB : ~ In (Some d) B) by (intros I; apply N, in_or_app; now right).
    apply within_app in W as (WA & WB). rewrite <- (Va (upd ix d k) w); [|apply within_app; split; [now apply within_upd|]|exact Fw].
    - rewrite map_app. cbn [map position]. rewrite upd_same, !position_upd by assumption. reflexivity.
    - intros e [E|I]; [injection E as <-; rewrite upd_same; lia|]. now apply (@within_upd ix d k B NB WB). }
  clear - H Q. revert vs H Q. induction (seq 0 (size c d)) as [|k l IH]; intros [|v vs] H Q; try discriminate; [reflexivity|]. cbn [map] in H |- *. injection H as Hk Hl.
  f_equal; [now apply Q; [now left|]|]. apply IH; [exact Hl|]. intros k' K'. apply Q. now right.
Qed.

Section All.
Variables (f : R -> R -> R) (z : R).
Hypothesis assoc : forall x y w, f x (f y w) = f (f x y) w.
Hypothesis id_l : forall x, f z x = x.
Hypothesis id_r : forall x, f x z = x.
Lemma fold_app l m : fold_right f z (l ++ m) = f (fold_right f z l) (fold_right f z m).
Proof. induction l as [|x l IH]; cbn; [now rewrite id_l|]. now rewrite IH, assoc. Qed.
Lemma over_all_fold : forall A g F ix v, NoDup (dims_of A) -> over_all c f z A F ix = Some v ->
  (forall ix' w, (forall e, ~ In e (dims_of A) -> ix' e = ix e) -> within c ix' A -> F ix' = Some w -> g (map (position ix') A) = w) ->
  fold_right f z (map g (ndindex (map (axis_size c) A))) = v.
Proof.
  induction A as [|[d|] A IH]; intros g F ix v N H G.
  - cbn in H |- *. rewrite id_r. apply (G ix); auto. intros d [].
  - cbn [dims_of flat_map app] in N. inversion N as [|? ? Nd NA]; subst. cbn [over_all] in H. unfold over in H. apply total_of_some in H as (vs & H & ->).
    cbn [map axis_size]. rewrite ndindex_cons.
    assert (Q : forall k w, In k (seq 0 (size c d)) -> over_all c f z A F (upd ix d k) = Some w ->
              fold_right f z (map g (map (cons k) (ndindex (map (axis_size c) A)))) = w).
    { intros k w K Hk. apply in_seq in K. rewrite map_map. apply (IH (fun idx => g (k :: idx)) F (upd ix d k) w); [exact NA|exact Hk|].
      intros ix' u Out W Fu. assert (Ed : ix' d = k) by (rewrite (Out d Nd); apply upd_same). rewrite <- Ed. apply (G ix' u).
      - intros e Ne. cbn [dims_of flat_map app] in Ne. rewrite Out; [apply upd_other; intros ->; apply Ne; now left|]. intros I. apply Ne. now right.
      - intros e [E|I]; [injection E as <-; lia|]. now apply W.
      - exact Fu. }
    clear - H Q assoc id_l. revert vs H Q. induction (seq 0 (size c d)) as [|k l IHl]; intros [|v vs] H Q; try discriminate; [reflexivity|].
    cbn [map flat_map] in H |- *. injection H as Hk Hl. rewrite map_app, fold_app. cbn [fold_right]. f_equal; [now apply Q; [now left|]|].
    apply IHl; [exact Hl|]. intros k' w K'. apply Q. now right.
  - cbn [over_all] in H. cbn [map axis_size]. rewrite ndindex_cons. cbn [seq flat_map]. rewrite app_nil_r, map_map. apply (IH (fun idx => g (0 :: idx)) F ix v); auto.
    intros ix' w Out W Fw. apply (G ix' w); auto. intros e [E|I]; [discriminate|]. now apply W.
Qed.
Lemma adata_map {V} (dflt : V) (a : arr V) : arr_wf a -> adata a = map (fun idx => match aget a idx with Ok v => v | Err _ => dflt end) (ndindex (ashape a)).
Proof.
  intros W. apply nth_ext with (d := dflt) (d' := dflt); [rewrite map_length, ndindex_length; exact W|]. intros n Hn.
  destruct (nth_error (ndindex (ashape a)) n) as [idx|] eqn:E; [|apply nth_error_None in E; rewrite ndindex_length, <- W in E; lia].
  pose proof (@offset_nth_ndindex _ _ _ E) as (R & O). apply nth_error_nth with (d := []) in E as E'.
  set (g := fun idx => match aget a idx with Ok v => v | Err _ => dflt end).
  rewrite (nth_indep (map g (ndindex (ashape a))) dflt (g [])) by (rewrite map_length, ndindex_length, <- W; exact Hn).
  rewrite (map_nth g), E'. unfold g.
  unfold aget. rewrite (proj2 (in_rangeb_spec _ _) R), O. destruct (nth_error (adata a) n) as [v|] eqn:Ev; [|apply nth_error_None in Ev; lia].
  now apply nth_error_nth.
Qed.
Lemma reduce_all_realizes a A F : realizes a A F -> NoDup (dims_of A) -> realizes (reduce_all f z a) [] (over_all c f z A F).
Proof.
  intros (Sa & Wa & Va) N. split; [reflexivity|]. split; [reflexivity|]. intros ix v _ H. cbn. f_equal.
  rewrite (adata_map 0%R Wa), Sa. apply (@over_all_fold A _ F ix v N H). intros ix' w _ W Fw. now rewrite (Va ix' w W Fw).
Qed.
End All.
End Tensor.
