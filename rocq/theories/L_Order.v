(** Lemmas for C108: comparison of model objects. *)
From Coq Require Import Lia Sorting.Sorted Sorting.Permutation.
From Verif Require Import Py PyStr M_Primitives M_Registry M_Expand M_Finalize M_Order S_Finalize S_Order L_Finalize L_Graph.
Local Open Scope string_scope.
Local Open Scope list_scope.

Local Arguments Nat.ltb : simpl never.
Lemma str_ltb_before a b : str_ltb a b = true <-> before a b.
Proof.
  assert (Irr : forall s, ~ before s s). { intros s H. assert (G : forall u v, before u v -> u <> v) by (induction 1; intros E; try discriminate; injection E; intros; subst; lia || auto). now apply (G s s H). }
  unfold str_ltb. pose proof (compare_before a b) as C. destruct (String.compare a b).
  - subst b. split; [discriminate|]. intros H. now apply Irr in H.
  - split; [intros _; exact C|reflexivity].
  - split; [discriminate|]. intros H. exfalso. apply (Irr a). exact (before_trans H C).
Qed.
Lemma before_irrefl s : ~ before s s.
Proof. intros H. apply str_ltb_before in H. unfold str_ltb in H. pose proof (compare_before s s) as C. assert (E : forall u, String.compare u u = Eq) by (induction u as [|ch u IH]; [reflexivity|]; cbn; unfold Ascii.compare; now rewrite N.compare_refl). now rewrite E in H. Qed.
Lemma str_ltb_trans a b c : str_ltb a b = true -> str_ltb b c = true -> str_ltb a c = true.
Proof. rewrite !str_ltb_before. intros H1 H2. exact (before_trans H1 H2). Qed.
Lemma str_ltb_irrefl a : str_ltb a a = false.
Proof. destruct (str_ltb a a) eqn:E; [|reflexivity]. apply str_ltb_before in E. now apply before_irrefl in E. Qed.

Lemma tuple_eqb_eq a : forall b, tuple_eqb a b = true <-> a = b.
Proof.
  induction a as [|x a IH]; intros [|y b]; cbn; try (split; [discriminate|discriminate]); [split; reflexivity|].
  rewrite Bool.andb_true_iff, String.eqb_eq, IH. split; [intros (-> & ->); reflexivity|intros E; injection E as -> ->; split; reflexivity].
Qed.
Lemma tuple_ltb_irrefl a : tuple_ltb a a = false.
Proof. induction a as [|x a IH]; [reflexivity|]. cbn. now rewrite String.eqb_refl. Qed.
Lemma tuple_ltb_trans a : forall b c, tuple_ltb a b = true -> tuple_ltb b c = true -> tuple_ltb a c = true.
Proof.
  induction a as [|x a IH]; intros [|y b] [|z c]; cbn; try discriminate; try reflexivity. destruct (String.eqb_spec x y) as [->|N1].
  - destruct (String.eqb_spec y z) as [->|N2]; [apply IH|]. intros _ H. exact H.
  - destruct (String.eqb_spec y z) as [->|N2].
    + intros H _. destruct (String.eqb_spec x z); [contradiction|exact H].
    + intros H1 H2. pose proof (str_ltb_trans _ _ _ H1 H2) as H3. destruct (String.eqb_spec x z) as [->|]; [|exact H3]. now rewrite str_ltb_irrefl in H3.
Qed.

Lemma dict_eqb_spec a b : NoDup (dkeys a) -> NoDup (dkeys b) -> (dict_eqb a b = true <-> same_labels a b).
Proof.
  intros Na Nb. unfold dict_eqb, same_labels. rewrite Bool.andb_true_iff, Nat.eqb_eq, forallb_forall. split.
  - intros (L & F) k.
    assert (Sub : forall k v, dget k a = Some v -> dget k b = Some v).
    { intros k' v E. apply dget_In in E. specialize (F _ E). cbn [fst snd] in F. destruct (dget k' b) as [v'|]; [|discriminate]. apply label_eqb_eq in F. now subst. }
    destruct (dget k a) as [v|] eqn:E; [symmetry; now apply Sub|]. symmetry. apply dget_None. intros I. apply dget_None in E. apply E.
    assert (Inc : incl (dkeys a) (dkeys b)). { intros k' I'. destruct (dget k' a) as [v|] eqn:E'; [|apply dget_None in E'; contradiction]. apply Sub in E'. apply dget_In in E'. unfold dkeys. apply in_map_iff. now exists (k', v). }
    apply (@NoDup_length_incl _ (dkeys a) (dkeys b) Na); [unfold dkeys; rewrite !map_length; lia|exact Inc|exact I].
  - intros H. split.
    + assert (Inc : forall x y : dict label, (forall k, dget k x = dget k y) -> incl (dkeys x) (dkeys y)).
      { intros x y E k I. destruct (dget k y) as [v|] eqn:Ey; [apply dget_In in Ey; unfold dkeys; apply in_map_iff; now exists (k, v)|]. rewrite <- E in Ey. apply dget_None in Ey. contradiction. }
      pose proof (NoDup_incl_length Na (Inc a b H)) as L1. pose proof (NoDup_incl_length Nb (Inc b a (fun k => eq_sym (H k)))) as L2. unfold dkeys in *. rewrite !map_length in *. lia.
    + intros (k & v) I. cbn [fst snd]. rewrite <- H, (@dget_In_NoDup _ k a v Na I). now apply label_eqb_eq.
Qed.

Definition vok (x : fvalue) : Prop := match x with VDict d => NoDup (dkeys d) | _ => True end.
Definition vsame (x y : fvalue) : Prop := match x, y with VDict a, VDict b => same_labels a b | _, _ => x = y end.
Lemma value_eqb_spec x y : vok x -> vok y -> (value_eqb x y = true <-> vsame x y).
Proof.
  destruct x, y; cbn; intros Hx Hy; try (split; discriminate).
  - rewrite String.eqb_eq. split; [now intros ->|intros E; now injection E].
  - rewrite tuple_eqb_eq. split; [now intros ->|intros E; now injection E].
  - now apply dict_eqb_spec.
  - rewrite Bool.eqb_true_iff. split; [now intros ->|intros E; now injection E].
  - rewrite Nat.eqb_eq. split; [now intros ->|intros E; now injection E].
Qed.
Lemma vsame_sym x y : vsame x y -> vsame y x.
Proof. destruct x, y; cbn; try congruence. Qed.
Lemma vsame_trans x y z : vsame x y -> vsame y z -> vsame x z.
Proof. destruct x, y, z; cbn; congruence. Qed.
Lemma vsame_refl x : vsame x x.
Proof. destruct x; cbn; try reflexivity. intros k. reflexivity. Qed.
Lemma vlt_same_l x y z : vsame x y -> value_lt y z = Ok true -> value_lt x z = Ok true.
Proof. destruct x, y; cbn; try discriminate; intros E; try (injection E as ->); now destruct z. Qed.
Lemma vlt_same_r x y z : vsame y z -> value_lt x y = Ok true -> value_lt x z = Ok true.
Proof. destruct y, z; cbn; try discriminate; intros E; try (injection E as ->); try (now destruct x). Qed.
Lemma vlt_irrefl x y : vsame x y -> value_lt x y <> Ok true.
Proof.
  destruct x, y; cbn; try discriminate; intros E; try (injection E as ->).
  - now rewrite str_ltb_irrefl.
  - now rewrite tuple_ltb_irrefl.
  - now destruct b0.
  - now rewrite Nat.ltb_irrefl.
Qed.
Lemma vlt_trans x y z : value_lt x y = Ok true -> value_lt y z = Ok true -> value_lt x z = Ok true.
Proof.
  destruct x, y, z; cbn; try discriminate; intros H1 H2; f_equal.
  - apply str_ltb_trans with s0; congruence.
  - apply tuple_ltb_trans with l0; congruence.
  - destruct b, b0, b1; cbn in *; congruence.
  - injection H1 as H1. injection H2 as H2. apply Nat.ltb_lt in H1, H2. apply Nat.ltb_lt. lia.
Qed.
Lemma eqb_false x y : vok x -> vok y -> value_eqb x y = false -> ~ vsame x y.
Proof. intros Hx Hy E S. apply (value_eqb_spec x y Hx Hy) in S. congruence. Qed.
Lemma fields_lt_trans a : forall b c, Forall vok a -> Forall vok b -> Forall vok c -> length a = length b -> length b = length c ->
  fields_lt a b = Ok true -> fields_lt b c = Ok true -> fields_lt a c = Ok true.
Proof.
  induction a as [|x a IH]; intros [|y b] [|z c] Wa Wb Wc L1 L2; try discriminate. inversion Wa; subst. inversion Wb; subst. inversion Wc; subst. cbn [fields_lt].
  destruct (value_eqb x y) eqn:E1.
  - apply value_eqb_spec in E1; auto. destruct (value_eqb y z) eqn:E2.
    + apply value_eqb_spec in E2; auto. replace (value_eqb x z) with true; [apply IH; auto|]. symmetry. apply value_eqb_spec; auto. now apply vsame_trans with y.
    + intros _ H2'. pose proof (vlt_same_l _ _ _ E1 H2') as H3'. destruct (value_eqb x z) eqn:E3; [|exact H3']. apply value_eqb_spec in E3; auto. exfalso. now apply (vlt_irrefl _ _ E3).
  - destruct (value_eqb y z) eqn:E2.
    + apply value_eqb_spec in E2; auto. intros H1' _. pose proof (vlt_same_r _ _ _ E2 H1') as H3'. destruct (value_eqb x z) eqn:E3; [|exact H3']. apply value_eqb_spec in E3; auto. exfalso. now apply (vlt_irrefl _ _ E3).
    + intros H1' H2'. pose proof (vlt_trans _ _ _ H1' H2') as H3'. destruct (value_eqb x z) eqn:E3; [|exact H3']. apply value_eqb_spec in E3; auto. exfalso. now apply (vlt_irrefl _ _ E3).
Qed.
Lemma fields_lt_self a : forall b, Forall vok a -> Forall vok b -> Forall2 vsame a b -> fields_lt a b = Ok false.
Proof. induction a as [|x a IH]; intros [|y b] Wa Wb F; inversion F; subst; [reflexivity|]. inversion Wa; subst. inversion Wb; subst. cbn [fields_lt]. replace (value_eqb x y) with true; [now apply IH|]. symmetry. now apply value_eqb_spec. Qed.
Lemma fields_ok o : labels_ok o -> Forall vok (fields o).
Proof. intros H. unfold fields. repeat constructor. exact H. Qed.
Lemma kind_eqb_eq a b : kind_eqb a b = true <-> a = b.
Proof. destruct a, b; cbn; split; congruence. Qed.
Lemma same_fields a b : same_object a b <-> o_kind a = o_kind b /\ Forall2 vsame (fields a) (fields b).
Proof.
  unfold same_object, fields. split.
  - intros (K & H1 & H2 & H3 & H4 & H5 & H6 & H7 & H8 & H9 & H10). split; [exact K|]. repeat constructor; cbn; congruence || assumption.
  - intros (K & F). repeat match goal with H : Forall2 _ (_ :: _) (_ :: _) |- _ => inversion H; subst; clear H end. cbn in *. repeat split; congruence || assumption.
Qed.

Lemma c108_equal__p :
  forall a b, labels_ok a -> labels_ok b -> (obj_eq a b = true <-> same_object a b).
Proof.
  intros a b Wa Wb. unfold obj_eq. rewrite same_fields, Bool.andb_true_iff, kind_eqb_eq. apply fields_ok in Wa, Wb. split; intros (K & F); (split; [exact K|]).
  - revert F Wa Wb. assert (L : length (fields a) = length (fields b)) by reflexivity. revert L. generalize (fields a), (fields b). induction l as [|x l IH]; intros [|y m] L F W1 W2; try discriminate; constructor; inversion W1; subst; inversion W2; subst; cbn in F; apply andb_prop in F as (F1 & F2).
    + now apply value_eqb_spec.
    + apply IH; auto.
  - induction F as [|x y l m S F IH]; [reflexivity|]. inversion Wa; subst. inversion Wb; subst. cbn. rewrite (proj2 (value_eqb_spec x y ltac:(assumption) ltac:(assumption)) S). now apply IH.
Qed.

Lemma c108_strict__p :
  forall a b c, labels_ok a -> labels_ok b -> labels_ok c ->
    (same_object a b -> obj_lt a b = Ok false) /\
    (obj_lt a b = Ok true -> obj_lt b a <> Ok true) /\
    (obj_lt a b = Ok true -> obj_lt b c = Ok true -> obj_lt a c = Ok true).
Proof.
  intros a b c Wa Wb Wc. apply fields_ok in Wa, Wb, Wc.
  assert (T : forall x y z, Forall vok (fields x) -> Forall vok (fields y) -> Forall vok (fields z) -> obj_lt x y = Ok true -> obj_lt y z = Ok true -> obj_lt x z = Ok true).
  { intros x y z Wx Wy Wz. unfold obj_lt. destruct (kind_eqb (o_kind x) (o_kind y)) eqn:K1; [|discriminate]. destruct (kind_eqb (o_kind y) (o_kind z)) eqn:K2; [|discriminate].
    apply kind_eqb_eq in K1, K2. replace (kind_eqb (o_kind x) (o_kind z)) with true by (symmetry; apply kind_eqb_eq; congruence). apply fields_lt_trans; auto. }
  assert (S : forall x y, Forall vok (fields x) -> Forall vok (fields y) -> same_object x y -> obj_lt x y = Ok false).
  { intros x y Wx Wy H. apply same_fields in H as (K & F). unfold obj_lt. rewrite (proj2 (kind_eqb_eq _ _) K). now apply fields_lt_self. }
  split; [now apply S|]. split; [|now apply T]. intros H1 H2. pose proof (T a b a Wa Wb Wa H1 H2) as H3. rewrite (S a a) in H3; [discriminate|assumption|assumption|]. apply same_fields. split; [reflexivity|]. generalize (fields a). induction l; constructor; [apply vsame_refl|assumption].
Qed.

Lemma lt_names a b : o_kind a = o_kind b -> o_name a <> o_name b -> obj_lt a b = Ok (str_ltb (o_name a) (o_name b)).
Proof. intros K N. unfold obj_lt. rewrite (proj2 (kind_eqb_eq _ _) K). cbn [fields fields_lt value_eqb]. destruct (String.eqb_spec (o_name a) (o_name b)); [contradiction|reflexivity]. Qed.
Lemma c108_by_name__p :
  forall a b, o_kind a = o_kind b -> o_name a <> o_name b -> exists r, obj_lt a b = Ok r /\ (r = true <-> before (o_name a) (o_name b)).
Proof. intros a b K N. exists (str_ltb (o_name a) (o_name b)). split; [now apply lt_names|apply str_ltb_before]. Qed.

Lemma insert_same k o l : o_kind o = k -> Forall (fun x => o_kind x = k) l -> ~ In (o_name o) (map o_name l) -> insert_lt o l = Ok (insert_object o l).
Proof.
  intros Ko. induction l as [|x l IH]; intros F N; [reflexivity|]. inversion F as [|? ? Kx Fl]; subst. cbn [insert_lt insert_object]. cbn in N. rewrite lt_names by (congruence || (intros E; apply N; now left)). cbn [bind].
  assert (E : name_leb (o_name o) (o_name x) = negb (str_ltb (o_name x) (o_name o))).
  { unfold name_leb, str_ltb. rewrite (String.compare_antisym (o_name o) (o_name x)). destruct (String.compare (o_name x) (o_name o)); reflexivity. }
  rewrite E. destruct (str_ltb (o_name x) (o_name o)); [|reflexivity]. cbn [negb]. rewrite IH; [reflexivity|assumption|]. intros I. apply N. now right.
Qed.
Lemma sorted_same k l : Forall (fun x => o_kind x = k) l -> NoDup (map o_name l) -> py_sorted l = Ok (sort_objects l).
Proof.
  induction l as [|o l IH]; intros F N; [reflexivity|]. inversion F; subst. inversion N; subst. unfold py_sorted in *. cbn [fold_right]. rewrite IH by assumption. cbn [bind sort_objects fold_right].
  apply insert_same with (o_kind o); [reflexivity| |].
  - apply Forall_forall. intros x I. apply (Permutation_in _ (Permutation_sym (sort_perm l))) in I. rewrite Forall_forall in H2. auto.
  - intros I. apply H1. apply (Permutation_in _ (Permutation_map o_name (Permutation_sym (sort_perm l)))). exact I.
Qed.
Lemma c108_sorted__p :
  forall k l, Forall (fun x => o_kind x = k) l -> NoDup (map o_name l) ->
    exists l', py_sorted l = Ok l' /\ Permutation l l' /\ StronglySorted before (map o_name l').
Proof. intros k l F N. exists (sort_objects l). split; [now apply sorted_same with k|]. split; [apply sort_perm|now apply sort_sorted]. Qed.
Lemma c108_finalize__p :
  forall k l, Forall (fun x => o_kind x = k) l -> NoDup (map o_name l) -> py_sorted l = Ok (sort_objects l).
Proof. exact sorted_same. Qed.

Lemma sorted_two a b r : obj_lt b a = r -> (forall x, r <> Ok x) -> exists e, py_sorted [a; b] = Err e /\ r = Err e.
Proof. intros E N. cbn. rewrite E. destruct r as [x|e]; [now destruct (N x)|]. now exists e. Qed.
Lemma c108_mixed__p :
  forall a b, o_kind a <> o_kind b -> obj_eq a b = false /\ py_sorted [a; b] = Err TypeError.
Proof.
  intros a b K. assert (E : kind_eqb (o_kind a) (o_kind b) = false) by (destruct (kind_eqb _ _) eqn:E; [apply kind_eqb_eq in E; contradiction|reflexivity]).
  assert (E' : kind_eqb (o_kind b) (o_kind a) = false) by (destruct (o_kind a), (o_kind b); cbn in *; congruence). split; [unfold obj_eq; now rewrite E|]. cbn. unfold obj_lt. now rewrite E'.
Qed.
Lemma c108_instances__p :
  forall a b, labels_ok a -> labels_ok b -> o_kind a = o_kind b -> o_name a = o_name b -> o_dims a = o_dims b -> ~ same_labels (o_dim_vals a) (o_dim_vals b) ->
    py_sorted [a; b] = Err TypeError.
Proof.
  intros a b Wa Wb K N D L. cbn. unfold obj_lt. rewrite (proj2 (kind_eqb_eq _ _) (eq_sym K)). cbn [fields fields_lt value_eqb]. rewrite N, D, String.eqb_refl. rewrite (proj2 (tuple_eqb_eq _ _) eq_refl).
  destruct (dict_eqb (o_dim_vals b) (o_dim_vals a)) eqn:E; [|reflexivity]. apply dict_eqb_spec in E; [|exact Wb|exact Wa]. exfalso. apply L. intros k. symmetry. apply E.
Qed.
Definition ord_obj : mobj := MkObj KVar "X" ["i"] [] "X" "X_{i}" "output" "X" true true 0.
Lemma c108_unpacked_refuted__p :
  exists o c objs, expand_obj_by_indices (fun l => l) o c None Ignore = Ok objs /\ py_sorted objs = Err TypeError.
Proof. exists ord_obj, [("i", [LStr "a"; LStr "b"])]. eexists. split; [vm_compute; reflexivity|]. vm_compute. reflexivity. Qed.

Lemma tuple_ltb_before a : forall b, tuple_ltb a b = true <-> tuple_before a b.
Proof.
  unfold tuple_before. induction a as [|x a IH]; intros [|y b]; cbn [tuple_ltb].
  - split; [discriminate|]. intros [(y & l & E)|(p & x & y & l & m & E & _)]; [discriminate|now destruct p].
  - split; [|reflexivity]. intros _. left. now exists y, b.
  - split; [discriminate|]. intros [(y & l & E)|(p & u & v & l & m & _ & E & _)]; [discriminate|now destruct p].
  - destruct (String.eqb_spec x y) as [->|N].
    + rewrite IH. split.
      * intros [(z & l & ->)|(p & u & v & l & m & -> & -> & B)]; [left; now exists z, l|right; now exists (y :: p), u, v, l, m].
      * intros [(z & l & E)|(p & u & v & l & m & E1 & E2 & B)]; [left; exists z, l; cbn in E; congruence|].
        destruct p as [|w p]; cbn in E1, E2; [assert (u = y) by congruence; assert (v = y) by congruence; subst; now apply before_irrefl in B|].
        right. exists p, u, v, l, m. repeat split; congruence.
    + rewrite str_ltb_before. split.
      * intros B. right. now exists [], x, y, a, b.
      * intros [(z & l & E)|(p & u & v & l & m & E1 & E2 & B)]; [cbn in E; congruence|].
        destruct p as [|w p]; cbn in E1, E2; [|congruence]. assert (u = x) by congruence. assert (v = y) by congruence. now subst.
Qed.
Lemma tuple_before_irrefl a : ~ tuple_before a a.
Proof. intros H. apply tuple_ltb_before in H. now rewrite tuple_ltb_irrefl in H. Qed.

Lemma str_step a b rest (P : Prop) : (rest = Ok true <-> P) ->
  ((if String.eqb a b then rest else Ok (str_ltb a b)) = Ok true <-> before a b \/ (a = b /\ P)).
Proof.
  intros H. destruct (String.eqb_spec a b) as [->|N].
  - rewrite H. split; [auto|]. intros [B|(_ & B)]; [now apply before_irrefl in B|exact B].
  - rewrite <- str_ltb_before. split; [left; congruence|]. intros [->|(E & _)]; [reflexivity|contradiction].
Qed.
Lemma bool_step a b rest (P : Prop) : (rest = Ok true <-> P) ->
  ((if Bool.eqb a b then rest else Ok (negb a && b)%bool) = Ok true <-> (a = false /\ b = true) \/ (a = b /\ P)).
Proof. intros H. destruct a, b; cbn; rewrite ?H; intuition congruence. Qed.

Lemma c108_order__p :
  forall a b, labels_ok a -> labels_ok b -> o_kind a = o_kind b -> (obj_lt a b = Ok true <-> object_before a b).
Proof.
  intros a b Wa Wb K. unfold obj_lt, object_before. rewrite (proj2 (kind_eqb_eq _ _) K). unfold fields. cbn [fields_lt value_eqb value_lt].
  apply str_step. destruct (tuple_eqb (o_dims a) (o_dims b)) eqn:E.
  2: { rewrite <- tuple_ltb_before. split; [left; congruence|]. intros [->|(D & _)]; [reflexivity|]. apply tuple_eqb_eq in D. congruence. }
  apply tuple_eqb_eq in E. rewrite E. destruct (dict_eqb (o_dim_vals a) (o_dim_vals b)) eqn:L.
  2: { split; [discriminate|]. intros [T|(_ & S & _)]; [now apply tuple_before_irrefl in T|]. apply (dict_eqb_spec _ _ Wa Wb) in S. congruence. }
  apply (dict_eqb_spec _ _ Wa Wb) in L.
  match goal with |- ?X = Ok true <-> _ \/ (_ /\ _ /\ ?Q) => assert (G : X = Ok true <-> Q) end.
  { apply str_step, str_step, str_step, str_step, bool_step, bool_step. destruct (Nat.eqb_spec (o_extend a) (o_extend b)) as [->|N].
    - split; [discriminate|]. intros H. lia.
    - split; intros H; [apply Nat.ltb_lt; congruence|]. now apply Nat.ltb_lt in H as ->. }
  rewrite G. split; [auto|]. intros [T|(_ & _ & H)]; [now apply tuple_before_irrefl in T|exact H].
Qed.
