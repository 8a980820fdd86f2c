(** C47, C48 and the part of C18 about reductions. *)
From Coq Require Import Reals Lra.
From Verif Require Import Py PyStr M_SymExpr S_Reduce L_Reduce L_Reduce2 L_Reduce3.
Local Open Scope string_scope.
Local Open Scope list_scope.

Lemma rop_eqb_refl o : rop_eqb o o = true. Proof. now destruct o. Qed.

Section Loop.
Context (coords : dict (list string)) (axes : string -> list (list string)) (PL : plain_labels coords).
Context (si : sexpr -> list string -> bool) (sord : list sexpr -> list sexpr) (dord : list (sexpr * sexpr) -> list (sexpr * sexpr)).
Context (SO : walks_set sord) (DO : walks_set dord).
Notation flat := (flat_reductions coords axes).

(** [r] may replace [op] *)
Definition same (op r : sexpr) : Prop :=
  no_reduction r /\ no_position r /\ (forall v w g, den coords v w g r = den coords v w g op) /\ (forall i, occurs_free i r <-> occurs_free i op).
Definition is_red (e : sexpr) : Prop := match e with SRed _ _ _ => True | _ => False end.

Lemma subs1_nored op r e : is_red op -> no_reduction e -> subs1 si op r e = e.
Proof.
  intros I. induction e; intros R; cbn [subs1]; try tauto.
  1-3: destruct (sexpr_eqb _ op) eqn:E; auto; apply sexpr_eqb_eq in E; subst; easy.
  - destruct (sexpr_eqb _ op) eqn:E; [apply sexpr_eqb_eq in E; subst; easy|]. destruct R. now rewrite IHe1, IHe2.
  - destruct (sexpr_eqb _ op) eqn:E; [apply sexpr_eqb_eq in E; subst; easy|]. now rewrite IHe.
Qed.
Lemma flat_nored e : no_reduction e -> flat e.
Proof. induction e; cbn; tauto. Qed.
Lemma find_nored o e : no_reduction e -> find_ops o e = [].
Proof. induction e; cbn; try tauto. intros (A & B). now rewrite IHe1, IHe2. Qed.

Lemma over_same o a lims r v w g : (forall g, den coords v w g r = den coords v w g a) -> den coords v w g (SRed o r lims) = den coords v w g (SRed o a lims).
Proof. intros H. cbn. now apply over_ext. Qed.

Lemma subs1_flat op r e : is_red op -> same op r -> flat e ->
  let e' := subs1 si op r e in
  flat e' /\ (forall o x, In x (find_ops o e') -> In x (find_ops o e) /\ x <> op) /\ (no_position e -> no_position e') /\
  (forall v w g, den coords v w g e' = den coords v w g e) /\ (forall i, occurs_free i e' <-> occurs_free i e).
Proof.
  intros I (Sn & Sp & Sd & So). induction e; intros F e'; unfold e'; clear e'; cbn [subs1].
  1-3: destruct (sexpr_eqb _ op) eqn:E; [apply sexpr_eqb_eq in E; subst; easy|]; repeat split; auto; easy.
  - destruct (sexpr_eqb _ op) eqn:E; [apply sexpr_eqb_eq in E; subst; easy|]. destruct F as (F1 & F2).
    destruct (IHe1 F1) as (A1 & B1 & C1 & D1 & E1), (IHe2 F2) as (A2 & B2 & C2 & D2 & E2).
    split; [split; auto|]. split; [|split; [|split]].
    + intros p x H. cbn in *. apply in_app_iff in H as [H|H]; [apply B1 in H|apply B2 in H]; rewrite in_app_iff; tauto.
    + cbn. tauto.
    + intros v w g. cbn. now rewrite D1, D2.
    + intros i. split; intros H; inversion H; subst; [apply OfL; now apply E1 | apply OfR; now apply E2 | apply OfL; now apply E1 | apply OfR; now apply E2].
  - destruct (sexpr_eqb _ op) eqn:E; [apply sexpr_eqb_eq in E; subst; easy|].
    destruct (IHe F) as (A1 & B1 & C1 & D1 & E1). split; auto. split; [intros p x H; cbn in *; now apply B1 in H|]. split; auto. split; [intros v w g; cbn; now rewrite D1|]. intros i. split.
    + intros H; inversion H; subst. constructor. now apply E1.
    + intros H; inversion H; subst. constructor. now apply E1.
  - destruct (sexpr_eqb _ op) eqn:E.
    + apply sexpr_eqb_eq in E. subst op. split; [now apply flat_nored|]. split; [|repeat split; auto; apply So].
      intros p x H. now rewrite find_nored in H.
    + assert (N : SRed o e lims <> op) by (intros EE; subst op; now rewrite sexpr_eqb_refl in E).
      assert (X : (if si op (map fst lims) then SRed o (subs1 si op r e) lims else SRed o e lims) = SRed o e lims).
      { destruct F as (F & _). rewrite subs1_nored by auto. now destruct (si _ _). }
      rewrite X. split; auto. split; [|repeat split; auto]. intros p x H. split; auto. cbn in H. destruct F as (F & _).
      rewrite (find_nored p _ F) in H. destruct (rop_eqb p o); [|easy]. destruct H as [<-|[]]. auto.
Qed.

Lemma find_flat o e x : flat e -> In x (find_ops o e) -> is_red x /\ flat x /\ In x (find_ops o x).
Proof.
  induction e; cbn [find_ops]; try easy.
  - intros (F1 & F2) H. apply in_app_iff in H as [H|H]; auto.
  - intros F H. destruct (rop_eqb o o0) eqn:E.
    + destruct F as (F & G). rewrite (find_nored o _ F) in *. destruct H as [<-|[]]. split; [exact I|]. split; [split; auto|]. cbn. rewrite E. now left.
    + destruct F as (F & _). now rewrite (find_nored o _ F) in H.
Qed.

(** Free indices of a doit *)
Lemma occurs_free_leaf i e : no_reduction e -> (occurs_free i e <-> exists b l, In (b, l) (indexed_exprs e) /\ In (IVar i) l).
Proof.
  induction e; cbn; intros R; try tauto.
  - split; [inversion 1 | intros (? & ? & [] & _)].
  - split; [inversion 1 | intros (? & ? & [] & _)].
  - split; [inversion 1; subst; eauto | intros (b & l & [E|[]] & H); injection E as <- <-; now constructor].
  - destruct R as (R1 & R2). split.
    + inversion 1; subst; [apply IHe1 in H1; auto; destruct H1 as (b & l & H1 & H2) | apply IHe2 in H1; auto; destruct H1 as (b & l & H1 & H2)];
        exists b, l; rewrite in_app_iff; auto.
    + intros (b & l & H1 & H2). apply in_app_iff in H1 as [H1|H1]; [apply OfL; apply IHe1; eauto | apply OfR; apply IHe2; eauto].
  - split; [inversion 1; subst; now apply IHe | intros H; constructor; now apply IHe].
Qed.

Lemma doit1_free o e i lo hi d : no_reduction e -> lo <= hi ->
  ((exists b l, In (b, l) (indexed_exprs (doit1 o e (i, (lo, hi)))) /\ In (IVar d) l) <->
   ((exists b l, In (b, l) (indexed_exprs e) /\ In (IVar d) l) /\ d <> i)).
Proof.
  intros R L. split.
  - intros (b & l & H & D). apply doit1_leaves in H as (l1 & k & H & _ & ->); auto. apply in_map_iff in D as (x & E & D).
    destruct x; cbn in E; try discriminate. destruct (String.eqb_spec s i); [discriminate|]. injection E as ->. split; eauto.
  - intros ((b & l & H & D) & N). exists b, (map (set_idx i lo) l). split.
    + unfold doit1, positions. cbn [fst snd]. replace (S hi - lo) with (S (hi - lo)) by lia. cbn. apply in_app_iff. left.
      rewrite set_index_leaf, indexed_leafmap by auto. apply in_map_iff. exists (b, l). auto.
    + apply in_map_iff. exists (IVar d). split; auto. cbn. destruct (String.eqb_spec d i); congruence.
Qed.

Lemma doit_free o lims e d : no_reduction e -> typed coords axes e -> lims_ok coords lims ->
  ((exists b l, In (b, l) (indexed_exprs (fold_left (doit1 o) lims e)) /\ In (IVar d) l) <->
   ((exists b l, In (b, l) (indexed_exprs e) /\ In (IVar d) l) /\ ~ In d (map fst lims))).
Proof.
  revert e. induction lims as [|(i & (lo & hi)) lims IH]; intros e R T L; cbn [fold_left map fst].
  - cbn. tauto.
  - destruct (L i lo hi (or_introl eq_refl)) as (LH & ls & C & K).
    destruct (@doit1_spec coords axes (fun _ _ => None) (fun _ => None) o e i lo hi ls (fun _ => None) R T C K) as (I1 & I2 & _).
    rewrite IH; auto; [|intros x y z H; apply L; now right]. rewrite doit1_free by auto. cbn. intuition.
Qed.

Lemma lam_var l labs d : Forall2 (fits coords) l labs -> (In (IVar d) (lab_ixs labs l) <-> In (IVar d) l) /\ forall n, ~ In (IPos n) (lab_ixs labs l).
Proof.
  induction 1 as [|x ls l labs F FF (IH & IP)]; [cbn; tauto|]. destruct F as [(s & -> & D)|(k & -> & L)]; cbn.
  - split; [rewrite IH; tauto|]. intros n [|]; [discriminate|now apply (IP n)].
  - destruct (nth_error ls k) eqn:E; [|apply nth_error_None in E; lia]. split; [rewrite IH; intuition; discriminate|].
    intros n [|]; [discriminate|now apply (IP n)].
Qed.

Lemma lam_plain l labs : Forall2 (model_index coords) l labs -> lab_ixs labs l = l.
Proof. induction 1 as [|x ls l labs (s & -> & D) FF IH]; cbn; auto. now rewrite IH. Qed.

Lemma no_position_leaf e : no_reduction e -> (forall b l, In (b, l) (indexed_exprs e) -> forall n, ~ In (IPos n) l) -> no_position e.
Proof.
  induction e; cbn; intros R H; try tauto.
  - eapply H. now left.
  - destruct R. split; [apply IHe1|apply IHe2]; auto; intros b l X; eapply H; apply in_app_iff; eauto.
Qed.

Lemma expand_same op : is_red op -> flat op -> exists r, expand_op si dord coords op = Ok r /\ same op r.
Proof.
  destruct op; cbn [is_red]; try tauto. intros _ (R & M & L). fold (lims_ok coords lims) in L.
  eexists. split; [apply expand_op_ok with (axes := axes); auto|].
  assert (T : typed coords axes op).
  { intros b l H. specialize (M _ _ H). clear - M. induction M; constructor; auto. left. auto. }
  assert (E : doit (SRed o op lims) = fold_left (doit1 o) lims op) by (cbn; now rewrite doit_nored). rewrite E. clear E.
  assert (P : forall v w, no_reduction (fold_left (doit1 o) lims op) /\ typed coords axes (fold_left (doit1 o) lims op) /\
     forall g, den coords v w g (leafmap (lam axes) (fold_left (doit1 o) lims op)) = over coords o lims (fun g => den coords v w g (leafmap (lam axes) op)) g)
    by (intros; now apply doit_spec).
  destruct (P (fun _ _ => None) (fun _ => None)) as (R0 & T0 & _).
  assert (RL : no_reduction (leafmap (lam axes) (fold_left (doit1 o) lims op))) by now apply leafmap_nored.
  split; auto. split; [|split].
  - apply no_position_leaf; auto. intros b l H. rewrite indexed_leafmap in H. apply in_map_iff in H as ((b0 & l0) & E & H). cbn in E. injection E as <- <-.
    apply (lam_var "" (T0 _ _ H)).
  - intros v w g. destruct (P v w) as (_ & _ & ->). cbn [den]. apply over_ext. intros g'. f_equal. etransitivity; [|apply leafmap_id].
    apply leafmap_ext. intros b l H. apply lam_plain. apply M. auto.
  - intros d. rewrite (occurs_free_leaf d _ RL).
    transitivity ((exists b l, In (b, l) (indexed_exprs (fold_left (doit1 o) lims op)) /\ In (IVar d) l)).
    { split.
      - intros (b & l & H & D). rewrite indexed_leafmap in H. apply in_map_iff in H as ((b0 & l0) & E & H). cbn in E. injection E as <- <-.
        exists b0, l0. split; auto. now apply (lam_var d (T0 _ _ H)).
      - intros (b & l & H & D). exists b, (lam axes b l). rewrite indexed_leafmap. split; [apply in_map_iff; exists (b, l); auto|].
        now apply (lam_var d (T0 _ _ H)). }
    rewrite doit_free by auto. rewrite <- occurs_free_leaf by auto. split.
    + intros (A & B). now constructor.
    + inversion 1; subst. auto.
Qed.

Definition reds_within (o : rop) (e : sexpr) (l : list sexpr) : Prop := forall x, In x (find_ops o e) -> In x l.

Lemma substitute_op_ok o e : flat e ->
  exists e', substitute_op si sord dord coords e o = Ok e' /\ flat e' /\ find_ops o e' = [] /\
    (forall p x, In x (find_ops p e') -> In x (find_ops p e)) /\ (no_position e -> no_position e') /\
    (forall v w g, den coords v w g e' = den coords v w g e) /\ (forall i, occurs_free i e' <-> occurs_free i e).
Proof.
  intros F. unfold substitute_op. destruct (SO (find_ops o e)) as (_ & W).
  assert (Q : forall op, In op (sord (find_ops o e)) -> is_red op /\ flat op).
  { intros op H. apply W in H. destruct (@find_flat o e op F H) as (A & B & _). auto. }
  assert (C : reds_within o e (sord (find_ops o e))) by (intros x X; now apply W).
  revert Q C. generalize (sord (find_ops o e)). clear W. intros l. revert e F. induction l as [|op l IH]; intros e F Q C; cbn [fold_res].
  - exists e. split; auto. split; auto. split; [|repeat split; auto]. destruct (find_ops o e) as [|x xs] eqn:E; auto. exfalso. apply (C x). rewrite E. now left.
  - destruct (Q op (or_introl eq_refl)) as (I & Fo). destruct (expand_same op I Fo) as (r & -> & Sm). cbn [bind].
    destruct (@subs1_flat op r e I Sm F) as (A1 & A2 & A3 & A4 & A5).
    destruct (IH (subs1 si op r e) A1) as (e' & -> & B1 & B2 & B3 & B4 & B5 & B6).
    + intros x X. apply Q. now right.
    + intros x X. apply A2 in X as (X & N). destruct (C x X); [congruence|auto].
    + exists e'. split; auto. split; auto. split; auto. repeat split; auto.
      * intros p x X. now apply B3, A2 in X.
      * intros v w g. now rewrite B5, A4.
      * intros H. now apply A5, B6.
      * intros H. now apply B6, A5.
Qed.

Lemma no_reduction_find e : find_ops RSum e = [] -> find_ops RProd e = [] -> no_reduction e.
Proof.
  induction e; cbn; auto.
  - intros H1 H2. apply app_eq_nil in H1 as (? & ?), H2 as (? & ?). auto.
  - destruct o; cbn; discriminate.
Qed.

Lemma substitute_all_ok e : flat e ->
  exists e', substitute_reduce_ops si sord dord coords e = Ok e' /\ no_reduction e' /\ (no_position e -> no_position e') /\
    (forall v w g, den coords v w g e' = den coords v w g e) /\ (forall i, occurs_free i e' <-> occurs_free i e).
Proof.
  intros F. unfold substitute_reduce_ops. cbn [fold_res].
  destruct (@substitute_op_ok RSum e F) as (e1 & -> & A1 & A2 & A3 & A4 & A5 & A6). cbn [bind].
  destruct (@substitute_op_ok RProd e1 A1) as (e2 & -> & B1 & B2 & B3 & B4 & B5 & B6). cbn [bind].
  exists e2. split; auto. split; [apply no_reduction_find; auto|].
  - destruct (find_ops RSum e2) as [|x l] eqn:E; auto. exfalso. assert (X : In x (find_ops RSum e1)) by (apply B3; rewrite E; now left). now rewrite A2 in X.
  - split; auto. split; [intros; now rewrite B5, A5|]. intros i. now rewrite B6, A6.
Qed.
End Loop.

Lemma c47_value__p :
  forall sub_into set_order dict_order, walks_set set_order -> walks_set dict_order ->
  forall coords axes e, plain_labels coords -> flat_reductions coords axes e ->
    exists e', substitute_reduce_ops sub_into set_order dict_order coords e = Ok e' /\
      no_reduction e' /\ (no_position e -> no_position e') /\
      forall v w g, den coords v w g e' = den coords v w g e.
Proof.
  intros si so dor SO DO coords axes e PL F. destruct (@substitute_all_ok coords axes PL si so dor SO DO e F) as (e' & A & B & C & D & _). eauto 6.
Qed.

Lemma occurs_nored i e : no_reduction e -> (occurs i e <-> occurs_free i e).
Proof.
  induction e; cbn; intros R; try tauto.
  1-3: split; intros H; inversion H; subst; now constructor.
  - destruct R as (R1 & R2). split; intros H; inversion H; subst.
    + apply OfL. now apply IHe1. + apply OfR. now apply IHe2. + apply OcL. now apply IHe1. + apply OcR. now apply IHe2.
  - split; intros H; inversion H; subst; constructor; now apply IHe.
Qed.

Lemma c18_reductions__p :
  forall sub_into set_order dict_order, walks_set set_order -> walks_set dict_order ->
  forall coords axes e e', plain_labels coords -> NoDup (dkeys coords) -> flat_reductions coords axes e ->
    substitute_reduce_ops sub_into set_order dict_order coords e = Ok e' ->
    forall d, In d (find_equation_dims e' (dkeys coords)) <-> In d (dkeys coords) /\ occurs_free d e.
Proof.
  intros si so dor SO DO coords axes e e' PL N F E d. destruct (@substitute_all_ok coords axes PL si so dor SO DO e F) as (e2 & A & B & C & D & G).
  assert (e2 = e') by congruence. subst. destruct (c18_dims__p e' N) as (_ & H & _). rewrite H, occurs_nored, G by auto. reflexivity.
Qed.
