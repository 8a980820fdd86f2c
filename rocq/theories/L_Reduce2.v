(** Lemmas for C47: expansion of reductions keeps the value. *)
From Coq Require Import Reals Lra.
From Verif Require Import Py PyStr M_SymExpr S_Reduce L_Reduce.
Local Open Scope string_scope.
Local Open Scope list_scope.

(** * Acting on the Indexed of an expression without reductions *)
Fixpoint leafmap (f : string -> list idx -> list idx) (e : sexpr) : sexpr :=
  match e with
  | SNum _ | SSym _ => e
  | SIx b l => SIx b (f b l)
  | SBin o a b => SBin o (leafmap f a) (leafmap f b)
  | SFun g a => SFun g (leafmap f a)
  | SRed o a l => SRed o (leafmap f a) l
  end.
Lemma leafmap_ext f g e : (forall b l, In (b, l) (indexed_exprs e) -> f b l = g b l) -> leafmap f e = leafmap g e.
Proof.
  induction e; cbn; intros H; auto.
  - f_equal. apply H. now left.
  - rewrite IHe1, IHe2; auto; intros; apply H; apply in_app_iff; auto.
  - now rewrite IHe.
  - now rewrite IHe.
Qed.
Lemma leafmap_comp f g e : leafmap g (leafmap f e) = leafmap (fun b l => g b (f b l)) e.
Proof. induction e; cbn; congruence. Qed.
Lemma leafmap_id e : leafmap (fun _ l => l) e = e.
Proof. induction e; cbn; congruence. Qed.
Lemma indexed_leafmap f e : indexed_exprs (leafmap f e) = map (fun p => (fst p, f (fst p) (snd p))) (indexed_exprs e).
Proof. induction e; cbn; auto. now rewrite IHe1, IHe2, map_app. Qed.
Lemma leafmap_nored f e : no_reduction e -> no_reduction (leafmap f e).
Proof. induction e; cbn; tauto. Qed.

Lemma subs1_leaf si b k k' e : no_reduction e ->
  subs1 si (SIx b k) (SIx b k') e = leafmap (fun b0 l => if (String.eqb b0 b && list_eqb idx_eqb l k)%bool then k' else l) e.
Proof.
  induction e; cbn; auto; try easy.
  - intros _. destruct (String.eqb_spec base b); cbn; [|auto]. subst. destruct (list_eqb idx_eqb ixs k); auto.
  - intros (A & B). now rewrite IHe1, IHe2.
  - intros A. now rewrite IHe.
Qed.

Lemma set_index_leaf i k e : no_reduction e -> set_index i k e = leafmap (fun _ l => map (set_idx i k) l) e.
Proof. induction e; cbn; intros H; try tauto. - now rewrite IHe1, IHe2. - now rewrite IHe. Qed.

(** * The labelling map *)
Section Axes.
Context (coords : dict (list string)) (axes : string -> list (list string)).

Fixpoint lab_ixs (labs : list (list string)) (l : list idx) : list idx :=
  match l, labs with
  | IPos k :: l', ls :: labs' => match nth_error ls k with Some s => ILab s | None => IPos k end :: lab_ixs labs' l'
  | x :: l', ls :: labs' => x :: lab_ixs labs' l'
  | l, [] => l
  | [], _ => []
  end.
Definition lam (b : string) (l : list idx) : list idx := lab_ixs (axes b) l.

(** An index fits an axis: one of the model's indices over the axis's labels,
    or a position on it *)
Definition fits (i : idx) (labs : list string) : Prop :=
  (exists s, i = IVar s /\ dget s coords = Some labs) \/ (exists k, i = IPos k /\ k < length labs).
Definition typed (e : sexpr) : Prop := forall b l, In (b, l) (indexed_exprs e) -> Forall2 fits l (axes b).

Lemma typed_bin o a b : typed (SBin o a b) <-> typed a /\ typed b.
Proof.
  unfold typed. cbn. split.
  - intros H. split; intros; apply H; apply in_app_iff; auto.
  - intros (A & B) c l H. apply in_app_iff in H as [|]; auto.
Qed.

Lemma lab_ixs_idem labs l : lab_ixs labs (lab_ixs labs l) = lab_ixs labs l.
Proof.
  revert labs. induction l as [|x l IH]; intros [|ls labs]; cbn; auto.
  - destruct x; auto.
  - destruct x; cbn; try now rewrite IH. destruct (nth_error ls n) eqn:E; cbn; rewrite ?E; now rewrite IH.
Qed.

(** * doit *)
Lemma fits_set i k ls x labs : fits x labs -> dget i coords = Some ls -> k < length ls -> fits (set_idx i k x) labs.
Proof.
  intros F C K. destruct F as [(s & -> & D)|(n & -> & L)]; [|right; exists n; auto]. cbn.
  destruct (String.eqb_spec s i); [|left; exists s; auto]. subst. right. exists k. split; auto. congruence.
Qed.
Lemma typed_set_index i k e ls : no_reduction e -> typed e -> dget i coords = Some ls -> k < length ls -> typed (set_index i k e).
Proof.
  intros R T C K. rewrite set_index_leaf by auto. intros b l H. rewrite indexed_leafmap in H. apply in_map_iff in H as ((b0 & l0) & E & H).
  cbn in E. injection E as <- <-. specialize (T _ _ H). clear H. induction T; constructor; auto. now apply fits_set with (ls := ls).
Qed.
Lemma set_index_nored i k e : no_reduction e -> no_reduction (set_index i k e).
Proof. intros H. rewrite set_index_leaf by auto. now apply leafmap_nored. Qed.

Context (v : elements) (w : scalars).
Notation den := (den coords v w).

Lemma den_set_index i k ls s e g : no_reduction e -> typed e -> dget i coords = Some ls -> nth_error ls k = Some s ->
  den g (leafmap lam (set_index i k e)) = den (set_lab g i (Some s)) (leafmap lam e).
Proof.
  intros R T C K. rewrite set_index_leaf by auto. rewrite leafmap_comp.
  induction e; cbn [leafmap S_Reduce.den]; auto; try tauto.
  - assert (F : Forall2 fits ixs (axes base)) by (apply T; now left). clear T R. unfold lam.
    replace (all_some (map (idx_lab g) (lab_ixs (axes base) (map (set_idx i k) ixs))))
      with (all_some (map (idx_lab (set_lab g i (Some s))) (lab_ixs (axes base) ixs))); auto. f_equal.
    induction F as [|x labs l1 labs1 F T IH]; auto.
    destruct F as [(t & -> & D)|(n & -> & L)]; cbn.
    + unfold set_lab at 1. destruct (String.eqb_spec t i).
      * subst. assert (labs = ls) by congruence. subst. rewrite K. cbn. f_equal. exact IH.
      * cbn. f_equal. exact IH.
    + destruct (nth_error labs n) eqn:E; [|apply nth_error_None in E; lia]. cbn. f_equal. exact IH.
  - apply typed_bin in T as (T1 & T2). destruct R. rewrite IHe1, IHe2; auto.
  - rewrite IHe; auto.
Qed.

Lemma option_all o (x : option R) l : option_map (rop_val o) (opt2 cons x l) = opt2 (bin_val (rop_bin o)) x (option_map (rop_val o) l).
Proof. destruct x, l, o; reflexivity. Qed.

Lemma doit1_spec o e i lo hi ls g : no_reduction e -> typed e -> dget i coords = Some ls -> hi < length ls ->
  no_reduction (doit1 o e (i, (lo, hi))) /\ typed (doit1 o e (i, (lo, hi))) /\
  den g (leafmap lam (doit1 o e (i, (lo, hi)))) =
    option_map (rop_val o) (all_some (map (fun k => match label_at coords i k with Some l => den (set_lab g i (Some l)) (leafmap lam e) | None => None end)
                      (seq lo (S hi - lo)))).
Proof.
  intros R T C K. unfold doit1, positions. cbn [fst snd].
  assert (P : Forall (fun k => k < length ls) (seq lo (S hi - lo))) by (apply Forall_forall; intros x X; apply in_seq in X; lia).
  induction (seq lo (S hi - lo)) as [|k ks IH]; cbn [map fold_right].
  - repeat split; try (now destruct o).
  - inversion P; subst. destruct (IH H2) as (I1 & I2 & I3). split; [split; auto; now apply set_index_nored|]. split.
    + apply typed_bin. split; auto. now apply typed_set_index with (ls := ls).
    + cbn [leafmap S_Reduce.den all_some]. rewrite option_all, I3. f_equal. unfold label_at. rewrite C.
      destruct (nth_error ls k) eqn:E; [|apply nth_error_None in E; lia]. now apply den_set_index with (ls := ls).
Qed.

Lemma over_ext o lims B B' g : (forall g, B g = B' g) -> over coords o lims B g = over coords o lims B' g.
Proof.
  revert B B' g. induction lims as [|(i & (lo & hi)) lims IH]; cbn; intros B B' g H; auto.
  apply IH. intros g'. do 2 f_equal. apply map_ext. intros k. destruct (label_at coords i k); auto.
Qed.

Definition lims_ok (lims : list (string * (nat * nat))) : Prop :=
  forall i lo hi, In (i, (lo, hi)) lims -> lo <= hi /\ exists ls, dget i coords = Some ls /\ hi < length ls.

Lemma doit_spec o lims e : no_reduction e -> typed e -> lims_ok lims ->
  no_reduction (fold_left (doit1 o) lims e) /\ typed (fold_left (doit1 o) lims e) /\
  forall g, den g (leafmap lam (fold_left (doit1 o) lims e)) = over coords o lims (fun g => den g (leafmap lam e)) g.
Proof.
  revert e. induction lims as [|(i & (lo & hi)) lims IH]; intros e R T L; cbn [fold_left].
  - repeat split; auto.
  - destruct (L i lo hi (or_introl eq_refl)) as (_ & ls & C & K).
    destruct (@doit1_spec o e i lo hi ls (fun _ => None) R T C K) as (I1 & I2 & _).
    destruct (IH (doit1 o e (i, (lo, hi))) I1 I2) as (J1 & J2 & J3); [intros a b c H; apply L; now right|].
    split; auto. split; auto. intros g. rewrite J3. cbn [over]. apply over_ext. intros g'.
    now destruct (@doit1_spec o e i lo hi ls g' R T C K) as (_ & _ & ->).
Qed.

Lemma doit_nored e : no_reduction e -> doit e = e.
Proof. induction e; cbn; intros H; auto; try tauto. - destruct H. now rewrite IHe1, IHe2. - now rewrite IHe. Qed.

(** Where the Indexed of the expansion come from *)
Definition rel (U : list string) (x y : idx) : Prop :=
  exists s ls, x = IVar s /\ dget s coords = Some ls /\
    ((In s U /\ exists n, y = IPos n /\ n < length ls) \/ (~ In s U /\ y = x)).

Lemma doit1_leaves o e i lo hi b l : no_reduction e -> In (b, l) (indexed_exprs (doit1 o e (i, (lo, hi)))) ->
  exists l1 k, In (b, l1) (indexed_exprs e) /\ k <= hi /\ l = map (set_idx i k) l1.
Proof.
  intros R. unfold doit1, positions. cbn [fst snd].
  assert (P : Forall (fun k => k <= hi) (seq lo (S hi - lo))) by (apply Forall_forall; intros x X; apply in_seq in X; lia).
  induction (seq lo (S hi - lo)) as [|k ks IH]; cbn; [easy|]. inversion P; subst. intros H. apply in_app_iff in H as [H|H]; auto.
  rewrite set_index_leaf in H by auto. rewrite indexed_leafmap in H. apply in_map_iff in H as ((b0 & l0) & E & H). cbn in E. injection E as <- <-.
  exists l0, k. auto.
Qed.

Lemma rel_step U i k x y ls : rel U x y -> dget i coords = Some ls -> k < length ls -> rel (i :: U) x (set_idx i k y).
Proof.
  intros (s & l & -> & D & [(I & n & -> & L)|(I & ->)]) C K; exists s, l; cbn.
  - split; auto. split; auto. left. split; auto. exists n. auto.
  - split; auto. split; auto. destruct (String.eqb_spec s i).
    + subst. left. split; auto. exists k. split; auto. congruence.
    + right. split; auto. intros [|]; congruence.
Qed.

Lemma doit_leaves o lims e U : no_reduction e -> typed e -> lims_ok lims ->
  forall (a : sexpr), (forall b l, In (b, l) (indexed_exprs e) -> exists l0, In (b, l0) (indexed_exprs a) /\ Forall2 (rel U) l0 l) ->
  forall b l, In (b, l) (indexed_exprs (fold_left (doit1 o) lims e)) ->
    exists l0, In (b, l0) (indexed_exprs a) /\ Forall2 (rel (rev (map fst lims) ++ U)) l0 l.
Proof.
  revert e U. induction lims as [|(i & (lo & hi)) lims IH]; intros e U R T L a H b l; cbn [fold_left map rev fst]; auto.
  destruct (L i lo hi (or_introl eq_refl)) as (_ & ls & C & K).
  destruct (@doit1_spec o e i lo hi ls (fun _ => None) R T C K) as (I1 & I2 & _).
  rewrite <- app_assoc. apply (IH _ (i :: U) I1 I2); [intros x y z Z; apply L; now right|].
  intros b' l' H'. apply doit1_leaves in H' as (l1 & k & H1 & Hk & ->); auto. destruct (H _ _ H1) as (l0 & H0 & F). exists l0. split; auto.
  clear - F C Hk K. induction F; constructor; auto. apply rel_step with (ls := ls); auto. lia.
Qed.
End Axes.
