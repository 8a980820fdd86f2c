From Coq Require Import Reals Lia.
From Verif Require Import Py PyStr M_SymExpr S_Reduce M_Inputs S_Inputs.
Local Open Scope string_scope.
Local Open Scope list_scope.

Lemma all_some_ext A (l l' : list (option A)) : l = l' -> all_some l = all_some l'.
Proof. congruence. Qed.

Lemma labs_agree (g g' : assignment) l :
  (forall s, In s (flat_map index_inputs l) -> g s = g' s) -> map (idx_lab g) l = map (idx_lab g') l.
Proof.
  intros H. apply map_ext_in. intros i Hi. destruct i as [s | s | n]; cbn; auto.
  apply H. apply in_flat_map. exists (IVar s). split; [exact Hi | now left].
Qed.

Lemma over_agree coords coords' o lims :
  (forall i, In i (map fst lims) -> dget i coords = dget i coords') ->
  forall (P : string -> Prop) (body body' : assignment -> option R),
  (forall i, In i (map fst lims) -> P i) ->
  (forall g g', (forall s, P s -> g s = g' s) -> body g = body' g') ->
  forall g g', (forall s, P s -> g s = g' s) -> over coords o lims body g = over coords' o lims body' g'.
Proof.
  induction lims as [| [i [lo hi]] rest IH]; intros HC P body body' HL HB g g' HG; [exact (HB g g' HG) |].
  cbn [over]. apply IH with (P := P); auto.
  - intros j Hj. apply HC. now right.
  - intros j Hj. apply HL. now right.
  - clear g g' HG. intros g g' HG. f_equal. f_equal. apply map_ext. intros k.
    unfold label_at. rewrite (HC i (or_introl eq_refl)).
    destruct (dget i coords') as [ls |]; [| reflexivity].
    destruct (nth_error ls k) as [l |]; [| reflexivity].
    apply HB. intros s Ps. unfold set_lab. destruct (String.eqb s i); auto.
Qed.

Lemma c101_determined__p :
  forall (coords coords' : dict (list string)) (v v' : elements) (w w' : scalars) (g g' : assignment) (e : sexpr),
  (forall s, In s (get_inputs e) -> dget s coords = dget s coords' /\ v s = v' s /\ w s = w' s /\ g s = g' s) ->
  den coords v w g e = den coords' v' w' g' e.
Proof.
  intros coords coords' v v' w w' g g' e. revert g g'.
  induction e as [z | s | b l | o a IHa b IHb | f a IHa | o a IHa lims]; intros g g' H; cbn [den get_inputs] in *.
  - reflexivity.
  - apply (H s). now left.
  - rewrite (@labs_agree g g' l) by (intros s Hs; apply (H s); now right).
    destruct (all_some _); [| reflexivity].
    destruct (H b (or_introl eq_refl)) as (_ & E & _). now rewrite E.
  - rewrite (IHa g g'), (IHb g g'); [reflexivity | |]; intros s Hs; apply H; apply in_or_app; auto.
  - now rewrite (IHa g g').
  - apply over_agree with (P := fun s => In s (get_inputs a ++ map fst lims)).
    + intros i Hi. apply (H i). apply in_or_app; now right.
    + intros i Hi. apply in_or_app; now right.
    + intros g1 g1' HG. apply IHa. intros s Hs.
      destruct (H s) as (A & B & C & _); [apply in_or_app; now left |].
      repeat split; auto. apply HG. apply in_or_app; now left.
    + intros s Hs. apply (H s Hs).
Qed.

Lemma c101_occurs__p :
  forall (e : sexpr) (s : string), In s (get_inputs e) <-> named s e.
Proof.
  intros e s. split.
  - induction e as [z | s' | b l | o a IHa b IHb | f a IHa | o a IHa lims]; cbn [get_inputs]; intros H.
    + destruct H.
    + destruct H as [-> | []]. constructor.
    + destruct H as [-> | H]; [constructor |]. apply in_flat_map in H as (i & Hi & Hs). apply NmIx.
      destruct i as [t | t | n]; cbn in Hs; [destruct Hs as [-> | []]; now left | destruct Hs as [-> | []]; now right | destruct Hs].
    + apply in_app_or in H as [H | H]; [apply NmL | apply NmR]; auto.
    + apply NmFun; auto.
    + apply in_app_or in H as [H | H]; [apply NmBody; auto |].
      apply in_map_iff in H as ((t & lo & hi) & E & Hi). cbn in E. subst t. exact (@NmLim s o a lims lo hi Hi).
  - induction 1 as [| l | b l H | o a b H IH | o a b H IH | f a H IH | o a lims H IH | o a lims lo hi H]; cbn [get_inputs].
    + now left.
    + now left.
    + right. apply in_flat_map. destruct H as [H | H]; [exists (IVar s) | exists (ILab s)]; split; auto; now left.
    + apply in_or_app; now left.
    + apply in_or_app; now right.
    + exact IH.
    + apply in_or_app; now left.
    + apply in_or_app; right. apply in_map_iff. now exists (s, (lo, hi)).
Qed.

(** Every symbol of a sum-free expression with scalars only can matter; a list
    with no name at all means a constant *)
Lemma c101_constant__p :
  forall (e : sexpr), get_inputs e = [] ->
  forall coords coords' v v' w w' g g', den coords v w g e = den coords' v' w' g' e.
Proof.
  intros e E coords coords' v v' w w' g g'. apply c101_determined__p. rewrite E. intros s [].
Qed.

Lemma c101_repeated_refuted__p :
  exists (e : sexpr), ~ NoDup (get_inputs e).
Proof.
  exists (SBin OAdd (SSym "x") (SBin OMul (SSym "x") (SSym "y"))). cbn. intros H.
  inversion H as [| ? ? N _]. apply N. now left.
Qed.

Lemma c101_bound_refuted__p :
  exists (e : sexpr) (s : string),
    In s (get_inputs e) /\
    forall coords v v' w w' g g',
      (forall t, t <> s -> v t = v' t /\ w t = w' t /\ g t = g' t) ->
      den coords v w g e = den coords v' w' g' e.
Proof.
  exists (SRed RSum (SIx "x" [IVar "j"]) [("j", (0, 1))]), "j". split; [cbn; auto |].
  intros coords v v' w w' g g' H. cbn [den over]. f_equal. f_equal. apply map_ext. intros k.
  destruct (label_at coords "j" k) as [l |]; [| reflexivity].
  cbn. destruct (H "x") as (E & _); [discriminate |]. now rewrite E.
Qed.

Lemma fold_left_mult l x : (fold_left Rmult l x = x * fold_right Rmult 1 l)%R.
Proof.
  revert x. induction l as [| y l IH]; intros x; cbn -[Rmult]; [ring | rewrite IH; ring].
Qed.

Lemma c101_prod__p :
  forall (args : list R),
  (args <> [] -> prod_args Rmult args = Ok (rop_val RProd args)) /\ prod_args Rmult [] = Err TypeError.
Proof.
  intros args. split; [| reflexivity]. destruct args as [| x l]; [congruence |]. intros _.
  unfold prod_args, rop_val. cbn [fold_right]. now rewrite fold_left_mult.
Qed.
