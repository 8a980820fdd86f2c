From Coq Require Import Reals Lia Sorting.Permutation.
From Verif Require Import Py PyStr M_Primitives M_SymExpr M_Simplify S_Reduce S_Simplify L_Reduce L_Simplify M_Dummy S_Dummy.
Local Open Scope string_scope.
Local Open Scope list_scope.

Lemma dummies_in objs p : In p (dummies objs) -> exists o, In o objs /\ o_dims o <> [] /\ p = (to_sympy o, SSym (o_base_name o)).
Proof.
  unfold dummies.
  enough (G : forall l d, (forall o, In o l -> In o objs /\ o_dims o <> []) ->
    In p (fold_left (fun d o => sdset (to_sympy o) (SSym (o_base_name o)) d) l d) ->
    In p d \/ exists o, In o objs /\ o_dims o <> [] /\ p = (to_sympy o, SSym (o_base_name o))).
  { intros H. apply G in H as [[] | H]; auto. intros o Ho. apply filter_In in Ho as (Ho & D). split; auto.
    intros E. unfold to_sympy in D. rewrite E in D. discriminate. }
  induction l as [| o l IH]; cbn; auto. intros d HL H.
  apply IH in H as [H | H]; [| auto | intros; apply HL; auto].
  apply in_sdset in H as [-> | H]; auto. right. exists o. destruct (HL o (or_introl eq_refl)). auto.
Qed.

Lemma dummies_key objs o : In o objs -> o_dims o <> [] -> exists n, In (to_sympy o, n) (dummies objs).
Proof.
  intros HO HD. unfold dummies.
  assert (HF : In o (filter (fun o => is_indexed (to_sympy o)) objs)).
  { apply filter_In. split; auto. unfold to_sympy. destruct (o_dims o); [congruence | reflexivity]. }
  revert HF. generalize (filter (fun o => is_indexed (to_sympy o)) objs). intros l HF.
  enough (G : forall d, (In o l \/ exists n, In (to_sympy o, n) d) ->
    exists n, In (to_sympy o, n) (fold_left (fun d o => sdset (to_sympy o) (SSym (o_base_name o)) d) l d)) by (apply G; auto).
  clear HF HO. induction l as [| o' l IH]; cbn.
  - intros d [[] | H]; auto.
  - intros d [[-> | H] | H]; apply IH; auto; right; [apply sdset_key | now apply sdset_keeps].
Qed.

Lemma merged_in l d p : In p (fold_left (fun d kv => sdset (fst kv) (snd kv) d) l d) -> In p d \/ In p l.
Proof.
  revert d. induction l as [| kv l IH]; cbn; auto. intros d H. apply IH in H as [H | H]; auto.
  apply in_sdset in H as [-> | H]; auto. right. left. now destruct kv.
Qed.
Lemma merged_key l d (k : sexpr) : ((exists n, In (k, n) d) \/ (exists n, In (k, n) l)) ->
  exists n, In (k, n) (fold_left (fun d kv => sdset (fst kv) (snd kv) d) l d).
Proof.
  revert d. induction l as [| kv l IH]; cbn.
  - intros d [H | (n & [])]; auto.
  - intros d [H | (n & [-> | H])]; apply IH; auto.
    + left. now apply sdset_keeps.
    + left. cbn. apply sdset_key.
    + right. now exists n.
Qed.

Lemma dummy_in vars pars p : In p (make_dummy_sub_dict vars pars) ->
  exists o, In o (vars ++ pars) /\ o_dims o <> [] /\ p = (to_sympy o, SSym (o_base_name o)).
Proof.
  intros H. apply merged_in in H as [H | H]; apply dummies_in in H as (o & A & B & C); exists o; repeat split; auto; apply in_or_app; auto.
Qed.
Lemma dummy_key vars pars o : In o (vars ++ pars) -> o_dims o <> [] -> exists n, In (to_sympy o, n) (make_dummy_sub_dict vars pars).
Proof.
  intros H D. apply merged_key. apply in_app_or in H as [H | H]; [left | right]; now apply dummies_key.
Qed.

Section Value.
Context (coords : dict (list string)) (si : sexpr -> list string -> bool) (v : elements) (g : assignment) (w : scalars).

Lemma den_subs1_at old new e : no_reduction e -> den coords v w g old = den coords v w g new ->
  den coords v w g (subs1 si old new e) = den coords v w g e.
Proof.
  intros NR H. induction e as [z | s | b l | o a IHa b IHb | f a IHa | o a IHa lims]; cbn [subs1]; destruct (sexpr_eqb _ old) eqn:E;
    try (apply sexpr_eqb_eq in E; rewrite E; symmetry; exact H); try reflexivity; cbn [no_reduction] in NR.
  - destruct NR. cbn [den]. now rewrite IHa, IHb.
  - cbn [den]. now rewrite IHa.
  - easy.
Qed.
Lemma subs_value_at d e : no_reduction e -> (forall p, In p d -> no_reduction (snd p) /\ den coords v w g (fst p) = den coords v w g (snd p)) ->
  den coords v w g (fold_left (fun e kv => subs1 si (fst kv) (snd kv) e) d e) = den coords v w g e.
Proof.
  revert e. induction d as [| p d IH]; cbn; auto. intros e NR H. destruct (H p (or_introl eq_refl)) as (N & V).
  rewrite IH; auto; [now apply den_subs1_at | now apply subs1_nored_gen].
Qed.
End Value.

Lemma den_scalars coords v w w' g e : no_reduction e -> (forall s, scalar_in s e -> w' s = w s) ->
  den coords v w' g e = den coords v w g e.
Proof.
  induction e as [z | s | b l | o a IHa b IHb | f a IHa | o a IHa lims]; cbn [den no_reduction]; intros NR H; try reflexivity.
  - apply H. constructor.
  - destruct NR. rewrite IHa, IHb; auto; intros s Hs; apply H; [now apply ScR | now apply ScL].
  - rewrite IHa; auto. intros s Hs. apply H. now apply ScFun.
  - easy.
Qed.

Lemma declared_key o : o_dim_vals o = [] -> o_base_name o = o_name o -> o_dims o <> [] ->
  to_sympy o = SIx (o_name o) (map IVar (o_dims o)).
Proof.
  intros D B N. unfold to_sympy. rewrite D, B. destruct (o_dims o); [congruence | reflexivity].
Qed.

Lemma c103_value__p :
  forall (coords : dict (list string)) sub_into dict_order (vars pars : list mobj) (v : elements) (w w' : scalars) (g : assignment)
         (equations : list sexpr),
  (forall d, Permutation (dict_order d) d) ->
  (forall o, In o (vars ++ pars) -> o_dim_vals o = [] /\ o_base_name o = o_name o) ->
  (forall e, In e equations -> no_reduction e /\ (forall s, scalar_in s e -> w' s = w s)) ->
  (forall o, In o (vars ++ pars) -> o_dims o <> [] -> w' (o_name o) = den coords v w g (SIx (o_name o) (map IVar (o_dims o)))) ->
  map (den coords v w' g) (replace_indexed_variables sub_into dict_order equations (make_dummy_sub_dict vars pars)) =
  map (den coords v w g) equations.
Proof.
  intros coords si od vars pars v w w' g eqs HP HO HE HW. unfold replace_indexed_variables. rewrite map_map. apply map_ext_in.
  intros e He. destruct (HE e He) as (NR & HS). unfold subs. rewrite subs_value_at; auto.
  - now apply den_scalars.
  - intros p Hp. apply (Permutation_in _ (HP _)) in Hp. apply dummy_in in Hp as (o & Ho & D & ->). cbn [fst snd].
    destruct (HO o Ho) as (V & B). split; [exact I |]. rewrite (declared_key o V B D), B. cbn [den].
    rewrite (HW o Ho D). reflexivity.
Qed.

Lemma c103_no_arrays__p :
  forall sub_into dict_order (vars pars : list mobj) (equations : list sexpr),
  (forall d, Permutation (dict_order d) d) ->
  (forall o, In o (vars ++ pars) -> o_dim_vals o = [] /\ o_base_name o = o_name o) ->
  (forall e, In e equations -> no_reduction e /\
     (forall b l, In (b, l) (indexed_exprs e) -> exists o, In o (vars ++ pars) /\ o_name o = b /\ o_dims o <> [] /\ l = map IVar (o_dims o))) ->
  forall e, In e (replace_indexed_variables sub_into dict_order equations (make_dummy_sub_dict vars pars)) -> indexed_exprs e = [].
Proof.
  intros si od vars pars eqs HP HO HE e' H. apply in_map_iff in H as (e & <- & He).
  destruct (indexed_exprs (subs si od (make_dummy_sub_dict vars pars) e)) as [| [b l] rest] eqn:E; [reflexivity | exfalso].
  assert (Q : In (b, l) (indexed_exprs (subs si od (make_dummy_sub_dict vars pars) e))) by (rewrite E; now left).
  destruct (HE e He) as (NR & HI). unfold subs in Q. apply subs_leaves in Q as (Q1 & Q2); auto.
  - destruct (HI b l Q1) as (o & Ho & <- & D & ->). destruct (HO o Ho) as (V & B).
    destruct (@dummy_key vars pars o Ho D) as (n & Hn).
    apply (Q2 (to_sympy o, n)); [apply (Permutation_in _ (Permutation_sym (HP _))); exact Hn |].
    cbn. now apply declared_key.
  - intros p Hp. apply (Permutation_in _ (HP _)) in Hp. apply dummy_in in Hp as (o & _ & _ & ->). eexists. reflexivity.
Qed.

(** A variable X with the dims i, j, used in the equation as X[j, i] or at a label *)
Lemma c103_other_index_refuted__p :
  exists (vars : list mobj) (e e' : sexpr),
    (forall o, In o vars -> o_dim_vals o = [] /\ o_base_name o = o_name o) /\
    (forall b, In b (map fst (indexed_exprs e)) -> exists o, In o vars /\ o_name o = b) /\
    (forall sub_into dict_order, (forall d, Permutation (dict_order d) d) ->
       replace_indexed_variables sub_into dict_order [e] (make_dummy_sub_dict vars []) = [e']) /\
    indexed_exprs e' <> [].
Proof.
  pose (o := MkObj KVar "X" ["i"; "j"] [] "X" "X" "" "X" true true 0).
  exists [o], (SBin OSub (SIx "X" [IVar "i"; IVar "j"]) (SIx "X" [IVar "j"; IVar "i"])), (SBin OSub (SSym "X") (SIx "X" [IVar "j"; IVar "i"])).
  repeat split.
  - destruct H as [<- | []]. reflexivity.
  - destruct H as [<- | []]. reflexivity.
  - cbn. intros b [<- | [<- | []]]; exists o; auto.
  - intros si od HP. unfold replace_indexed_variables, subs.
    assert (E : od (make_dummy_sub_dict [o] []) = make_dummy_sub_dict [o] []).
    { pose proof (HP (make_dummy_sub_dict [o] [])) as P. cbn in P |- *. now apply Permutation_length_1_inv in P || (apply Permutation_sym in P; now apply Permutation_length_1_inv in P). }
    rewrite E. reflexivity.
  - discriminate.
Qed.
