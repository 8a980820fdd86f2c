(** C73 and C74. *)
From Coq Require Import Reals Lra.
From Verif Require Import Py PyStr NdArray M_Primitives M_Expand M_SymExpr M_Simplify.
From Verif Require Import S_Layout S_Markers S_Expand S_Reduce S_Simplify.
From Verif Require Import L_Markers L_Expand L_Reduce L_Reduce2 L_Reduce4 L_Reduce5 L_Simplify.
Local Open Scope string_scope.
Local Open Scope list_scope.

(** * A scalar numeraire *)
Section Numeraire.
Context (si : sexpr -> list string -> bool) (p : string) (z : Z).
Notation fixn := (subs1 si (SSym p) (SNum z)).
Lemma indexed_fixn e : indexed_exprs (fixn e) = indexed_exprs e.
Proof.
  induction e; cbn [subs1]; destruct (sexpr_eqb _ _) eqn:E; try (apply sexpr_eqb_eq in E; rewrite E; easy); cbn; auto; try congruence.
  destruct (si _ _); cbn; auto.
Qed.
Lemma nored_fixn e : no_reduction e -> no_reduction (fixn e).
Proof. apply subs1_nored_gen. exact I. Qed.
Lemma flat_fixn coords axes e : flat_reductions coords axes e -> flat_reductions coords axes (fixn e).
Proof.
  induction e; cbn [subs1]; destruct (sexpr_eqb _ _) eqn:E; try (intros; exact I); cbn; auto; try tauto.
  intros (R & T & L). destruct (si _ _); cbn; [rewrite indexed_fixn; auto using nored_fixn|auto].
Qed.
Lemma occurs_fixn d e : occurs_free d (fixn e) <-> occurs_free d e.
Proof.
  induction e; cbn [subs1]; destruct (sexpr_eqb _ _) eqn:E; try (apply sexpr_eqb_eq in E; rewrite E; split; intros H; inversion H); try tauto.
  - split; intros H; inversion H; subst; try (apply OfL; tauto); apply OfR; tauto.
  - split; intros H; inversion H; subst; apply OfFun; tauto.
  - destruct (si _ _); [|tauto]. split; intros H; inversion H; subst; apply OfRed; tauto.
Qed.
End Numeraire.

Definition fix_num si (numeraire : option mobj) e := match numeraire with None => e | Some o => subs1 si (to_sympy o) (SNum 1) e end.
Definition num_one (numeraire : option mobj) (w : scalars) : Prop :=
  match numeraire with None => True | Some o => w (o_base_name o) = Some 1%R end.
Definition num_scalar (numeraire : option mobj) : Prop := match numeraire with None => True | Some o => o_dims o = [] end.

Lemma fix_num_spec si num c axes e : num_scalar num -> flat_reductions c axes e ->
  flat_reductions c axes (fix_num si num e) /\ (forall d, occurs_free d (fix_num si num e) <-> occurs_free d e) /\
  forall v w, num_one num w -> forall g, den c v w g (fix_num si num e) = den c v w g e.
Proof.
  destruct num as [o|]; cbn [num_scalar fix_num num_one]; [|intros _ F; split; [auto|split; [tauto|auto]]]. intros N F. unfold to_sympy. rewrite N.
  split; [now apply flat_fixn|]. split; [intros d; apply occurs_fixn|]. intros v w W g. apply den_subs1. intros g'. cbn. auto.
Qed.

(** * The standard form *)
Section Std.
Context (si : sexpr -> list string -> bool) (so : list sexpr -> list sexpr) (dord : list (sexpr * sexpr) -> list (sexpr * sexpr)).
Context (SO : walks_set so) (DO : walks_set dord) (ev : sexpr -> sexpr -> bool).
Context (c : dict (list string)) (axes : string -> list (list string)) (PL : plain_labels c) (NK : NoDup (dkeys c)).

Lemma standardize_spec num lhs rhs e dims : num_scalar num -> flat_reductions c axes (SBin OSub lhs rhs) ->
  standardize si so dord ev c num lhs rhs = Ok (e, dims) ->
  no_reduction e /\ NoDup dims /\ (exists f, dims = filter f (dkeys c)) /\
  (forall d, In d dims <-> In d (dkeys c) /\ occurs_free d (SBin OSub lhs rhs)) /\
  forall v w g, num_one num w -> den c v w g e = den c v w g (SBin OSub lhs rhs).
Proof.
  intros NS (F1 & F2) H. unfold standardize in H. fold (fix_num si num lhs) in H. fold (fix_num si num rhs) in H.
  destruct (@fix_num_spec si num c axes lhs NS F1) as (A1 & B1 & C1). destruct (@fix_num_spec si num c axes rhs NS F2) as (A2 & B2 & C2).
  destruct (ev _ _); [easy|]. set (e0 := SBin OSub (fix_num si num lhs) (fix_num si num rhs)) in *.
  assert (F : flat_reductions c axes e0) by (split; auto).
  destruct (@c47_value__p si so dord SO DO c axes e0 PL F) as (e' & E & R & _ & D). rewrite E in H. injection H as <- <-.
  assert (X := @c18_reductions__p si so dord SO DO c axes e0 e' PL NK F E). split; auto.
  split; [rewrite find_equation_dims_filter by auto; now apply NoDup_filter|]. split; [rewrite find_equation_dims_filter by auto; eauto|]. split.
  - intros d. rewrite X. assert (Y : occurs_free d e0 <-> occurs_free d (SBin OSub lhs rhs)); [|tauto].
    unfold e0. split; intros O; inversion O; subst; [apply OfL; now apply B1|apply OfR; now apply B2|apply OfL; now apply B1|apply OfR; now apply B2].
  - intros v w g W. rewrite D. unfold e0. cbn. now rewrite C1, C2.
Qed.

Lemma c73_accepted_aux num lhs rhs us : num_scalar num -> flat_reductions c axes (SBin OSub lhs rhs) ->
  ev (fix_num si num lhs) (fix_num si num rhs) = false -> exists es, equation_symbols si so dord ev c num us lhs rhs = Ok es.
Proof.
  intros NS (F1 & F2) H. unfold equation_symbols, standardize. fold (fix_num si num lhs). fold (fix_num si num rhs). rewrite H.
  destruct (@fix_num_spec si num c axes lhs NS F1) as (A1 & _). destruct (@fix_num_spec si num c axes rhs NS F2) as (A2 & _).
  destruct (@c47_value__p si so dord SO DO c axes (SBin OSub (fix_num si num lhs) (fix_num si num rhs)) PL (conj A1 A2)) as (e' & E & _). rewrite E. cbn [bind fst snd]. unfold unpack_expr.
  destruct (labels_of_dims (lab_coords c) (find_equation_dims e' (dkeys c))) as (lss & -> & _).
  { intros d D. rewrite dkeys_lab. rewrite find_equation_dims_filter in D by auto. now apply filter_In in D. }
  cbn. eauto.
Qed.

(** One scalar residual *)
Section One.
Context (objs us : list mobj) (order : list string -> list string).
Context (DE : forall o, In o objs -> declared c o) (UN : unpack_objects order objs (lab_coords c) = Ok us).
Lemma simplify_one e x v w sv : no_reduction e -> belongs c objs v w -> scalar_view c objs v w sv ->
  den c v w (fun _ => None) e = Some x ->
  let e2 := subs si dord (indexed_variables_to_sub_dict us) e in
  indexed_exprs e2 = [] /\ no_reduction e2 /\ forall v' g', den c v' sv g' e2 = Some x.
Proof.
  intros R (BV & BW) SV D e2. destruct (@unpack_copies order c objs us DE UN) as (U1 & U2).
  set (d := indexed_variables_to_sub_dict us) in *.
  assert (DI : forall p, In p (dord d) <-> In p d) by (apply DO).
  assert (KE : forall p, In p (dord d) -> exists o ls, In o objs /\ element c (o_dims o) ls /\ snd p = SSym (join "_" (o_name o :: ls)) /\
    fst p = match o_dims o with [] => SSym (o_name o) | _ => SIx (o_name o) (map ILab ls) end).
  { intros p P. apply DI, sub_dict_in in P as (u & U & ->). destruct (U1 u U) as (o & ls & O & L & C).
    destruct (@copy_key c o u ls (DE o O) PL L C) as (K1 & K2). exists o, ls. cbn [fst snd]. rewrite K1, K2. auto. }
  assert (DV : den c v sv (fun _ => None) e = Some x).
  { apply den_mono with (w := w); auto. intros s y Y. destruct (BW _ _ Y) as (o & O & NO & DO'). specialize (SV o []). rewrite DO' in SV. cbn in SV. rewrite NO in SV. rewrite SV; auto. constructor. }
  assert (R2 : no_reduction e2).
  { unfold e2, subs. apply subs_nored; auto. intros p P. destruct (KE p P) as (o & ls & _ & _ & -> & _). exact I. }
  assert (D2 : den c v sv (fun _ => None) e2 = Some x).
  { unfold e2, subs. rewrite subs_value; auto. intros p P g. destruct (KE p P) as (o & ls & O & L & E1 & E2). rewrite E1, E2. cbn [den].
    specialize (SV o ls O L). destruct (o_dims o) as [|d0 ds] eqn:EO.
    - inversion L; subst. cbn in *. congruence.
    - cbn [den]. assert (X : all_some (map (idx_lab g) (map ILab ls)) = Some ls). { clear. induction ls; cbn; auto. cbn in *. now rewrite IHls. }
      rewrite X. auto. }
  assert (I2 : indexed_exprs e2 = []).
  { destruct (indexed_exprs e2) as [|(b & l) q] eqn:EI; auto. exfalso.
    assert (IN : In (b, l) (indexed_exprs e2)) by (rewrite EI; now left).
    destruct (@den_leaf c v sv _ e2 x b l R2 D2 IN) as (ls & y & A & Y). destruct (BV _ _ _ Y) as (o & O & NO & ND & EL).
    assert (LE : l = map ILab ls).
    { assert (F := element_plain PL EL). clear -A F. revert ls A F. induction l as [|i l IH]; cbn; intros ls A F; [now injection A as <-|].
      destruct i as [s|s|n]; cbn in A; [easy| |]; destruct (all_some (map (idx_lab (fun _ => None)) l)) as [m|]; try easy; cbn in A; injection A as <-.
      - cbn. f_equal. apply IH; auto. now inversion F.
      - inversion F; subst. exfalso. eapply numeral_str; eauto. }
    destruct (U2 o ls O EL) as (u & U & C). destruct (@copy_key c o u ls (DE o O) PL EL C) as (K1 & _).
    destruct (sub_dict_key us u U) as (n & IK). fold d in IK.
    assert (IK2 := proj2 (DI _) IK). unfold e2, subs in IN. apply subs_leaves in IN as (_ & Z); auto.
    - apply Z in IK2. apply IK2. cbn. rewrite K1. destruct (o_dims o); [easy|]. congruence.
    - intros p P. destruct (KE p P) as (o' & ls' & _ & _ & -> & _). eauto. }
  split; auto. split; auto. intros v' g'. rewrite <- D2. now apply den_no_index.
Qed.
End One.
End Std.

Lemma c73_value__p :
  forall sub_into set_order dict_order evaluates, walks_set set_order -> walks_set dict_order ->
  forall order c axes numeraire objs us lhs rhs es,
    plain_labels c -> NoDup (dkeys c) -> flat_reductions c axes (SBin OSub lhs rhs) ->
    (forall o, In o objs -> declared c o) -> unpack_objects order objs (lab_coords c) = Ok us ->
    match numeraire with None => True | Some o => o_dims o = [] end ->
    equation_symbols sub_into set_order dict_order evaluates c numeraire us lhs rhs = Ok es ->
    exists dims shape,
      NoDup dims /\ (exists f, dims = filter f (dkeys c)) /\
      (forall d, In d dims <-> In d (dkeys c) /\ occurs_free d (SBin OSub lhs rhs)) /\
      Forall2 (fun d n => exists all, dget d c = Some all /\ length all = n) dims shape /\
      length es = prodn shape /\
      forall idx ls, labels_of c dims idx ls ->
        exists e, nth_error es (offset shape idx) = Some e /\
          forall v w sv x, belongs c objs v w -> scalar_view c objs v w sv ->
            match numeraire with None => True | Some o => w (o_base_name o) = Some 1%R end ->
            den c v w (assign dims ls) (SBin OSub lhs rhs) = Some x ->
            indexed_exprs e = [] /\ no_reduction e /\ forall v' g', den c v' sv g' e = Some x.
Proof.
  intros si so dord ev SO DO order c axes num objs us lhs rhs es PL NK F DE UN NS H. unfold equation_symbols in H.
  destruct (standardize si so dord ev c num lhs rhs) as [(e & dims)|] eqn:E; [|easy]. cbn [bind fst snd] in H.
  destruct (@standardize_spec si so dord SO DO ev c axes PL NK num lhs rhs e dims NS F E) as (R & ND & FI & DI & DN).
  destruct (labels_of_dims (lab_coords c) dims) as (lss & EL & FL). { intros d D. rewrite dkeys_lab. now apply DI in D. }
  unfold unpack_expr in H. rewrite EL in H. cbn [bind] in H. injection H as <-.
  destruct (@labels_str c _ _ FL) as (tss & -> & FT).
  exists dims, (map (@length string) tss). split; auto. split; auto. split; auto. split.
  { clear -FT. induction FT; cbn; constructor; eauto. }
  split. { now rewrite product_map, !map_length, prodn_lengths. }
  intros idx ls (LI & LL).
  assert (IR : in_range (map (@length string) tss) idx /\ Forall2 (fun x p => nth_error (fst p) (snd p) = Some x) ls (combine tss idx) /\ Forall (fun l => numeral l = None) ls /\ length dims = length ls).
  { clear -FT LI LL PL. revert idx ls LI LL. induction FT as [|d ts ds tss A F IH]; intros idx ls LI LL; destruct idx as [|k idx]; try discriminate; cbn in LL; inversion LL; subst; cbn.
    - repeat split; constructor.
    - destruct H1 as (all & B & C). cbn in B, C. rewrite A in B. injection B as <-. destruct (IH idx l' ltac:(cbn in LI; lia) H3) as (I1 & I2 & I3 & I4). split; [|split; [|split]].
      + constructor; auto. apply nth_error_Some. congruence.
      + constructor; auto.
      + constructor; auto. destruct (PL _ _ A) as (_ & PF). apply nth_error_In in C. now apply (proj1 (Forall_forall _ _) PF).
      + lia. }
  destruct IR as (I1 & I2 & I3 & I4). destruct (nth_product_offset _ I1) as (xs & X1 & X2).
  assert (XE : xs = ls). { clear -X2 I2. revert ls I2. induction X2; intros ls I2; inversion I2; subst; auto. f_equal; auto. congruence. }
  subst xs. eexists. split.
  { rewrite product_map, map_map. rewrite nth_error_map. rewrite nth_error_map, X1. cbn. reflexivity. }
  intros v w sv x BE SV W D. apply (@simplify_one si dord DO c PL objs us order DE UN _ x v w sv); auto.
  - now apply puts_nored.
  - rewrite den_puts; auto. rewrite DN; auto.
Qed.

Lemma c73_accepted__p :
  forall sub_into set_order dict_order evaluates, walks_set set_order -> walks_set dict_order ->
  forall c axes us lhs rhs, plain_labels c -> NoDup (dkeys c) -> flat_reductions c axes (SBin OSub lhs rhs) ->
    evaluates lhs rhs = false -> exists es, equation_symbols sub_into set_order dict_order evaluates c None us lhs rhs = Ok es.
Proof.
  intros si so dord ev SO DO c axes us lhs rhs PL NK F E. exact (@c73_accepted_aux si so dord SO DO ev c axes PL NK None lhs rhs us I F E).
Qed.

(** The scalar names carry the data when they are distinct *)
Lemma c73_view__p :
  forall order c objs us, plain_labels c -> (forall o, In o objs -> declared c o) ->
    unpack_objects order objs (lab_coords c) = Ok us -> NoDup (map make_indexed_name us) ->
    forall v w, exists sv, scalar_view c objs v w sv.
Proof.
  intros order c objs us PL DE UN ND v w. destruct (@unpack_copies order c objs us DE UN) as (_ & U2).
  exists (fun n => match find (fun u => String.eqb (make_indexed_name u) n) us with
                   | Some u => match o_dims u with [] => w (o_name u) | _ => v (o_name u) (map str_label (dvals (o_dim_vals u))) end
                   | None => None end).
  intros o ls O L. destruct (U2 o ls O L) as (u & U & C). destruct (@copy_key c o u ls (DE o O) PL L C) as (_ & K2).
  assert (FU : find (fun u => String.eqb (make_indexed_name u) (join "_" (o_name o :: ls))) us = Some u).
  { rewrite <- K2. clear -U ND. induction us as [|a us IH]; cbn [find map] in *; [easy|]. inversion ND; subst. destruct U as [->|U]; [now rewrite String.eqb_refl|].
    destruct (String.eqb_spec (make_indexed_name a) (make_indexed_name u)) as [E|]; [|auto]. exfalso. apply H1. rewrite E. now apply in_map. }
  rewrite FU. destruct C as ((_ & NA & DI & _) & V). rewrite DI, NA, V. destruct (o_dims o) as [|d ds] eqn:EO; auto. rewrite <- EO in *. f_equal.
  assert (X : forall (A B : Type) (a : list A) (b : list B), length a = length b -> map snd (combine a b) = b).
  { clear. induction a; intros [|y b] LL; cbn in *; try discriminate; auto. f_equal. apply IHa. lia. }
  unfold dvals. rewrite X by (rewrite map_length; now apply Forall2_length in L). rewrite map_map. cbn. apply map_id.
Qed.

(** Two objects whose scalar names collide: X over the labels a, b and the
    scalar X_a. The residual of X[i] = X_a at a is always 0. *)
Lemma c73_collision_refuted__p :
  exists c objs us lhs rhs es e v w,
    plain_labels c /\ NoDup (dkeys c) /\ flat_reductions c (fun _ => []) (SBin OSub lhs rhs) /\
    (forall o, In o objs -> declared c o) /\ NoDup (map o_name objs) /\
    unpack_objects (fun l => l) objs (lab_coords c) = Ok us /\ belongs c objs v w /\
    equation_symbols sympy_rule (uniq sexpr_eqb) (uniq pair_eqb) (fun _ _ => false) c None us lhs rhs = Ok es /\
    nth_error es 0 = Some e /\
    den c v w (assign ["i"] ["a"]) (SBin OSub lhs rhs) = Some 1%R /\
    forall v' sv g' x, den c v' sv g' e = Some x -> x = 0%R.
Proof.
  exists [("i", ["a"; "b"])], [exobj KVar "X" ["i"]; exobj KVar "X_a" []]. eexists.
  exists (SIx "X" [IVar "i"]), (SSym "X_a"). exists [SBin OSub (SSym "X_a") (SSym "X_a"); SBin OSub (SSym "X_b") (SSym "X_a")], (SBin OSub (SSym "X_a") (SSym "X_a")).
  exists (fun b ls => match ls with [l] => if (String.eqb b "X" && (String.eqb l "a" || String.eqb l "b"))%bool then Some 2%R else None | _ => None end).
  exists (fun s => if String.eqb s "X_a" then Some 1%R else None).
  split; [|split; [|split; [|split; [|split; [|split; [|split; [|split; [|split; [|split]]]]]]]]].
  - intros i ls H. cbn in H. destruct (String.eqb i "i"); [injection H as <-; split; [discriminate|repeat constructor]|discriminate].
  - repeat constructor; cbn; tauto.
  - cbn; auto.
  - intros o [<-|[<-|[]]]; cbn; (split; [repeat constructor; cbn; tauto|]); repeat split; cbn; tauto.
  - repeat constructor; cbn; intuition discriminate.
  - reflexivity.
  - split.
    + intros b ls x H. destruct ls as [|l [|? ?]]; try discriminate. destruct (String.eqb_spec b "X"); [|discriminate]. subst b. cbn [andb] in H.
      exists (exobj KVar "X" ["i"]). split; [now left|]. split; auto. split; [discriminate|]. repeat constructor. exists ["a"; "b"]. split; auto.
      destruct (String.eqb_spec l "a"); [subst; now left|]. destruct (String.eqb_spec l "b"); [subst; right; now left|discriminate].
    + intros s x H. destruct (String.eqb_spec s "X_a"); [|discriminate]. subst. exists (exobj KVar "X_a" []). split; [right; now left|auto].
  - reflexivity.
  - reflexivity.
  - cbn. f_equal. lra.
  - intros v' sv g' x H. cbn in H. destruct (sv "X_a") as [y|] eqn:Q; [|discriminate]. cbn in H. injection H as <-. lra.
Qed.

(** * C74: the numeraire *)
(** Independence of one scalar *)
Fixpoint mentions (p : string) (e : sexpr) : bool :=
  match e with
  | SNum _ | SIx _ _ => false
  | SSym s => String.eqb s p
  | SBin _ a b => (mentions p a || mentions p b)%bool
  | SFun _ a => mentions p a
  | SRed _ a _ => mentions p a
  end.
Lemma mentions_fixn p z e : mentions p (subs1 sympy_rule (SSym p) (SNum z) e) = false.
Proof.
  induction e; cbn [subs1]; destruct (sexpr_eqb _ _) eqn:E; auto.
  - cbn. now rewrite IHe1, IHe2.
  - assert (X : sympy_rule (SSym p) (map fst lims) = true). { unfold sympy_rule. cbn. clear. induction lims; cbn; auto. }
    rewrite X. cbn. auto.
Qed.
Lemma den_mentions c v w w' p e : mentions p e = false -> (forall s, s <> p -> w s = w' s) -> forall g, den c v w g e = den c v w' g e.
Proof.
  intros M W. induction e; intros g; cbn in *; auto.
  - apply W. intros ->. now rewrite String.eqb_refl in M.
  - apply orb_false_iff in M as (M1 & M2). now rewrite IHe1, IHe2.
  - now rewrite IHe.
  - apply over_ext. auto.
Qed.

Lemma c74_scalar__p :
  forall set_order dict_order evaluates, walks_set set_order -> walks_set dict_order ->
  forall c axes o lhs rhs e dims, plain_labels c -> flat_reductions c axes (SBin OSub lhs rhs) -> o_dims o = [] ->
    standardize sympy_rule set_order dict_order evaluates c (Some o) lhs rhs = Ok (e, dims) ->
    forall v w w' g, w' (o_base_name o) = Some 1%R -> (forall s, s <> o_base_name o -> w' s = w s) ->
      den c v w g e = den c v w' g (SBin OSub lhs rhs).
Proof.
  intros so dord ev SO DO c axes o lhs rhs e dims PL (F1 & F2) NS H v w w' g W1 W. unfold standardize in H. unfold to_sympy in H. rewrite NS in H.
  set (p := o_base_name o) in *. set (l := subs1 sympy_rule (SSym p) (SNum 1) lhs) in *. set (r := subs1 sympy_rule (SSym p) (SNum 1) rhs) in *.
  destruct (ev l r); [easy|].
  assert (F : flat_reductions c axes (SBin OSub l r)) by (split; now apply flat_fixn).
  destruct (@c47_value__p sympy_rule so dord SO DO c axes _ PL F) as (e' & E & R & _ & D). rewrite E in H. injection H as <- <-.
  rewrite D. rewrite (@den_mentions c v w w' p (SBin OSub l r)).
  - cbn. unfold l, r. rewrite !den_subs1; auto; intros; cbn; auto.
  - cbn. unfold l, r. now rewrite !mentions_fixn.
  - intros s S. symmetry. auto.
Qed.

(** An equation that only fixes the numeraire at 1 is refused *)
Lemma c74_normalisation__p :
  forall sub_into set_order dict_order evaluates, (forall a, evaluates a a = true) ->
  forall c o, standardize sub_into set_order dict_order evaluates c (Some o) (to_sympy o) (SNum 1) = Err ValueError.
Proof.
  intros si so dord ev EV c o. unfold standardize.
  assert (X : subs1 si (to_sympy o) (SNum 1) (to_sympy o) = SNum 1).
  { unfold to_sympy. destruct (o_dims o); cbn [subs1]; now rewrite sexpr_eqb_refl. }
  assert (Y : subs1 si (to_sympy o) (SNum 1) (SNum 1) = SNum 1). { unfold to_sympy. destruct (o_dims o); reflexivity. }
  now rewrite X, Y, EV.
Qed.

(** A numeraire with dims: P[i] inside a reduction over i is not replaced *)
Lemma c74_indexed_refuted__p :
  exists c axes o lhs rhs e dims v v' w g,
    plain_labels c /\ flat_reductions c axes (SBin OSub lhs rhs) /\ declared c o /\ o_dims o = ["i"] /\
    (forall b l, In (b, l) (indexed_exprs (SBin OSub lhs rhs)) -> l = [IVar "i"]) /\
    standardize sympy_rule (uniq sexpr_eqb) (uniq pair_eqb) (fun _ _ => false) c (Some o) lhs rhs = Ok (e, dims) /\
    (forall b ls, b <> o_name o -> v b ls = v' b ls) /\
    den c v w g e = Some 10%R /\ den c v' w g e = Some 2%R.
Proof.
  exists [("i", ["a"; "b"])], (fun _ => [["a"; "b"]]), (exobj KVar "P" ["i"]).
  exists (SRed RSum (SBin OMul (SIx "P" [IVar "i"]) (SIx "X" [IVar "i"])) [("i", (0, 1))]), (SSym "M").
  exists (SBin OSub (SBin OAdd (SBin OMul (SIx "P" [ILab "a"]) (SIx "X" [ILab "a"])) (SBin OAdd (SBin OMul (SIx "P" [ILab "b"]) (SIx "X" [ILab "b"])) (SNum 0))) (SSym "M")), [].
  exists (fun b _ => if String.eqb b "P" then Some 3%R else Some 2%R), (fun b _ => if String.eqb b "P" then Some 1%R else Some 2%R), (fun _ => Some 2%R), (fun _ => None).
  split; [|split; [|split; [|split; [|split; [|split; [|split; [|split]]]]]]].
  - intros i ls H. cbn in H. destruct (String.eqb i "i"); [injection H as <-; split; [discriminate|repeat constructor]|discriminate].
  - cbn. repeat split; auto.
    + intros b l [E|[E|[]]]; injection E as <- <-; repeat constructor; eexists; split; reflexivity.
    + destruct H as [E|[]]; injection E as <- <- <-; auto.
    + destruct H as [E|[]]; injection E as <- <- <-. eexists; split; [reflexivity|]; cbn; lia.
  - split; [repeat constructor; cbn; tauto|]. repeat split; cbn; tauto.
  - reflexivity.
  - cbn. intros b l [E|[E|[]]]; now injection E as <- <-.
  - reflexivity.
  - intros b ls H. cbn in H. destruct (String.eqb_spec b "P"); [contradiction|auto].
  - cbn. f_equal. lra.
  - cbn. f_equal. lra.
Qed.

(** Outside reductions a numeraire with dims is replaced where it carries its
    own indices *)
Lemma c74_indexed_own__p :
  forall set_order dict_order evaluates, walks_set set_order -> walks_set dict_order ->
  forall c o lhs rhs e dims, plain_labels c -> declared c o -> o_dims o <> [] ->
    no_reduction lhs -> no_reduction rhs ->
    standardize sympy_rule set_order dict_order evaluates c (Some o) lhs rhs = Ok (e, dims) ->
    (forall v w g ls, all_some (map g (o_dims o)) = Some ls -> v (o_name o) ls = Some 1%R ->
       den c v w g e = den c v w g (SBin OSub lhs rhs)) /\
    ~ In (o_name o, map IVar (o_dims o)) (indexed_exprs e).
Proof.
  intros so dord ev SO DO c o lhs rhs e dims PL (ND & DV & BN & K) NE R1 R2 H. unfold standardize in H.
  assert (T : to_sympy o = SIx (o_name o) (map IVar (o_dims o))).
  { unfold to_sympy. rewrite DV, BN. destruct (o_dims o); [easy|]. reflexivity. }
  rewrite T in H. set (l := subs1 sympy_rule _ _ lhs) in *. set (r := subs1 sympy_rule _ _ rhs) in *. destruct (ev l r); [easy|].
  assert (RN : no_reduction (SBin OSub l r)) by (split; apply subs1_nored_gen; auto; exact I).
  assert (SR : substitute_reduce_ops sympy_rule so dord c (SBin OSub l r) = Ok (SBin OSub l r)).
  { unfold substitute_reduce_ops, substitute_op. cbn [fold_res].
    assert (Z : so [] = []). { destruct (so []) as [|a q] eqn:Q; auto. destruct (SO []) as (_ & S0). exfalso. apply (proj1 (S0 a)). rewrite Q. now left. }
    rewrite (@find_nored (fun _ => []) sympy_rule RSum _ RN), Z. cbn [fold_res bind]. rewrite (@find_nored (fun _ => []) sympy_rule RProd _ RN), Z. reflexivity. }
  rewrite SR in H. injection H as <- <-. split.
  - intros v w g ls A V. cbn [den].
    assert (X : forall e0, no_reduction e0 -> den c v w g (subs1 sympy_rule (SIx (o_name o) (map IVar (o_dims o))) (SNum 1) e0) = den c v w g e0).
    { assert (Y : den c v w g (SIx (o_name o) (map IVar (o_dims o))) = Some 1%R). { cbn. rewrite map_map. change (map (fun x => idx_lab g (IVar x)) (o_dims o)) with (map (fun x => g x) (o_dims o)). change (map (fun x => g x) (o_dims o)) with (map g (o_dims o)). now rewrite A. }
      induction e0; cbn [subs1]; intros R; destruct (sexpr_eqb _ _) eqn:E; try (apply sexpr_eqb_eq in E; rewrite E, Y; reflexivity); auto; try easy.
      - destruct R. cbn. now rewrite IHe0_1, IHe0_2.
      - cbn. now rewrite IHe0. }
    unfold l, r. now rewrite !X.
  - cbn. unfold l, r. assert (X : forall e0, no_reduction e0 -> ~ In (o_name o, map IVar (o_dims o)) (indexed_exprs (subs1 sympy_rule (SIx (o_name o) (map IVar (o_dims o))) (SNum 1) e0))).
    { induction e0; cbn [subs1]; intros R; destruct (sexpr_eqb _ _) eqn:E; cbn; auto; try easy.
      - intros [Q|[]]. injection Q as -> ->. now rewrite sexpr_eqb_refl in E.
      - destruct R. rewrite in_app_iff. intros [Q|Q]; [now apply IHe0_1|now apply IHe0_2]. }
    rewrite in_app_iff. intros [Q|Q]; [exact (X lhs R1 Q)|exact (X rhs R2 Q)].
Qed.
