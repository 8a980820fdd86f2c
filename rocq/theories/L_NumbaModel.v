(** C81: the numba functions and the written equations. *)
From Coq Require Import Reals Lra.
From Verif Require Import Py PyStr NdArray M_Primitives M_Utilities M_Expand M_SymExpr M_Calculus M_Simplify M_Lambdify M_NumbaModel.
From Verif Require Import S_Layout S_Markers S_Expand S_Calculus S_Reduce S_Simplify S_Lambdify S_NumbaModel.
From Verif Require Import L_Utilities L_Layout L_Unpacked L_Reduce L_Simplify L_Simplify2 L_Calculus L_Calculus2 L_Lambdify L_NumbaStep L_Lambdify2.
Local Open Scope string_scope.
Local Open Scope list_scope.

(** * The meaning of a scalar residual is the computed number *)
Definition view (names : list string) (st : string -> R) : scalars := fun s => if mem_str s names then Some (st s) else None.

Lemma den_num c v g names st p e x : no_reduction e -> indexed_exprs e = [] -> den c v (view names st) g e = Some x ->
  numval st p e = x /\ forall s, In s (atoms e) -> In s names.
Proof.
  revert x. induction e; cbn [no_reduction indexed_exprs den numval atoms]; intros x R I D; try discriminate.
  - injection D as <-. split; [reflexivity|intros s []].
  - unfold view in D. destruct (mem_str s names) eqn:M; [|discriminate]. injection D as <-. split; [reflexivity|]. intros s' [<-|[]]. now apply mem_str_In.
  - destruct R as (R1 & R2). apply app_eq_nil in I as (I1 & I2).
    destruct (den c v (view names st) g e1) as [y1|]; [|discriminate]. destruct (den c v (view names st) g e2) as [y2|]; [|discriminate]. injection D as <-.
    destruct (IHe1 y1 R1 I1 eq_refl) as (<- & A1). destruct (IHe2 y2 R2 I2 eq_refl) as (<- & A2). split; [reflexivity|].
    intros s Hs. apply in_app_or in Hs as [Hs|Hs]; auto.
  - destruct (den c v (view names st) g e) as [y|]; [|discriminate]. injection D as <-. destruct (IHe y R I eq_refl) as (<- & A). split; auto.
  - destruct R.
Qed.

(** * The symbols of the unpacked objects *)
Lemma key_name c objs u u' : plain_labels c -> (forall o, In o objs -> declared c o) ->
  (exists o ls, In o objs /\ element c (o_dims o) ls /\ copy_of o u ls) -> (exists o ls, In o objs /\ element c (o_dims o) ls /\ copy_of o u' ls) ->
  (to_sympy u = to_sympy u' -> make_indexed_name u = make_indexed_name u') /\
  (to_sympy u = SSym (make_indexed_name u') -> make_indexed_name u = make_indexed_name u').
Proof.
  intros PL DE (o & ls & Ho & El & Co) (o' & ls' & Ho' & El' & Co').
  destruct (@copy_key c o u ls (DE o Ho) PL El Co) as (K & N). destruct (@copy_key c o' u' ls' (DE o' Ho') PL El' Co') as (K' & N').
  assert (IL : forall a b, map ILab a = map ILab b -> a = b).
  { induction a; intros [|y b] H; cbn in H; try discriminate; auto. injection H as -> H. f_equal. auto. }
  rewrite K, K', N, N'. split.
  - destruct (o_dims o) eqn:E1; destruct (o_dims o') eqn:E2; intros H; try discriminate; injection H.
    + intros ->. inversion El; inversion El'; subst. reflexivity.
    + intros H1 ->. apply IL in H1. now subst.
  - destruct (o_dims o) eqn:E1; intros H; try discriminate. injection H as H. inversion El; subst. cbn in *. now rewrite H.
Qed.

Lemma symbol_of_copy c si dord objs us u : plain_labels c -> (forall o, In o objs -> declared c o) -> walks_set dord ->
  (forall u, In u us -> exists o ls, In o objs /\ element c (o_dims o) ls /\ copy_of o u ls) -> In u us ->
  subs si dord (indexed_variables_to_sub_dict us) (to_sympy u) = SSym (make_indexed_name u).
Proof.
  intros PL DE WS U Hu. unfold subs. set (d := indexed_variables_to_sub_dict us).
  assert (L : forall p, In p (dord d) -> exists u', In u' us /\ p = (to_sympy u', SSym (make_indexed_name u'))).
  { intros p Hp. apply (proj2 (WS d)) in Hp. exact (@sub_dict_in us p Hp). }
  assert (K : exists n, In (to_sympy u, n) (dord d)) by (destruct (@sub_dict_key us u Hu) as (n & Hn); exists n; now apply (proj2 (WS d))).
  assert (step : forall u', In u' us -> forall e, e = to_sympy u \/ e = SSym (make_indexed_name u) ->
     let e' := subs1 si (to_sympy u') (SSym (make_indexed_name u')) e in
     (e' = e \/ e' = SSym (make_indexed_name u)) /\ (to_sympy u' = to_sympy u -> e' = SSym (make_indexed_name u))).
  { intros u' Hu' e He e'. destruct (@key_name c objs u' u PL DE (U u' Hu') (U u Hu)) as (N1 & N2).
    assert (LF : (exists b l, e = SIx b l) \/ exists s, e = SSym s).
    { destruct He as [->| ->]; [|eauto]. unfold to_sympy. destruct (o_dims u); eauto. }
    assert (E' : e' = if sexpr_eqb e (to_sympy u') then SSym (make_indexed_name u') else e) by (unfold e'; destruct LF as [(b & l & ->)|(s & ->)]; reflexivity).
    destruct (sexpr_eqb e (to_sympy u')) eqn:Q.
    - apply sexpr_eqb_eq in Q. assert (NN : make_indexed_name u' = make_indexed_name u) by (destruct He as [->| ->]; [apply N1|apply N2]; congruence).
      rewrite E', NN. auto.
    - split; [auto|]. intros H. destruct He as [->| ->].
      + rewrite H in Q. exfalso. assert (sexpr_eqb (to_sympy u) (to_sympy u) = true) by now apply sexpr_eqb_eq. congruence.
      + auto. }
  clearbody d. destruct K as (n & K). revert K L. generalize (dord d) as l. clear d.
  assert (G : forall l e, (forall p, In p l -> exists u', In u' us /\ p = (to_sympy u', SSym (make_indexed_name u'))) -> e = to_sympy u \/ e = SSym (make_indexed_name u) ->
     (e = SSym (make_indexed_name u) \/ exists n, In (to_sympy u, n) l) ->
     fold_left (fun e kv => subs1 si (fst kv) (snd kv) e) l e = SSym (make_indexed_name u)).
  { induction l as [|p l IH]; intros e L He Hk; cbn [fold_left].
    - destruct Hk as [Hk|(m & [])]. exact Hk.
    - destruct (L p (or_introl eq_refl)) as (u' & Hu' & ->). cbn [fst snd]. destruct (step u' Hu' e He) as (S1 & S2). apply IH.
      + intros p Hp. apply L. now right.
      + destruct S1 as [->|S1]; auto.
      + destruct Hk as [->|(m & [H|H])].
        * destruct S1 as [->|S1]; auto.
        * injection H as H _. left. now apply S2.
        * right. eauto. }
  intros l K L. apply G; eauto.
Qed.

Lemma map_res_app {A B} (f : A -> res B) a b la lb : map_res f a = Ok la -> map_res f b = Ok lb -> map_res f (a ++ b) = Ok (la ++ lb).
Proof.
  revert la. induction a as [|y a IH]; cbn; intros la HA HB; [injection HA as <-; exact HB|].
  destruct (f y); [|discriminate]. cbn in *. destruct (map_res f a) as [l|]; [|discriminate]. cbn in HA. injection HA as <-. now rewrite (IH l eq_refl HB).
Qed.
Lemma unpack_objects_app order a b c ua ub : unpack_objects order a c = Ok ua -> unpack_objects order b c = Ok ub -> unpack_objects order (a ++ b) c = Ok (ua ++ ub).
Proof.
  unfold unpack_objects. intros HA HB. destruct (map_res _ a) as [la|] eqn:EA; [|discriminate]. destruct (map_res _ b) as [lb|] eqn:EB; [|discriminate].
  cbn in HA, HB. injection HA as <-. injection HB as <-. rewrite (map_res_app _ a b EA EB). cbn. now rewrite concat_app.
Qed.

Lemma unpack_group_ok order objs c us : unpack_objects order objs c = Ok us -> NoDup (map make_indexed_name us) ->
  unpack_group order objs c = Ok (combine (map make_indexed_name us) us) /\ dvals (combine (map make_indexed_name us) us) = us.
Proof.
  intros E N. unfold unpack_group. rewrite E. cbn [bind]. split.
  - rewrite dict_of_list_NoDup; [reflexivity|]. rewrite map_fst_combine; auto. now rewrite map_length.
  - unfold dvals. clear. induction us as [|u us IH]; [reflexivity|]. cbn. now rewrite IH.
Qed.

(** * Positions in the flat vectors *)
Lemma labels_of_range c ds idx ls shape : labels_of c ds idx ls -> Forall2 (fun d n => exists all, dget d c = Some all /\ length all = n) ds shape -> in_range shape idx.
Proof.
  intros (L & F) H. revert idx ls L F. induction H as [|d n ds shape (all & A & B) H IH]; intros [|i idx] ls L F; try discriminate; [constructor|].
  cbn in F. inversion F; subst. destruct H2 as (all' & A' & B'). cbn in A', B'. rewrite A in A'. injection A' as <-. constructor.
  - apply nth_error_Some. congruence.
  - eapply IH; [|eauto]. cbn in L. lia.
Qed.
Lemma shape_lab c ds shape : Forall2 (fun d n => exists ls, dget d (lab_coords c) = Some ls /\ length ls = n) ds shape ->
  Forall2 (fun d n => exists all, dget d c = Some all /\ length all = n) ds shape.
Proof.
  induction 1 as [|d n ds shape (ls & A & B) H IH]; constructor; auto. rewrite dget_lab in A. destruct (dget d c) as [all|]; [|discriminate].
  injection A as <-. rewrite map_length in B. eauto.
Qed.
Lemma labels_at_fun c ds idx ls ls' : labels_of c ds idx ls -> labels_at (lab_coords c) ds idx ls' -> ls' = map LStr ls.
Proof.
  intros (L & F) (F' & _). revert ls ls' F F'. generalize (combine ds idx) as l. clear. induction l as [|p l IH]; intros ls ls' F F'; inversion F; inversion F'; subst; [reflexivity|].
  cbn. f_equal; auto. destruct H1 as (all & A & B). destruct H6 as (all' & A' & B'). rewrite dget_lab, A in A'. injection A' as <-. rewrite nth_error_map, B in B'. injection B' as <-. reflexivity.
Qed.
Lemma element_labels c ds ls : element c ds ls -> exists idx, labels_of c ds idx ls.
Proof.
  induction 1 as [|d l ds ls (all & A & B) E (idx & L & F)]; [exists []; split; [reflexivity|constructor]|].
  apply In_nth_error in B as (i & B). exists (i :: idx). split; [cbn; now rewrite L|]. cbn. constructor; auto. exists all. auto.
Qed.
Lemma labels_element c ds idx ls : labels_of c ds idx ls -> element c ds ls.
Proof.
  intros (L & F). revert idx ls L F. induction ds as [|d ds IH]; intros [|i idx] ls L F; try discriminate; cbn in F; inversion F; subst; constructor.
  - destruct H1 as (all & A & B). exists all. split; auto. eapply nth_error_In; eauto.
  - eapply IH; eauto.
Qed.

Section Flat.
Variables (order : list string -> list string) (c : dict (list string)) (vars params : list mobj) (d : dict (arr R)) (x theta : list R) (uv up : list mobj).
Hypothesis NK : NoDup (dkeys c).
Hypothesis OB : forall o, In o (vars ++ params) -> declared c o /\ exists a, dget (o_name o) d = Some a /\ fits (lab_coords c) o a.
Hypothesis EV : unpack_objects order vars (lab_coords c) = Ok uv.
Hypothesis EP : unpack_objects order params (lab_coords c) = Ok up.
Hypothesis ND : NoDup (map make_indexed_name (uv ++ up)).
Hypothesis FL : variable_dict_to_flat_array d vars params = Ok (x, theta).

Let nv := map make_indexed_name uv.
Let np_ := map make_indexed_name up.

Lemma flat_pair : concat_named d vars = Ok x /\ concat_named d params = Ok theta.
Proof.
  unfold variable_dict_to_flat_array in FL. destruct (concat_named d vars); [|discriminate]. cbn in FL. destruct (concat_named d params); [|discriminate].
  cbn in FL. injection FL as -> ->. auto.
Qed.

Lemma group_at group vec us : (group, vec) = (vars, x) \/ (group, vec) = (params, theta) -> unpack_objects order group (lab_coords c) = Ok us ->
  NoDup (map make_indexed_name us) -> concat_named d group = Ok vec -> (forall o, In o group -> In o (vars ++ params)) ->
  length us = length vec /\
  forall j o a idx ls, nth_error group j = Some o -> dget (o_name o) d = Some a -> labels_of c (o_dims o) idx ls ->
    exists r, aget a idx = Ok r /\ nth_error vec (start_of d group j + offset (ashape a) idx) = Some r /\
      nth_error (map make_indexed_name us) (start_of d group j + offset (ashape a) idx) = Some (join "_" (o_name o :: ls)).
Proof.
  intros GV E N CN SB.
  destruct (@c13_kth_name__p R order (lab_coords c) group d us vec) as (g & Eg & Lg & Kg); auto.
  { intros o Ho. destruct (OB o (SB o Ho)) as ((A & B & _) & C). auto. }
  destruct (@unpack_group_ok order group (lab_coords c) us E N) as (Eg' & _). rewrite Eg in Eg'. injection Eg' as ->.
  rewrite combine_length, map_length, Nat.min_id in Lg. split; [exact Lg|].
  intros j o a idx ls Hj Ha Hl.
  assert (Ho : In o group) by (eapply nth_error_In; eauto). destruct (OB o (SB o Ho)) as (_ & a' & Ha' & (Wf & Sh)). rewrite Ha in Ha'. injection Ha' as <-.
  assert (IR : in_range (ashape a) idx) by (eapply labels_of_range; [exact Hl|apply shape_lab; exact Sh]).
  destruct (@c03_addressing__p R vars params d x theta) with (group := group) (vec := vec) as (A1 & A2); auto.
  { intros o' a' Ho' Ha'. destruct (OB o' Ho') as (_ & a'' & E'' & (W & _)). congruence. }
  destruct (A1 j o a idx Hj Ha IR) as (r & Er & Vr). exists r. split; [exact Er|]. split; [exact Vr|].
  set (k := start_of d group j + offset (ashape a) idx) in *.
  assert (Lk : k < length vec) by (apply nth_error_Some; congruence).
  destruct (Kg k Lk) as (j' & o' & a' & idx' & ls' & o'' & r' & Hj' & Ha' & IR' & Hk' & _ & _ & Hls' & Hn & _).
  destruct (A2 k Lk) as ((jj & ii) & _ & UQ).
  assert (Q1 : (jj, ii) = (j, idx)). { apply UQ. exists o, a. cbn. auto. }
  assert (Q2 : (jj, ii) = (j', idx')). { apply UQ. exists o', a'. cbn. auto. }
  rewrite Q1 in Q2. injection Q2 as <- <-. rewrite Hj in Hj'. injection Hj' as <-.
  assert (NN : forall (l : list mobj) k p, nth_error (combine (map make_indexed_name l) l) k = Some p -> nth_error (map make_indexed_name l) k = Some (fst p)).
  { clear. induction l as [|u l IH]; intros [|k] p H; cbn in *; try discriminate; [injection H as <-; reflexivity|]. now apply IH. }
  apply NN in Hn. cbn [fst] in Hn. rewrite Hn. f_equal. f_equal. f_equal.
  rewrite (labels_at_fun Hl Hls'). rewrite map_map. cbn [str_label]. apply map_id.
Qed.

Lemma nd_parts : NoDup nv /\ NoDup np_ /\ NoDup (nv ++ np_).
Proof.
  unfold nv, np_. rewrite map_app in ND. destruct (NoDup_app_parts _ _ ND) as (A & B & _). auto.
Qed.

Lemma lengths : length x = length nv /\ length theta = length np_.
Proof.
  destruct nd_parts as (A & B & _). destruct flat_pair as (F1 & F2).
  destruct (@group_at vars x uv) as (L1 & _); auto. { intros o Ho. apply in_or_app. auto. }
  destruct (@group_at params theta up) as (L2 & _); auto. { intros o Ho. apply in_or_app. auto. }
  unfold nv, np_. rewrite !map_length. auto.
Qed.

(** the name of an element of a variable, its position and its value *)
Lemma var_at j o a idx ls : nth_error vars j = Some o -> dget (o_name o) d = Some a -> labels_of c (o_dims o) idx ls ->
  exists r, aget a idx = Ok r /\ nth_error nv (start_of d vars j + offset (ashape a) idx) = Some (join "_" (o_name o :: ls)) /\
    state_of (nv ++ np_) (x ++ theta) (join "_" (o_name o :: ls)) = r.
Proof.
  intros Hj Ha Hl. destruct nd_parts as (A & B & C). destruct flat_pair as (F1 & F2). destruct lengths as (L1 & L2).
  destruct (@group_at vars x uv) as (_ & G); auto. { intros o' Ho. apply in_or_app. auto. }
  destruct (G j o a idx ls Hj Ha Hl) as (r & R1 & R2 & R3). exists r. split; [exact R1|]. split; [exact R3|].
  eapply state_left; eauto.
Qed.
Lemma par_at j o a idx ls : nth_error params j = Some o -> dget (o_name o) d = Some a -> labels_of c (o_dims o) idx ls ->
  exists r, aget a idx = Ok r /\ In (join "_" (o_name o :: ls)) np_ /\
    state_of (nv ++ np_) (x ++ theta) (join "_" (o_name o :: ls)) = r.
Proof.
  intros Hj Ha Hl. destruct nd_parts as (A & B & C). destruct flat_pair as (F1 & F2). destruct lengths as (L1 & L2).
  destruct (@group_at params theta up) as (_ & G); auto. { intros o' Ho. apply in_or_app. auto. }
  destruct (G j o a idx ls Hj Ha Hl) as (r & R1 & R2 & R3). exists r. split; [exact R1|]. split; [eapply nth_error_In; exact R3|].
  eapply state_right; eauto.
Qed.

Variables (v : elements) (w : scalars).
Hypothesis DA : data_of c (vars ++ params) d v w.

Lemma data_belongs : belongs c (vars ++ params) v w.
Proof.
  destruct DA as (D1 & D2). split.
  - intros b ls r H. apply D1 in H as (o & a & idx & Ho & <- & Dm & _ & L & _). exists o. repeat split; auto. eapply labels_element; eauto.
  - intros s r H. apply D2 in H as (o & a & Ho & <- & Dm & _). exists o. auto.
Qed.

Lemma data_view : scalar_view c (vars ++ params) v w (view (nv ++ np_) (state_of (nv ++ np_) (x ++ theta))).
Proof.
  intros o ls Ho El. destruct (element_labels El) as (idx & Hl). destruct (OB o Ho) as (_ & a & Ha & _).
  assert (G : exists r, aget a idx = Ok r /\ In (join "_" (o_name o :: ls)) (nv ++ np_) /\ state_of (nv ++ np_) (x ++ theta) (join "_" (o_name o :: ls)) = r).
  { apply in_app_or in Ho as [Ho|Ho]; apply In_nth_error in Ho as (j & Hj).
    - destruct (@var_at j o a idx ls Hj Ha Hl) as (r & A & B & C). exists r. split; auto. split; auto. apply in_or_app. left. eapply nth_error_In; eauto.
    - destruct (@par_at j o a idx ls Hj Ha Hl) as (r & A & B & C). exists r. split; auto. split; auto. apply in_or_app. auto. }
  destruct G as (r & Er & In_ & St). unfold view. rewrite (proj2 (mem_str_In _ _) In_), St. symmetry. destruct DA as (D1 & D2).
  destruct (o_dims o) as [|d0 ds] eqn:Ed.
  - apply D2. exists o, a. repeat split; auto. destruct Hl as (L & _). destruct idx; [exact Er|discriminate].
  - apply D1. exists o, a, idx. rewrite Ed. repeat split; auto; try discriminate; apply Hl.
Qed.
End Flat.

(** * Blocks of residuals *)
Lemma shape_labels c dims shape idx : dims_shape c dims shape -> in_range shape idx -> exists ls, labels_of c dims idx ls.
Proof.
  intros H. revert idx. induction H as [|d0 n dims shape (all & A & B) H IH]; intros idx IR; inversion IR; subst.
  - exists []. split; [reflexivity|constructor].
  - destruct (IH l H4) as (ls & L & F). destruct (nth_error all x) as [l0|] eqn:E; [|apply nth_error_None in E; lia].
    exists (l0 :: ls). split; [cbn; now rewrite L|]. cbn. constructor; eauto.
Qed.
Lemma position c dims shape k : dims_shape c dims shape -> k < prodn shape -> exists idx ls, labels_of c dims idx ls /\ offset shape idx = k.
Proof.
  intros D L. rewrite <- ndindex_length in L. destruct (nth_error (ndindex shape) k) as [idx|] eqn:E; [|apply nth_error_None in E; lia].
  apply offset_nth_ndindex in E as (IR & <-). destruct (shape_labels D IR) as (ls & H). eauto.
Qed.
Lemma shape_positive c dims shape : plain_labels c -> dims_shape c dims shape -> 0 < prodn shape.
Proof.
  intros P H. induction H as [|d0 n dims shape (all & A & B) H IH]; [cbn; lia|]. destruct (P d0 all A) as (NE & _).
  unfold prodn in *. cbn. destruct all; [congruence|]. cbn in B. subst n. lia.
Qed.

(** whether an expression has a value does not depend on the values *)
Lemma all_some_def {A} (l l' : list (option A)) : Forall2 (fun x y => x <> None -> y <> None) l l' -> all_some l <> None -> all_some l' <> None.
Proof.
  induction 1 as [|x y l l' H F IH]; cbn; [auto|]. destruct x; cbn; [|congruence]. destruct (all_some l); [|congruence]. intros _.
  destruct y; [|exfalso; now apply H]. destruct (all_some l'); [discriminate|]. exfalso. now apply IH.
Qed.
Lemma over_def c o lims : forall b b', (forall g, b g <> None -> b' g <> None) -> forall g, over c o lims b g <> None -> over c o lims b' g <> None.
Proof.
  induction lims as [|(i & (lo & hi)) lims IH]; cbn [over]; intros b b' H g; [apply H|]. apply IH. clear g. intros g Hg.
  assert (K : forall (x : option (list R)), option_map (rop_val o) x <> None <-> x <> None) by (intros [x|]; cbn; split; congruence).
  apply K. apply K in Hg. eapply all_some_def; [|exact Hg]. clear Hg.
  induction (seq lo (S hi - lo)); cbn [map]; constructor; auto. destruct (label_at c i a); auto.
Qed.
Lemma den_def c v w v' w' e : (forall b ls, v b ls <> None -> v' b ls <> None) -> (forall s, w s <> None -> w' s <> None) ->
  forall g, den c v w g e <> None -> den c v' w' g e <> None.
Proof.
  intros HV HW. induction e; cbn [den]; intros g H; auto; try discriminate.
  - destruct (all_some _); auto.
  - destruct (den c v w g e1) eqn:E1; [|cbn in H; congruence]. destruct (den c v w g e2) eqn:E2; [|cbn in H; congruence].
    assert (A : den c v' w' g e1 <> None) by (apply IHe1; congruence). assert (B : den c v' w' g e2 <> None) by (apply IHe2; congruence).
    destruct (den c v' w' g e1); [|congruence]. destruct (den c v' w' g e2); [|congruence]. discriminate.
  - destruct (den c v w g e) eqn:E1; [|cbn in H; congruence]. assert (A : den c v' w' g e <> None) by (apply IHe; congruence).
    destruct (den c v' w' g e); [discriminate|congruence].
  - eapply over_def; [|exact H]. auto.
Qed.

Section Core.
Variables (sub_into : sexpr -> list string -> bool) (set_order : list sexpr -> list sexpr) (dict_order : list (sexpr * sexpr) -> list (sexpr * sexpr)).
Variables (evaluates : sexpr -> sexpr -> bool) (order : list string -> list string).
Hypothesis (WS : walks_set set_order) (WD : walks_set dict_order).
Variables (c : dict (list string)) (axes : string -> list (list string)) (numeraire : option mobj) (objs us : list mobj).
Hypothesis (PL : plain_labels c) (NK : NoDup (dkeys c)) (DE : forall o, In o objs -> declared c o) (EU : unpack_objects order objs (lab_coords c) = Ok us).
Variable names : list string.
Variable pp : string -> list idx -> R.

Lemma eq_core lr es v w st : flat_reductions c axes (written lr) -> equation_symbols sub_into set_order dict_order evaluates c numeraire us (fst lr) (snd lr) = Ok es ->
  belongs c objs v w -> scalar_view c objs v w (view names st) -> unit_numeraire w numeraire -> has_value c v w lr ->
  exists dims shape, equation_dims c (written lr) dims /\ dims_shape c dims shape /\ length es = prodn shape /\
    (forall e, In e es -> no_reduction e /\ indexed_exprs e = [] /\ forall s, In s (atoms e) -> In s names) /\
    forall v' w' st', belongs c objs v' w' -> scalar_view c objs v' w' (view names st') -> unit_numeraire w' numeraire -> has_value c v' w' lr ->
      forall idx ls, labels_of c dims idx ls -> exists e, nth_error es (offset shape idx) = Some e /\
        den c v' w' (assign dims ls) (written lr) = Some (numval st' pp e).
Proof.
  intros FR ES BE SV UN HV.
  destruct (@c73_value__p sub_into set_order dict_order evaluates WS WD order c axes numeraire objs us (fst lr) (snd lr) es) as (dims & shape & D1 & D2 & D3 & D4 & D5 & D6); auto.
  { destruct numeraire; [apply UN|exact I]. }
  assert (ED : equation_dims c (written lr) dims) by (split; [|split]; auto).
  exists dims, shape. split; [exact ED|]. split; [exact D4|]. split; [exact D5|]. 
  assert (G : forall v' w' st', belongs c objs v' w' -> scalar_view c objs v' w' (view names st') -> unit_numeraire w' numeraire -> has_value c v' w' lr ->
      forall idx ls, labels_of c dims idx ls -> exists e, nth_error es (offset shape idx) = Some e /\
        den c v' w' (assign dims ls) (written lr) = Some (numval st' pp e) /\ no_reduction e /\ indexed_exprs e = [] /\ forall s, In s (atoms e) -> In s names).
  { intros v' w' st' B' S' U' H' idx ls L. destruct (D6 idx ls L) as (e & E1 & E2). exists e. split; [exact E1|].
    destruct (den c v' w' (assign dims ls) (written lr)) as [x|] eqn:Q.
    2:{ exfalso. apply (H' dims ls ED (labels_element L)). exact Q. }
    destruct (E2 v' w' (view names st') x B' S') as (I1 & I2 & I3); auto. { destruct numeraire; [apply U'|exact I]. }
    destruct (@den_num c v' (fun _ => None) names st' pp e x I2 I1) as (N1 & N2); auto. rewrite N1. auto. }
  split.
  - intros e He. apply In_nth_error in He as (k & Hk). assert (Lk : k < prodn shape) by (rewrite <- D5; apply nth_error_Some; congruence).
    destruct (position D4 Lk) as (idx & ls & L & <-). destruct (G v w st BE SV UN HV idx ls L) as (e' & E1 & _ & E2). assert (e' = e) by congruence. subst e'. exact E2.
  - intros v' w' st' B' S' U' H' idx ls L. destruct (G v' w' st' B' S' U' H' idx ls L) as (e & E1 & E2 & _). eauto.
Qed.

Lemma symbols_ok group all : (forall u, In u all -> exists o ls, In o objs /\ element c (o_dims o) ls /\ copy_of o u ls) -> (forall u, In u group -> In u all) ->
  unpacked_symbols sub_into dict_order all group = Ok (map make_indexed_name group).
Proof.
  intros U S. unfold unpacked_symbols. induction group as [|u group IH]; [reflexivity|]. cbn [map_res map].
  rewrite (@symbol_of_copy c sub_into dict_order objs all u PL DE WD U (S u (or_introl eq_refl))). cbn [symbol_name bind]. rewrite IH; [reflexivity|]. intros; apply S; now right.
Qed.
End Core.

Lemma map_res_exists {A B} (f : A -> res B) l : (forall a, In a l -> exists b, f a = Ok b) -> exists bs, map_res f l = Ok bs /\ Forall2 (fun a b => f a = Ok b) l bs.
Proof.
  induction l as [|a l IH]; intros H; [exists []; split; [reflexivity|constructor]|].
  destruct (H a (or_introl eq_refl)) as (b & Hb). destruct IH as (bs & E & F); [intros; apply H; now right|].
  exists (b :: bs). cbn. rewrite Hb. cbn. rewrite E. split; [reflexivity|]. constructor; auto.
Qed.
Lemma Forall2_blocks {A B} (P : A -> B -> Prop) ess : forall J, Forall2 P (List.concat ess) J -> exists blocks, J = List.concat blocks /\ Forall2 (Forall2 P) ess blocks.
Proof.
  induction ess as [|es ess IH]; cbn [List.concat]; intros J H; [inversion H; exists []; split; [reflexivity|constructor]|].
  apply Forall2_app_inv_l in H as (b & J' & F1 & F2 & ->). apply IH in F2 as (blocks & -> & F). exists (b :: blocks). split; [reflexivity|]. constructor; auto.
Qed.
Lemma Forall2_len {A B} (P : A -> B -> Prop) l l' : Forall2 P l l' -> length l = length l'.
Proof. induction 1; cbn; congruence. Qed.
Lemma Forall2_of_nth {A B} (P : A -> B -> Prop) l : forall l', length l' = length l ->
  (forall i a, nth_error l i = Some a -> exists b, nth_error l' i = Some b /\ P a b) -> Forall2 P l l'.
Proof.
  induction l as [|a l IH]; intros [|b l'] L H; try discriminate; constructor.
  - destruct (H 0 a eq_refl) as (b' & E & Q). injection E as <-. exact Q.
  - apply IH; [now injection L|]. intros i y Hy. exact (H (S i) y Hy).
Qed.
Lemma Forall2_nth {A B} (P : A -> B -> Prop) l l' i a : Forall2 P l l' -> nth_error l i = Some a -> exists b, nth_error l' i = Some b /\ P a b.
Proof.
  intros F. revert i. induction F as [|x y l l' H F IH]; intros [|i] E; cbn in *; try discriminate; [injection E as <-; eauto|auto].
Qed.
Lemma Forall2_mix {A B C} (P : A -> B -> Prop) (Q : B -> C -> Prop) l l' l'' : Forall2 P l l' -> Forall2 Q l' l'' -> Forall2 (fun a c => exists b, P a b /\ Q b c) l l''.
Proof. intros F. revert l''. induction F as [|x y l l' H F IH]; intros l'' G; inversion G; subst; constructor; eauto. Qed.
Lemma Forall2_weak {A B} (P Q : A -> B -> Prop) l l' : (forall a b, In a l -> P a b -> Q a b) -> Forall2 P l l' -> Forall2 Q l l'.
Proof. intros H F. induction F as [|x y l l' Hx F IH]; constructor; [apply H; [now left|exact Hx]|]. apply IH. intros a b I. apply H. now right. Qed.

Section Whole.
Variables (sub_into : sexpr -> list string -> bool) (set_order : list sexpr -> list sexpr) (dict_order : list (sexpr * sexpr) -> list (sexpr * sexpr)).
Variables (evaluates : sexpr -> sexpr -> bool) (cse : list sexpr -> list (string * sexpr) * list sexpr) (order : list string -> list string).
Hypothesis (WS : walks_set set_order) (WD : walks_set dict_order) (EC : eliminates cse).
Variables (c : dict (list string)) (axes : string -> list (list string)) (numeraire : option mobj) (vars params : list mobj) (equations : list (sexpr * sexpr)).
Variables (d : dict (arr R)) (v : elements) (w : scalars) (uv up : list mobj) (x theta : list R).
Let names := map make_indexed_name (uv ++ up).
Hypothesis (PL : plain_labels c) (NK : NoDup (dkeys c)) (HD : has_data c (vars ++ params) d).
Hypothesis (EV : unpack_objects order vars (lab_coords c) = Ok uv) (EP : unpack_objects order params (lab_coords c) = Ok up).
Hypothesis (ND : NoDup names) (NM : forall n, In n names -> is_name n = true /\ ~ In n reserved).
Hypothesis (FL : variable_dict_to_flat_array d vars params = Ok (x, theta)) (DA : data_of c (vars ++ params) d v w) (UN : unit_numeraire w numeraire).
Hypothesis (VN : vars <> []) (QN : equations <> []).
Hypothesis EQ : forall lr, In lr equations -> flat_reductions c axes (written lr) /\ has_value c v w lr /\
  exists es, equation_symbols sub_into set_order dict_order evaluates c numeraire (uv ++ up) (fst lr) (snd lr) = Ok es.
Let nv := map make_indexed_name uv.
Let np_ := map make_indexed_name up.
Let state := state_of names (x ++ theta).
Let zero : string -> list idx -> R := fun _ _ => 0%R.

Lemma names_app : names = nv ++ np_. Proof. unfold names, nv, np_. apply map_app. Qed.
Lemma decl o : In o (vars ++ params) -> declared c o. Proof. intros H. apply (HD o H). Qed.
Lemma EU : unpack_objects order (vars ++ params) (lab_coords c) = Ok (uv ++ up). Proof. now apply unpack_objects_app. Qed.
Lemma nd : NoDup nv /\ NoDup np_ /\ NoDup (nv ++ np_). Proof. exact (@nd_parts uv up ND). Qed.
Lemma lens : length x = length nv /\ length theta = length np_.
Proof. exact (@lengths order c vars params d x theta uv up HD EV EP ND FL). Qed.
Lemma bel : belongs c (vars ++ params) v w. Proof. exact (@data_belongs c vars params d v w DA). Qed.
Lemma sview : scalar_view c (vars ++ params) v w (view names state).
Proof. unfold state. rewrite names_app. exact (@data_view order c vars params d x theta uv up HD EV EP ND FL v w DA). Qed.

Lemma var_nonempty : nv <> [].
Proof.
  destruct vars as [|o vs] eqn:E; [congruence|]. destruct (HD o (or_introl eq_refl)) as (De & a & Ha & (Wf & Sh)).
  assert (Sh' : dims_shape c (o_dims o) (ashape a)) by (apply shape_lab; exact Sh).
  destruct (@position c (o_dims o) (ashape a) 0 Sh' (shape_positive PL Sh')) as (idx & ls & L & _).
  rewrite <- E in *. destruct (@var_at order c vars params d x theta uv up HD EV EP ND FL 0 o a idx ls) as (r & _ & N & _); auto; [now rewrite E|].
  unfold nv. intros Z. rewrite Z in N. destruct (start_of d vars 0 + offset (ashape a) idx); discriminate.
Qed.

Lemma whole : exists f ess,
  compile_numba_cge_functions sub_into set_order dict_order evaluates cse order c numeraire vars params equations = Ok f /\
  Forall2 (fun lr es => equation_symbols sub_into set_order dict_order evaluates c numeraire (uv ++ up) (fst lr) (snd lr) = Ok es) equations ess /\
  nf_system f x theta = Ok (OVec (map (numval state zero) (List.concat ess))) /\
  (exists J, nf_jac f x theta = Ok (OMat J) /\ length J = length (List.concat ess) /\
     forall i j e y, nth_error (List.concat ess) i = Some e -> nth_error nv j = Some y ->
       exists row dv, nth_error J i = Some row /\ length row = length nv /\ nth_error row j = Some dv /\
         (smooth state zero e -> derivable_pt_lim (fun t => numval (set_sym state y t) zero e) (state y) dv)) /\
  (let loss s := (/ 2 * rsum (map (fun e => numval s zero e * numval s zero e) (List.concat ess)))%R in
   nf_resid f x theta = Ok (OScalar (loss state)) /\
   exists G, nf_grad f x theta = Ok (OVec G) /\ length G = length nv /\
     forall j y, nth_error nv j = Some y -> exists dv, nth_error G j = Some dv /\
       (Forall (smooth state zero) (List.concat ess) -> derivable_pt_lim (fun t => loss (set_sym state y t)) (state y) dv)).
Proof.
  destruct (map_res_exists (fun lr : sexpr * sexpr => equation_symbols sub_into set_order dict_order evaluates c numeraire (uv ++ up) (fst lr) (snd lr)) equations) as (ess & Ess & Fss).
  { intros lr Hl. apply (EQ lr Hl). }
  destruct nd as (N1 & N2 & N3).
  destruct (@unpack_group_ok order vars (lab_coords c) uv EV N1) as (G1 & G2). destruct (@unpack_group_ok order params (lab_coords c) up EP N2) as (G3 & G4).
  destruct (@unpack_copies order c (vars ++ params) (uv ++ up) decl EU) as (UC & _).
  assert (CL : forall e, In e (List.concat ess) -> no_reduction e /\ indexed_exprs e = [] /\ forall s, In s (atoms e) -> In s (nv ++ np_)).
  { intros e He. apply in_concat in He as (es & I1 & I2). rewrite <- names_app.
    assert (exists lr, In lr equations /\ equation_symbols sub_into set_order dict_order evaluates c numeraire (uv ++ up) (fst lr) (snd lr) = Ok es) as (lr & I3 & I4).
    { clear -Fss I1. induction Fss as [|a b l l' H F IH]; [easy|]. destruct I1 as [<-|I1]; [exists a; split; [now left|exact H]|]. destruct (IH I1) as (lr & A & B). exists lr. split; [now right|exact B]. }
    destruct (EQ lr I3) as (Q1 & Q2 & _).
    destruct (@eq_core sub_into set_order dict_order evaluates order WS WD c axes numeraire (vars ++ params) (uv ++ up) PL NK decl EU names zero lr es v w state) as (dims & shape & _ & _ & _ & Q3 & _); auto using bel, sview. }
  assert (NMa : forall n, In n (nv ++ np_) -> is_name n = true /\ ~ In n reserved) by (rewrite <- names_app; exact NM).
  assert (CN : List.concat ess <> []).
  { destruct equations as [|lr l] eqn:E; [congruence|]. inversion Fss; subst.
    destruct (EQ lr (or_introl eq_refl)) as (Q1 & Q2 & _).
    destruct (@eq_core sub_into set_order dict_order evaluates order WS WD c axes numeraire (vars ++ params) (uv ++ up) PL NK decl EU names zero lr y v w state) as (dims & shape & _ & Q3 & Q4 & _); auto using bel, sview.
    assert (P := shape_positive PL Q3). destruct y; [cbn in Q4; lia|discriminate]. }
  destruct (@c80_system__p cse EC nv np_ (List.concat ess) N3 NMa CL) as (f1 & F1 & F1').
  destruct (@c80_jacobian__p cse EC nv np_ (List.concat ess) N3 NMa CL CN var_nonempty) as (f2 & F2 & F2').
  destruct (@c80_loss__p cse EC nv np_ (List.concat ess) N3 NMa CL) as (f3 & f4 & F3 & F4 & F34).
  destruct lens as (Lx & Lt).
  exists (MkNumba f1 f2 f3 f4), ess. split; [|split; [exact Fss|]].
  - unfold compile_numba_cge_functions. rewrite G1. cbn [bind]. rewrite G3. cbn [bind]. rewrite G2, G4, Ess. cbn [bind].
    rewrite (@symbols_ok sub_into dict_order WD c (vars ++ params) PL decl uv (uv ++ up) UC) by (intros; apply in_or_app; auto). cbn [bind].
    rewrite (@symbols_ok sub_into dict_order WD c (vars ++ params) PL decl up (uv ++ up) UC) by (intros; apply in_or_app; auto). cbn [bind].
    fold nv np_. rewrite F1. cbn [bind]. rewrite F2. cbn [bind]. rewrite F3. cbn [bind]. rewrite F4. reflexivity.
  - cbn [nf_system nf_jac nf_resid nf_grad]. unfold state. rewrite names_app. split; [apply F1'; auto|]. split; [apply F2'; auto|]. apply F34; auto.
Qed.

(** ** One element changed *)
Lemma name_inj j o a idx ls o2 ls2 : nth_error vars j = Some o -> dget (o_name o) d = Some a -> labels_of c (o_dims o) idx ls ->
  In o2 (vars ++ params) -> element c (o_dims o2) ls2 -> join "_" (o_name o2 :: ls2) = join "_" (o_name o :: ls) -> o2 = o /\ ls2 = ls.
Proof.
  intros Hj Ha Hl Ho2 El2 E. destruct (@var_at order c vars params d x theta uv up HD EV EP ND FL j o a idx ls Hj Ha Hl) as (r & _ & N & _).
  destruct (element_labels El2) as (idx2 & Hl2). destruct (HD o2 Ho2) as (_ & a2 & Ha2 & (Wf2 & Sh2)). destruct nd as (N1 & N2 & N3).
  apply in_app_or in Ho2 as [Ho2|Ho2]; apply In_nth_error in Ho2 as (j2 & Hj2).
  - destruct (@var_at order c vars params d x theta uv up HD EV EP ND FL j2 o2 a2 idx2 ls2 Hj2 Ha2 Hl2) as (r2 & _ & M & _).
    rewrite E in M. set (k := start_of d vars j + offset (ashape a) idx) in *. set (k2 := start_of d vars j2 + offset (ashape a2) idx2) in *.
    assert (KK : k2 = k). { apply (proj1 (NoDup_nth_error _) N1); [apply nth_error_Some; unfold nv; congruence|unfold nv; congruence]. }
    destruct (@c03_addressing__p R vars params d x theta) with (group := vars) (vec := x) as (_ & A2); auto.
    { intros o' a' Ho' Ha'. destruct (HD o' Ho') as (_ & a'' & E'' & (W & _)). congruence. }
    destruct (HD o) as (_ & a' & Ha' & (Wf & Sh)); [apply in_or_app; left; eapply nth_error_In; eauto|]. rewrite Ha in Ha'. injection Ha' as <-.
    assert (Lk : k < length x). { destruct lens as (-> & _). apply nth_error_Some. unfold nv. congruence. }
    destruct (A2 k Lk) as ((jj & ii) & _ & UQ).
    assert (Q1 : (jj, ii) = (j, idx)). { apply UQ. exists o, a. cbn. repeat split; auto. eapply labels_of_range; [exact Hl|apply shape_lab; exact Sh]. }
    assert (Q2 : (jj, ii) = (j2, idx2)). { apply UQ. exists o2, a2. cbn. repeat split; auto. eapply labels_of_range; [exact Hl2|apply shape_lab; exact Sh2]. }
    rewrite Q1 in Q2. injection Q2 as <- <-. rewrite Hj in Hj2. injection Hj2 as <-. split; [reflexivity|].
    destruct Hl as (_ & F1). destruct Hl2 as (_ & F2). clear - F1 F2. revert ls ls2 F1 F2. generalize (combine (o_dims o) idx). intros l.
    induction l as [|p l IH]; intros ls ls2 F1 F2; inversion F1; inversion F2; subst; [reflexivity|]. f_equal; auto.
    destruct H1 as (al & A & B). destruct H6 as (al' & A' & B'). rewrite A in A'. injection A' as <-. congruence.
  - exfalso. destruct (@par_at order c vars params d x theta uv up HD EV EP ND FL j2 o2 a2 idx2 ls2 Hj2 Ha2 Hl2) as (r2 & _ & M & _).
    rewrite E in M. destruct (NoDup_app_inv _ _ N3) as (_ & _ & DJ). apply (DJ (join "_" (o_name o :: ls))); [eapply nth_error_In; exact N|exact M].
Qed.

Section Put.
Variables (j : nat) (o : mobj) (a : arr R) (idx : list nat) (ls : list string).
Hypothesis (Hj : nth_error vars j = Some o) (Ha : dget (o_name o) d = Some a) (Hl : labels_of c (o_dims o) idx ls) (NN : not_numeraire o numeraire).
Let y := join "_" (o_name o :: ls).
Let Ho : In o (vars ++ params). Proof. apply in_or_app. left. eapply nth_error_In; eauto. Qed.

Lemma put_belongs t : belongs c (vars ++ params) (put_elem o ls t v) (put_scal o t w).
Proof.
  destruct bel as (B1 & B2). split.
  - intros b l r H. unfold put_elem in H. destruct (o_dims o) eqn:Ed; [eauto|]. destruct (String.eqb_spec b (o_name o)); cbn in H; [|eauto].
    destruct (list_eqb String.eqb l ls) eqn:Q; [|eauto]. apply (list_eqb_eq String.eqb String.eqb_eq) in Q. subst b l. exists o. repeat split; auto; [congruence|].
    rewrite Ed. eapply labels_element. exact Hl.
  - intros s r H. unfold put_scal in H. destruct (o_dims o) eqn:Ed; [|eauto]. destruct (String.eqb_spec s (o_name o)); [|eauto]. subst s. exists o. auto.
Qed.
Lemma put_view t : scalar_view c (vars ++ params) (put_elem o ls t v) (put_scal o t w) (view names (set_sym state y t)).
Proof.
  intros o2 ls2 Ho2 El2. assert (V := @sview o2 ls2 Ho2 El2). assert (In (join "_" (o_name o2 :: ls2)) names) as IN.
  { unfold view in V. destruct (mem_str _ names) eqn:M; [now apply mem_str_In|]. exfalso. destruct (element_labels El2) as (i2 & L2). destruct (HD o2 Ho2) as (_ & a2 & Ha2 & _).
    rewrite names_app in M. apply mem_str_nIn in M. apply M. apply in_or_app. apply in_app_or in Ho2 as [H|H]; apply In_nth_error in H as (j2 & Hj2).
    - left. destruct (@var_at order c vars params d x theta uv up HD EV EP ND FL j2 o2 a2 i2 ls2 Hj2 Ha2 L2) as (r2 & _ & Q & _). eapply nth_error_In; exact Q.
    - right. destruct (@par_at order c vars params d x theta uv up HD EV EP ND FL j2 o2 a2 i2 ls2 Hj2 Ha2 L2) as (r2 & _ & Q & _). exact Q. }
  unfold view in *. rewrite (proj2 (mem_str_In _ _) IN) in *. unfold set_sym.
  destruct (String.eqb_spec (join "_" (o_name o2 :: ls2)) y) as [E|E].
  - destruct (@name_inj j o a idx ls o2 ls2 Hj Ha Hl Ho2 El2 E) as (-> & ->). unfold put_elem, put_scal. destruct (o_dims o).
    + now rewrite String.eqb_refl.
    + rewrite String.eqb_refl. cbn [andb]. assert (list_eqb String.eqb ls ls = true) as -> by now apply (list_eqb_eq String.eqb String.eqb_eq). reflexivity.
  - rewrite V. unfold put_elem, put_scal. destruct (o_dims o2) eqn:E2; destruct (o_dims o) eqn:E1; auto.
    + destruct (String.eqb_spec (o_name o2) (o_name o)) as [En|]; auto. exfalso. apply E. unfold y. assert (L1 := labels_element Hl). try rewrite E1 in L1. assert (ls2 = []) as -> by (inversion El2; reflexivity). assert (LS : ls = []) by (inversion L1; reflexivity). now rewrite LS, En.
    + destruct (String.eqb_spec (o_name o2) (o_name o)) as [En|]; auto. cbn [andb]. destruct (list_eqb String.eqb ls2 ls) eqn:Q; auto.
      apply (list_eqb_eq String.eqb String.eqb_eq) in Q. exfalso. apply E. unfold y. now rewrite En, Q.
Qed.
Lemma put_numeraire t : unit_numeraire (put_scal o t w) numeraire.
Proof.
  unfold unit_numeraire, put_scal, not_numeraire in *. destruct numeraire as [q|]; auto. destruct UN as (A & B). split; auto.
  destruct (o_dims o); auto. destruct (String.eqb_spec (o_base_name q) (o_name o)); [contradiction|exact B].
Qed.
Lemma put_value t lr : has_value c v w lr -> has_value c (put_elem o ls t v) (put_scal o t w) lr.
Proof.
  intros H dims l ED EL. specialize (H dims l ED EL). eapply den_def; [| |exact H].
  - intros b l' Q. unfold put_elem. destruct (o_dims o); auto. destruct (_ && _)%bool; [discriminate|auto].
  - intros s Q. unfold put_scal. destruct (o_dims o); auto. destruct (String.eqb s (o_name o)); [discriminate|auto].
Qed.
End Put.
End Whole.

Lemma derivable_pt_lim_ext' f g x l : (forall t, f t = g t) -> derivable_pt_lim f x l -> derivable_pt_lim g x l.
Proof. intros H D eps He. destruct (D eps He) as (de & Hd). exists de. intros h H1 H2. rewrite <- !H. auto. Qed.
Lemma Forall2_map_r {A B C} (P : A -> C -> Prop) (f : B -> C) l l' : Forall2 (fun a b => P a (f b)) l l' -> Forall2 P l (map f l').
Proof. induction 1; constructor; auto. Qed.
Lemma residuals_numval c v w lr es dims shape st : equation_dims c (written lr) dims -> dims_shape c dims shape -> length es = prodn shape ->
  (forall idx ls, labels_of c dims idx ls -> exists e, nth_error es (offset shape idx) = Some e /\ den c v w (assign dims ls) (written lr) = Some (numval st (fun _ _ => 0%R) e)) ->
  residuals c v w lr (map (numval st (fun _ _ => 0%R)) es).
Proof.
  intros A B C D. exists dims, shape. split; [exact A|]. split; [exact B|]. split; [now rewrite map_length|].
  intros idx ls L. destruct (D idx ls L) as (e & E1 & E2). now rewrite nth_error_map, E1, E2.
Qed.

Lemma c81_system__p :
  forall sub_into set_order dict_order evaluates cse order, walks_set set_order -> walks_set dict_order -> eliminates cse ->
  forall c axes numeraire vars params equations d v w uv up x theta,
    plain_labels c -> NoDup (dkeys c) -> has_data c (vars ++ params) d ->
    unpack_objects order vars (lab_coords c) = Ok uv -> unpack_objects order params (lab_coords c) = Ok up ->
    let names := map make_indexed_name (uv ++ up) in
    NoDup names -> (forall n, In n names -> is_name n = true /\ ~ In n reserved) ->
    variable_dict_to_flat_array d vars params = Ok (x, theta) -> data_of c (vars ++ params) d v w -> unit_numeraire w numeraire ->
    vars <> [] -> equations <> [] ->
    (forall lr, In lr equations -> flat_reductions c axes (written lr) /\ has_value c v w lr /\
       exists es, equation_symbols sub_into set_order dict_order evaluates c numeraire (uv ++ up) (fst lr) (snd lr) = Ok es) ->
    exists f, compile_numba_cge_functions sub_into set_order dict_order evaluates cse order c numeraire vars params equations = Ok f /\
      exists blocks, Forall2 (residuals c v w) equations blocks /\
        nf_system f x theta = Ok (OVec (List.concat blocks)) /\
        nf_resid f x theta = Ok (OScalar (/ 2 * rsum (map (fun r => r * r) (List.concat blocks)))%R).
Proof.
  intros si so do_ ev cse order WS WD EC c axes nu vars params equations d v w uv up x theta PL NK HD EV EP names ND NM FL DA UN VN QN EQ.
  destruct (@whole si so do_ ev cse order WS WD EC c axes nu vars params equations d v w uv up x theta PL NK HD EV EP ND NM FL DA UN VN QN EQ)
    as (f & ess & CF & Fss & SY & (J & JE & JL & JC) & (RE & (G & GE & GL & GC))).
  exists f. split; [exact CF|].
  set (st := state_of names (x ++ theta)) in *.
  exists (map (map (numval st (fun _ _ => 0%R))) ess). split; [|split].
  - apply Forall2_map_r. revert Fss. apply Forall2_weak. intros lr es Hlr E. destruct (EQ lr Hlr) as (Q1 & Q2 & _).
    destruct (@eq_core si so do_ ev order WS WD c axes nu (vars ++ params) (uv ++ up) PL NK (@decl c vars params d HD) (@EU order c vars params uv up EV EP) names (fun _ _ => 0%R) lr es v w st Q1 E) as (dims & shape & D1 & D2 & D3 & _ & D5); auto.
    { eapply bel; eauto. } { eapply sview; eauto. }
    apply residuals_numval with (dims := dims) (shape := shape); auto. apply D5; auto. { eapply bel; eauto. } { eapply sview; eauto. }
  - rewrite SY. now rewrite concat_map.
  - rewrite RE. rewrite <- concat_map, map_map. reflexivity.
Qed.

Lemma c81_jacobian__p :
  forall sub_into set_order dict_order evaluates cse order, walks_set set_order -> walks_set dict_order -> eliminates cse ->
  forall c axes numeraire vars params equations d v w uv up x theta,
    plain_labels c -> NoDup (dkeys c) -> has_data c (vars ++ params) d ->
    unpack_objects order vars (lab_coords c) = Ok uv -> unpack_objects order params (lab_coords c) = Ok up ->
    let names := map make_indexed_name (uv ++ up) in
    NoDup names -> (forall n, In n names -> is_name n = true /\ ~ In n reserved) ->
    variable_dict_to_flat_array d vars params = Ok (x, theta) -> data_of c (vars ++ params) d v w -> unit_numeraire w numeraire ->
    vars <> [] -> equations <> [] ->
    (forall lr, In lr equations -> flat_reductions c axes (written lr) /\ has_value c v w lr /\
       exists es, equation_symbols sub_into set_order dict_order evaluates c numeraire (uv ++ up) (fst lr) (snd lr) = Ok es) ->
    exists f, compile_numba_cge_functions sub_into set_order dict_order evaluates cse order c numeraire vars params equations = Ok f /\
      exists blocks, nf_jac f x theta = Ok (OMat (List.concat blocks)) /\
        Forall2 (fun lr block => exists dims shape, equation_dims c (written lr) dims /\ dims_shape c dims shape /\ length block = prodn shape /\
          forall idx ls, labels_of c dims idx ls -> exists row, nth_error block (offset shape idx) = Some row /\ length row = length x /\
            forall j o a idx' ls', nth_error vars j = Some o -> dget (o_name o) d = Some a -> labels_of c (o_dims o) idx' ls' -> not_numeraire o numeraire ->
              exists r dv, aget a idx' = Ok r /\ nth_error row (start_of d vars j + offset (ashape a) idx') = Some dv /\
                ((forall es e, equation_symbols sub_into set_order dict_order evaluates c numeraire (uv ++ up) (fst lr) (snd lr) = Ok es ->
                    nth_error es (offset shape idx) = Some e -> smooth (state_of names (x ++ theta)) (fun _ _ => 0%R) e) ->
                 derivable_pt_lim (fun t => number (den c (put_elem o ls' t v) (put_scal o t w) (assign dims ls) (written lr))) r dv)) equations blocks.
Proof.
  intros si so do_ ev cse order WS WD EC c axes nu vars params equations d v w uv up x theta PL NK HD EV EP names ND NM FL DA UN VN QN EQ.
  destruct (@whole si so do_ ev cse order WS WD EC c axes nu vars params equations d v w uv up x theta PL NK HD EV EP ND NM FL DA UN VN QN EQ)
    as (f & ess & CF & Fss & SY & (J & JE & JL & JC) & (RE & (G & GE & GL & GC))).
  exists f. split; [exact CF|].
  set (st := state_of names (x ++ theta)) in *.
  set (nv := map make_indexed_name uv) in *. set (zero := fun (_ : string) (_ : list idx) => 0%R) in *.
  set (P := fun e (row : list R) => length row = length nv /\ forall k y, nth_error nv k = Some y -> exists dv, nth_error row k = Some dv /\
     (smooth st zero e -> derivable_pt_lim (fun t => numval (set_sym st y t) zero e) (st y) dv)).
  destruct (@Forall2_blocks _ _ P ess J) as (blocks & -> & FB).
  { apply Forall2_of_nth; [exact JL|]. intros i e He. assert (VNE : nv <> []) by (eapply var_nonempty; eauto).
    destruct nv as [|y0 nv'] eqn:En; [congruence|]. destruct (JC i 0 e y0 He eq_refl) as (row & dv0 & R1 & R2 & _). exists row. split; [exact R1|]. split; [exact R2|].
    intros k y Hk. destruct (JC i k e y He Hk) as (row' & dv & R1' & _ & R3 & R4). rewrite R1 in R1'. injection R1' as <-. eauto. }
  exists blocks. split; [exact JE|].
  assert (M := Forall2_mix Fss FB). revert M. apply Forall2_weak. intros lr block Hlr (es & E & FP). destruct (EQ lr Hlr) as (Q1 & Q2 & _).
  destruct (@eq_core si so do_ ev order WS WD c axes nu (vars ++ params) (uv ++ up) PL NK (@decl c vars params d HD) (@EU order c vars params uv up EV EP) names (fun _ _ => 0%R) lr es v w st Q1 E) as (dims & shape & D1 & D2 & D3 & _ & D5); auto.
  { eapply bel; eauto. } { eapply sview; eauto. }
  exists dims, shape. split; [exact D1|]. split; [exact D2|]. split; [rewrite <- (Forall2_len FP); exact D3|].
  intros idx ls L. destruct (D5 v w st) with (idx := idx) (ls := ls) as (e & E1 & _); auto. { eapply bel; eauto. } { eapply sview; eauto. }
  destruct (@Forall2_nth _ _ P es block _ e FP E1) as (row & R1 & R2 & R3). exists row. split; [exact R1|].
  destruct (@lens order c vars params d uv up x theta HD EV EP ND FL) as (Lx & _). split; [rewrite R2, Lx; reflexivity|].
  intros j o a idx' ls' Hj Ha Hl NN.
  destruct (@var_at order c vars params d x theta uv up HD EV EP ND FL j o a idx' ls' Hj Ha Hl) as (r & A1 & A2 & A3).
  rewrite <- map_app in A3. fold names st in A3. fold nv in A2. destruct (R3 _ _ A2) as (dv & V1 & V2). exists r, dv. split; [exact A1|]. split; [exact V1|].
  intros SM. specialize (V2 (SM es e E E1)). rewrite A3 in V2. eapply derivable_pt_lim_ext'; [|exact V2]. intros t. cbn beta.
  destruct (D5 (put_elem o ls' t v) (put_scal o t w) (set_sym st (join "_" (o_name o :: ls')) t)) with (idx := idx) (ls := ls) as (e' & E1' & E2'); auto.
  - eapply put_belongs; eauto.
  - eapply put_view; eauto.
  - eapply put_numeraire; eauto.
  - eapply put_value; eauto.
  - rewrite E2'. rewrite E1 in E1'. injection E1' as <-. reflexivity.
Qed.

Lemma c81_gradient__p :
  forall sub_into set_order dict_order evaluates cse order, walks_set set_order -> walks_set dict_order -> eliminates cse ->
  forall c axes numeraire vars params equations d v w uv up x theta,
    plain_labels c -> NoDup (dkeys c) -> has_data c (vars ++ params) d ->
    unpack_objects order vars (lab_coords c) = Ok uv -> unpack_objects order params (lab_coords c) = Ok up ->
    let names := map make_indexed_name (uv ++ up) in
    NoDup names -> (forall n, In n names -> is_name n = true /\ ~ In n reserved) ->
    variable_dict_to_flat_array d vars params = Ok (x, theta) -> data_of c (vars ++ params) d v w -> unit_numeraire w numeraire ->
    vars <> [] -> equations <> [] ->
    (forall lr, In lr equations -> flat_reductions c axes (written lr) /\ has_value c v w lr /\
       exists es, equation_symbols sub_into set_order dict_order evaluates c numeraire (uv ++ up) (fst lr) (snd lr) = Ok es) ->
    exists f, compile_numba_cge_functions sub_into set_order dict_order evaluates cse order c numeraire vars params equations = Ok f /\
      exists G, nf_grad f x theta = Ok (OVec G) /\ length G = length x /\
        forall j o a idx ls, nth_error vars j = Some o -> dget (o_name o) d = Some a -> labels_of c (o_dims o) idx ls -> not_numeraire o numeraire ->
          exists r dv, aget a idx = Ok r /\ nth_error G (start_of d vars j + offset (ashape a) idx) = Some dv /\
            ((forall lr es, In lr equations -> equation_symbols sub_into set_order dict_order evaluates c numeraire (uv ++ up) (fst lr) (snd lr) = Ok es ->
                Forall (smooth (state_of names (x ++ theta)) (fun _ _ => 0%R)) es) ->
             exists blocks, (forall t, Forall2 (residuals c (put_elem o ls t v) (put_scal o t w)) equations (blocks t)) /\
               derivable_pt_lim (fun t => / 2 * rsum (map (fun z => z * z) (List.concat (blocks t))))%R r dv).
Proof.
  intros si so do_ ev cse order WS WD EC c axes nu vars params equations d v w uv up x theta PL NK HD EV EP names ND NM FL DA UN VN QN EQ.
  destruct (@whole si so do_ ev cse order WS WD EC c axes nu vars params equations d v w uv up x theta PL NK HD EV EP ND NM FL DA UN VN QN EQ)
    as (f & ess & CF & Fss & SY & (J & JE & JL & JC) & (RE & (G & GE & GL & GC))).
  exists f. split; [exact CF|].
  set (st := state_of names (x ++ theta)) in *.
  set (nv := map make_indexed_name uv) in *. set (zero := fun (_ : string) (_ : list idx) => 0%R) in *.
  exists G. split; [exact GE|]. destruct (@lens order c vars params d uv up x theta HD EV EP ND FL) as (Lx & _). split; [rewrite GL, Lx; reflexivity|].
  intros j o a idx ls Hj Ha Hl NN.
  destruct (@var_at order c vars params d x theta uv up HD EV EP ND FL j o a idx ls Hj Ha Hl) as (r & A1 & A2 & A3).
  rewrite <- map_app in A3. fold names st in A3. fold nv in A2. destruct (GC _ _ A2) as (dv & V1 & V2). exists r, dv. split; [exact A1|]. split; [exact V1|].
  intros SM. exists (fun t => map (map (numval (set_sym st (join "_" (o_name o :: ls)) t) zero)) ess). split.
  - intros t. apply Forall2_map_r. revert Fss. apply Forall2_weak. intros lr es Hlr E. destruct (EQ lr Hlr) as (Q1 & Q2 & _).
    destruct (@eq_core si so do_ ev order WS WD c axes nu (vars ++ params) (uv ++ up) PL NK (@decl c vars params d HD) (@EU order c vars params uv up EV EP) names (fun _ _ => 0%R) lr es v w st Q1 E) as (dims & shape & D1 & D2 & D3 & _ & D5); auto.
    { eapply bel; eauto. } { eapply sview; eauto. }
    apply residuals_numval with (dims := dims) (shape := shape); auto. apply D5.
    + eapply put_belongs; eauto.
    + eapply put_view; eauto.
    + eapply put_numeraire; eauto.
    + eapply put_value; eauto.
  - unfold st, names in A3. rewrite A3 in V2. eapply derivable_pt_lim_ext'; [|apply V2].
    + intros t. cbn beta. rewrite <- concat_map, map_map. reflexivity.
    + clear - Fss SM. assert (H : incl equations equations) by (intros l; auto). revert Fss H. generalize equations at 1 2 as eqs. intros eqs F.
      induction F as [|lr es eqs ess E F IH]; intros SB; cbn [List.concat]; [constructor|]. apply Forall_app. split; [eapply SM; [apply SB; now left|exact E]|].
      apply IH. intros l Hl. apply SB. now right.
Qed.
