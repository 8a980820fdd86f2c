(** Proofs for C09, C10 (optimizer call) and C24. *)
From Verif Require Import Py PyStr NdArray M_Primitives M_Utilities M_Simulate S_Layout L_Scenario L_Utilities.

Lemma c10_hess_needs_gradient__p :
  forall (table : dict mode_kwargs) (g h hp : option bool) (method : string) (j' h' hp' : bool),
  minimize_passes table g h hp method = Ok (j', h', hp') ->
  (h' = true -> j' = true) /\ h' && hp' = false /\ (forall b, g = Some b -> j' = b) /\
  (h = Some false -> h' = false) /\ (hp = Some false -> hp' = false).
Proof.
  intros table g h hp method j' h' hp' H. unfold minimize_passes in H.
  apply bind_ok in H as ([[j h0] hp0] & H1 & H2). apply c10_flags__p in H1 as (A & B & C & D & _).
  inversion H2; subst. repeat split.
  - destruct j'; simpl; auto. intros X. destruct h0; discriminate.
  - destruct j', h0, hp'; simpl in *; auto.
  - exact B.
  - intros E. rewrite (D E). now rewrite andb_false_r.
  - intros E. now apply C.
Qed.

Lemma c10_hessp_without_gradient_refuted__p :
  forall (table : dict mode_kwargs) (method : option string),
  simulate_minimize_passes table (Some (Some false)) None None method = Ok (false, false, true).
Proof. reflexivity. Qed.

Lemma c10_explicit_hess_dropped__p :
  forall (table : dict mode_kwargs) (method : option string),
  simulate_minimize_passes table (Some (Some true)) (Some (Some true)) None method = Ok (true, false, true).
Proof. reflexivity. Qed.

Lemma check_initial_state_ok {V} vars params (x0 : dict (arr V)) :
  check_initial_state vars params x0 = Ok tt <->
  (forall n, In n (dkeys x0) <-> In n (map o_name vars ++ map o_name params)).
Proof.
  unfold check_initial_state. set (all := map o_name vars ++ map o_name params).
  destruct (forallb (fun x => dmem x x0) all) eqn:E1; simpl.
  - rewrite forallb_forall in E1. destruct (existsb _ _) eqn:E2.
    + split; [discriminate|]. intros H. apply existsb_exists in E2 as (x & Hx & Hm).
      apply H in Hx. apply mem_str_In in Hx. rewrite Hx in Hm. discriminate.
    + split; auto. intros _ n. split; intros Hn.
      * destruct (mem_str n all) eqn:E; [now apply mem_str_In|].
        assert (X : existsb (fun x => negb (mem_str x all)) (dkeys x0) = true); [|congruence].
        apply existsb_exists. exists n. now rewrite E.
      * apply E1 in Hn. now apply mem_str_In in Hn.
  - split; [discriminate|]. intros H. exfalso.
    assert (X : forallb (fun x => dmem x x0) all = true); [|congruence].
    apply forallb_forall. intros n Hn. apply mem_str_In. now apply H.
Qed.

Lemma c24_initial_state_names__p :
  forall {V : Type} (vadd vmul : arr V -> arr V -> res (arr V)) (vars params : list mobj) (x0 : dict (arr V))
         (fv fd fp : option (dict (arr V))),
  ((exists t, simulation_theta vadd vmul vars params x0 fv fd fp = Ok t) ->
   forall n, In n (dkeys x0) <-> In n (map o_name vars ++ map o_name params)) /\
  (~ (forall n, In n (dkeys x0) <-> In n (map o_name vars ++ map o_name params)) ->
   simulation_theta vadd vmul vars params x0 fv fd fp = Err ValueError).
Proof.
  intros. unfold simulation_theta. split.
  - intros (t & H). apply bind_ok in H as ([] & H & _). exact (proj1 (check_initial_state_ok _ _ _) H).
  - intros H. unfold check_initial_state. pose proof (@check_initial_state_ok V vars params x0) as C.
    unfold check_initial_state in C.
    destruct (negb _); [reflexivity|]. destruct (existsb _ _); [reflexivity|].
    exfalso. apply H. now apply C.
Qed.

Lemma concat_named_ext {V} (d1 d2 : dict (arr V)) objs :
  (forall o, In o objs -> dget (o_name o) d1 = dget (o_name o) d2) ->
  concat_named d1 objs = concat_named d2 objs.
Proof.
  intros H. unfold concat_named. f_equal. apply map_res_ext. intros o Ho.
  unfold dgetitem. now rewrite H.
Qed.

Lemma c24_right_names_accepted__p :
  forall {V : Type} (vadd vmul : arr V -> arr V -> res (arr V)) (vars params : list mobj) (x0 : dict (arr V))
         (fv fd fp : option (dict (arr V))) (s : dict (arr V)),
  vars <> [] -> params <> [] ->
  (forall n, In n (dkeys x0) <-> In n (map o_name vars ++ map o_name params)) ->
  create_final_param_dict vadd vmul x0 fv fd fp = Ok s ->
  exists t, simulation_theta vadd vmul vars params x0 fv fd fp = Ok t /\
            (forall o, In o params -> exists a, dget (o_name o) s = Some a) /\
            t = List.concat (map (fun o => match dget (o_name o) s with Some a => adata a | None => [] end) params).
Proof.
  intros V vadd vmul vars params x0 fv fd fp s Hv Hp Hn Hs.
  unfold simulation_theta. pose proof (proj2 (check_initial_state_ok _ _ _) Hn) as Hc. rewrite Hc. simpl. rewrite Hs. simpl.
  apply c07_scenario_values__p in Hs as (_ & _ & _ & _ & Hk).
  assert (K : forall o, In o (vars ++ params) -> exists a, dget (o_name o) s = Some a).
  { intros o Ho. apply dget_Some_key. rewrite Hk. apply in_or_app. left. apply Hn.
    rewrite <- map_app. now apply in_map. }
  assert (C : forall objs, objs <> [] -> incl objs (vars ++ params) ->
              concat_named s objs = Ok (List.concat (map (fun o => match dget (o_name o) s with Some a => adata a | None => [] end) objs))).
  { intros objs Hne Hi. unfold concat_named.
    rewrite map_res_ext with (g := fun o => Ok (match dget (o_name o) s with Some a => adata a | None => [] end)).
    - rewrite map_res_total. simpl. destruct objs; [congruence|]. reflexivity.
    - intros o Ho. unfold dgetitem. destruct (K o (Hi o Ho)) as (a & ->). reflexivity. }
  unfold variable_dict_to_flat_array. rewrite !C; auto; try (intros o Ho; apply in_or_app; auto).
  eexists. split; [reflexivity|]. split; [|reflexivity].
  intros o Ho. apply K. apply in_or_app; auto.
Qed.

(** C09 *)
Lemma c09_unknown_relative_shock_rejected__p :
  forall {V : Type} (vadd vmul : arr V -> arr V -> res (arr V)) (vars params : list mobj) (x0 : dict (arr V))
         (fv fd fp : option (dict (arr V))) (k : string),
  In k (dkeys (opt fd) ++ dkeys (opt fp)) ->
  ~ In k (map o_name vars ++ map o_name params) ->
  exists e, simulation_theta vadd vmul vars params x0 fv fd fp = Err e.
Proof.
  intros V vadd vmul vars params x0 fv fd fp k Hk Hn.
  destruct (simulation_theta vadd vmul vars params x0 fv fd fp) as [t|e] eqn:E; [|eauto].
  exfalso. unfold simulation_theta in E. apply bind_ok in E as ([] & E1 & E).
  apply bind_ok in E as (s & E2 & _). pose proof (proj1 (check_initial_state_ok _ _ _) E1) as E1'.
  apply Hn. apply E1'. apply dget_Some_key.
  assert (A := ex_intro (fun s => create_final_param_dict vadd vmul x0 fv fd fp = Ok s) s E2).
  apply c08_accepted_iff__p in A as (_ & _ & Hd & Hp).
  apply in_app_or in Hk as [Hi|Hi]; apply in_map_iff in Hi as ([k' v] & <- & Hi).
  - destruct (Hd k' v Hi) as (o & n & Ho & _). simpl. eauto.
  - destruct (Hp k' v Hi) as (o & n & Ho & _). simpl. eauto.
Qed.

(** A shock to a name that is no parameter has no effect on theta. *)
Lemma c09_nonparameter_shock_has_no_effect__p :
  forall {V : Type} (vadd vmul : arr V -> arr V -> res (arr V)) (vars params : list mobj) (x0 : dict (arr V))
         (fv fd fp fv' fd' fp' : option (dict (arr V))) (t t' : list V),
  (forall o, In o params -> dget (o_name o) (opt fv) = dget (o_name o) (opt fv')) ->
  (forall o, In o params -> dget (o_name o) (opt fd) = dget (o_name o) (opt fd')) ->
  (forall o, In o params -> dget (o_name o) (opt fp) = dget (o_name o) (opt fp')) ->
  simulation_theta vadd vmul vars params x0 fv fd fp = Ok t ->
  simulation_theta vadd vmul vars params x0 fv' fd' fp' = Ok t' ->
  t = t'.
Proof.
  intros V vadd vmul vars params x0 fv fd fp fv' fd' fp' t t' Hv Hd Hp E E'.
  unfold simulation_theta in *.
  apply bind_ok in E as ([] & _ & E). apply bind_ok in E as (s & E & E1).
  apply bind_ok in E1 as ([v p] & E1 & E2). unfold variable_dict_to_flat_array in E1.
  apply bind_ok in E1 as (v0 & _ & E1). apply bind_ok in E1 as (p0 & Ep & E1).
  apply bind_ok in E' as ([] & _ & E'). apply bind_ok in E' as (s' & E' & E1').
  apply bind_ok in E1' as ([v' p'] & E1' & E2'). unfold variable_dict_to_flat_array in E1'.
  apply bind_ok in E1' as (v0' & _ & E1'). apply bind_ok in E1' as (p0' & Ep' & E1').
  inversion E1; inversion E1'; inversion E2; inversion E2'; subst.
  assert (Ok t = Ok t') as X; [|now inversion X]. simpl in *.
  rewrite <- Ep, <- Ep'. apply concat_named_ext. intros o Ho.
  apply c07_scenario_values__p in E as (A1 & A2 & A3 & A4 & _).
  apply c07_scenario_values__p in E' as (B1 & B2 & B3 & B4 & _).
  specialize (Hv o Ho). specialize (Hd o Ho). specialize (Hp o Ho).
  destruct (dget (o_name o) (opt fv)) as [a|] eqn:Fv.
  { rewrite (A1 _ _ Fv). symmetry. now apply B1. }
  destruct (dget (o_name o) (opt fd)) as [a|] eqn:Fd.
  { destruct (A2 _ _ Fd) as (o1 & n1 & H1 & H2 & H3). symmetry in Hd.
    destruct (B2 _ _ Hd) as (o2 & n2 & H4 & H5 & H6). congruence. }
  destruct (dget (o_name o) (opt fp)) as [a|] eqn:Fp.
  { destruct (A3 _ _ Fp) as (o1 & n1 & H1 & H2 & H3). symmetry in Hp.
    destruct (B3 _ _ Hp) as (o2 & n2 & H4 & H5 & H6). congruence. }
  rewrite A4, B4; auto; apply dget_None; auto.
Qed.

Lemma c09_ignored_shock_refuted__p :
  exists (vars params : list mobj) (x0 : dict (arr Z)) (typo variable : dict (arr Z)) (t : list Z),
  let add := fun a b : arr Z => Ok a in
  map o_name vars = ["Y"%string] /\ map o_name params = ["tau"%string] /\
  dkeys typo = ["tua"%string] /\ dkeys variable = ["Y"%string] /\ t = [3%Z] /\
  dget "tau"%string x0 = Some (mkArr [] [3%Z]) /\
  simulation_theta add add vars params x0 (Some typo) None None = Ok t /\
  simulation_theta add add vars params x0 (Some variable) None None = Ok t.
Proof.
  exists [exobj KVar "Y" []], [exobj KPar "tau" []],
    [("Y", mkArr [] [1%Z]); ("tau", mkArr [] [3%Z])]%string,
    [("tua", mkArr [] [5%Z])]%string, [("Y", mkArr [] [5%Z])]%string, [3%Z].
  repeat split.
Qed.
