(** Lemmas for C20-C23: whole constructions and lookups. *)
From Verif Require Import Py PyStr NdArray M_Primitives M_Utilities M_Expand M_Equations M_Registry.
From Verif Require Import S_Layout S_Registry L_Utilities L_Layout L_Expand L_Unpacked L_Equations L_Registry.
Local Open Scope string_scope.

Definition named (l : list mobj) : dict mobj := map (fun o => (o_name o, o)) l.

Lemma dkeys_named l : dkeys (named l) = map o_name l.
Proof. unfold dkeys, named. rewrite map_map. reflexivity. Qed.
Lemma dvals_named l : dvals (named l) = l.
Proof. unfold dvals, named. rewrite map_map. apply map_id. Qed.

Lemma add_objects_fresh l : forall d,
  NoDup (dkeys d ++ map o_name l)%list ->
  add_objects d l false = ((d ++ named l)%list, Ok tt).
Proof.
  unfold add_objects. induction l as [|o l IH]; intros d H; simpl.
  - now rewrite app_nil_r.
  - assert (Hn : ~ In (o_name o) (dkeys d)).
    { simpl in H. apply NoDup_remove_2 in H. intros X. apply H, in_or_app. auto. }
    unfold add_object at 1. rewrite (proj2 (mem_str_nIn _ _) Hn). simpl.
    rewrite dset_new by auto. rewrite IH.
    + now rewrite <- app_assoc.
    + unfold dkeys in *. rewrite map_app. simpl. rewrite <- app_assoc. exact H.
Qed.

Lemma validate_all k l : (forall o, In o l -> o_kind o = k) -> map_res (validate_obj k) (map PObj l) = Ok l.
Proof.
  induction l as [|o l IH]; intros H; simpl; auto.
  rewrite (H o) by (simpl; auto). destruct k; simpl; rewrite IH; simpl; auto; intros; apply H; simpl; auto.
Qed.

Lemma c20_fresh_batch__p :
  forall (parse : parser) (m : model) (l : list mobj),
  (NoDup (dkeys (m_vars m) ++ map o_name l) -> (forall o, In o l -> o_kind o = KVar) ->
     exists m', run_op parse m (AddVars (Many (map PObj l)) false) = (m', Ok tt) /\
                m_vars m' = (m_vars m ++ combine (map o_name l) l)%list) /\
  (NoDup (dkeys (m_pars m) ++ map o_name l) -> (forall o, In o l -> o_kind o = KPar) ->
     exists m', run_op parse m (AddPars (Many (map PObj l)) false) = (m', Ok tt) /\
                m_pars m' = (m_pars m ++ combine (map o_name l) l)%list).
Proof.
  intros parse m l.
  assert (N : named l = combine (map o_name l) l).
  { induction l as [|o l IH]; simpl; auto. f_equal. exact IH. }
  split; intros H K; simpl; [unfold add_variables|unfold add_parameters]; cbn [ensure_sequence];
    rewrite (validate_all _ K), (add_objects_fresh _ _ H), N; eexists; split; reflexivity.
Qed.

Lemma unpack_group_ok order l c us :
  unpack_objects order l c = Ok us -> NoDup (map make_indexed_name us) ->
  unpack_group order l c = Ok (combine (map make_indexed_name us) us).
Proof.
  intros E N. unfold unpack_group. rewrite E. simpl. f_equal. apply dict_of_list_NoDup.
  assert (X : map fst (combine (map make_indexed_name us) us) = map make_indexed_name us).
  { clear. induction us; simpl; congruence. }
  now rewrite X.
Qed.

Lemma unpack_eqs_ok es c us :
  unpack_eq_list es c = Ok us -> NoDup (map se_name us) ->
  unpack_equations_sympy es c = Ok (combine (map se_name us) us).
Proof.
  intros E N. unfold unpack_equations_sympy. rewrite E. simpl. f_equal. apply dict_of_list_NoDup.
  assert (X : map fst (combine (map se_name us) us) = map se_name us).
  { clear. induction us; simpl; congruence. }
  now rewrite X.
Qed.

(** The parsed form of an equation. *)
Definition parsed (p : string -> option (nat * list string)) (q : equation) (e : seqn) : Prop :=
  p (q_text q) = Some (se_id e, se_dims e) /\ e = MkSeqn (se_id e) (q_name q) (se_dims e) [] [].

Lemma add_equations_fresh parse qs es : forall m,
  m_sympy m = true ->
  Forall2 (parsed (parse (m_vars m) (m_pars m) (m_coords m) (m_numeraire m))) qs es ->
  NoDup (dkeys (m_eqs m) ++ map q_name qs)%list ->
  exists d, loop (fun m x => if m_sympy m then add_sympy_equation parse m x false
                             else add_pytensor_equation m x false) m (map PEqn qs) = (set_eqs m (m_eqs m ++ d)%list, Ok tt) /\
            dkeys d = map q_name qs /\ map_res reqn_sym (dvals d) = Ok es.
Proof.
  revert es. induction qs as [|q qs IH]; intros es m Hs HF HN; inversion HF as [|? e ? es' P F']; subst.
  - exists []. split; [|auto]. simpl. rewrite app_nil_r. destruct m; reflexivity.
  - destruct P as (P1 & P2).
    assert (Hn : ~ In (q_name q) (dkeys (m_eqs m))).
    { simpl in HN. apply NoDup_remove_2 in HN. intros X. apply HN, in_or_app. auto. }
    cbn [map loop]. rewrite Hs. unfold add_sympy_equation at 1. cbn [validate_eqn]. rewrite P1.
    unfold add_object. rewrite (proj2 (mem_str_nIn _ _) Hn). cbn [andb]. rewrite dset_new by auto.
    set (id := match q_id q with Some i => i | None => _ end).
    match goal with |- exists d, loop _ ?m1 _ = _ /\ _ => destruct (IH es' m1) as (d & E & K & S) end; auto.
    + cbn [set_eqs m_eqs]. unfold dkeys in *. rewrite map_app. simpl. rewrite <- app_assoc. exact HN.
    + exists ((q_name q, RSym (MkSeqn (se_id e) (q_name q) (se_dims e) [] []) id) :: d). split; [|split].
      * rewrite E. cbn [set_eqs m_eqs m_coords m_sympy m_numeraire m_vars m_pars m_uvars m_upars m_ueqs].
        rewrite <- app_assoc. reflexivity.
      * cbn. f_equal. exact K.
      * cbn [dvals map snd map_res reqn_sym bind]. change (map snd d) with (dvals d). rewrite S. cbn [bind]. now rewrite <- P2.
Qed.

(** A numeraire argument that is absent or names a declared variable. *)
Definition numeraire_of (vs : list mobj) (numeraire : option string) (num : option mobj) : Prop :=
  match numeraire with
  | None => num = None
  | Some n => exists o, num = Some o /\ In o vs /\ o_name o = n
  end.

Lemma construct_eval order parse c vs ps qs es uv up ue numeraire num :
  (forall o, In o vs -> o_kind o = KVar) -> (forall o, In o ps -> o_kind o = KPar) ->
  NoDup (map o_name vs) -> NoDup (map o_name ps) -> NoDup (map q_name qs) ->
  unpack_objects order vs c = Ok uv -> NoDup (map make_indexed_name uv) ->
  unpack_objects order ps c = Ok up -> NoDup (map make_indexed_name up) ->
  numeraire_of vs numeraire num ->
  Forall2 (parsed (parse (combine (map o_name vs) vs) (combine (map o_name ps) ps) c num)) qs es ->
  unpack_eq_list es c = Ok ue -> NoDup (map se_name ue) ->
  exists d,
  construct order parse c (Some (Many (map PObj vs))) (Some (Many (map PObj ps))) (Some (Many (map PEqn qs))) numeraire true =
  (if Nat.eqb (length uv) (length ue) then
     Ok (drop_numeraire
           (MkModel c true num (combine (map o_name vs) vs) (combine (map o_name ps) ps) d
                    (combine (map make_indexed_name uv) uv) (combine (map make_indexed_name up) up)
                    (map (fun kv => (fst kv, Some (snd kv))) (combine (map se_name ue) ue)))
           numeraire)
   else Err ValueError) /\ dkeys d = map q_name qs.
Proof.
  intros Kv Kp Nv Np Nq Uv NUv Up NUp Hnum F Ue NUe.
  assert (N : forall l, named l = combine (map o_name l) l).
  { induction l as [|o l IH]; simpl; auto. f_equal. exact IH. }
  assert (E1 : init_variables order (MkModel c true None [] [] [] [] [] []) (Some (Many (map PObj vs))) =
               Ok (MkModel c true None (named vs) [] [] (combine (map make_indexed_name uv) uv) [] [])).
  { unfold init_variables, add_variables. cbn [ensure_sequence]. rewrite (validate_all _ Kv). cbn [m_vars].
    rewrite add_objects_fresh by exact Nv. cbn [finish bind iterate]. rewrite (validate_all _ Kv).
    cbn [bind]. unfold set_vars; cbn [m_coords]. rewrite (unpack_group_ok _ _ _ Uv NUv). reflexivity. }
  assert (C : choose_numeraire (MkModel c true None (named vs) [] [] (combine (map make_indexed_name uv) uv) [] []) numeraire =
              Ok (MkModel c true num (named vs) [] [] (combine (map make_indexed_name uv) uv) [] [])).
  { unfold choose_numeraire, numeraire_of in *. destruct numeraire as [n|]; [|subst; reflexivity].
    destruct Hnum as (o & -> & Ho & En). cbn [m_vars].
    assert (G : dget n (named vs) = Some o).
    { apply dget_In_NoDup; [rewrite dkeys_named; exact Nv|]. unfold named. apply in_map_iff. exists o. subst. auto. }
    rewrite G. reflexivity. }
  assert (E2 : init_parameters order (MkModel c true num (named vs) [] [] (combine (map make_indexed_name uv) uv) [] [])
                 (Some (Many (map PObj ps))) =
               Ok (MkModel c true num (named vs) (named ps) [] (combine (map make_indexed_name uv) uv)
                           (combine (map make_indexed_name up) up) [])).
  { unfold init_parameters, add_parameters. cbn [ensure_sequence]. rewrite (validate_all _ Kp). cbn [m_pars].
    rewrite add_objects_fresh by exact Np. cbn [finish bind iterate]. rewrite (validate_all _ Kp).
    cbn [bind]. unfold set_pars; cbn [m_coords]. rewrite (unpack_group_ok _ _ _ Up NUp). reflexivity. }
  assert (Vq : map_res validate_eqn (map PEqn qs) = Ok qs).
  { clear. induction qs as [|q qs IH]; simpl; auto. rewrite IH. reflexivity. }
  destruct (@add_equations_fresh parse qs es
              (MkModel c true num (named vs) (named ps) [] (combine (map make_indexed_name uv) uv)
                       (combine (map make_indexed_name up) up) [])) as (d & E & K & S).
  { reflexivity. }
  { cbn [m_vars m_pars m_coords m_numeraire]. rewrite !N. exact F. }
  { exact Nq. }
  assert (E3 : init_equations parse (MkModel c true num (named vs) (named ps) [] (combine (map make_indexed_name uv) uv)
                       (combine (map make_indexed_name up) up) []) (Some (Many (map PEqn qs))) =
               Ok (MkModel c true num (named vs) (named ps) d (combine (map make_indexed_name uv) uv)
                       (combine (map make_indexed_name up) up)
                       (map (fun kv => (fst kv, Some (snd kv))) (combine (map se_name ue) ue)))).
  { unfold init_equations, add_equations. cbn [ensure_sequence]. rewrite Vq, E. cbn [finish bind].
    unfold unpack_equations, set_eqs. cbn [m_sympy m_eqs m_coords]. rewrite app_nil_l, S. cbn [bind].
    rewrite (unpack_eqs_ok _ _ Ue NUe). reflexivity. }
  exists d. split; [|exact K]. unfold construct. rewrite E1. cbn [bind]. rewrite C. cbn [bind]. rewrite E2. cbn [bind].
  rewrite E3. cbn [bind].
  assert (L : forall m', m_uvars (drop_numeraire m' numeraire) = m_uvars m' /\ m_ueqs (drop_numeraire m' numeraire) = m_ueqs m').
  { intros m'. destruct numeraire as [[|a s]|]; auto. }
  match goal with |- (if Nat.eqb (length (m_uvars (drop_numeraire ?m' _))) _ then _ else _) = _ => destruct (L m') as (L1 & L2) end.
  rewrite L1, L2. cbn [m_uvars m_ueqs].
  rewrite combine_length, !map_length, combine_length, !map_length, !Nat.min_id, !N. reflexivity.
Qed.

Lemma sum_lengths {A} (ls : list (list A)) : length (List.concat ls) = list_sum (map (@length A) ls).
Proof. apply concat_length_. Qed.

Definition dims_shape (c : coords) (dims : list string) (shape : list nat) : Prop :=
  Forall2 (fun d n => exists ls, dget d c = Some ls /\ length ls = n) dims shape.

(** C22 *)
Lemma c22_square_counts__p :
  forall (order : list string -> list string) (parse : parser) (c : coords)
         (vs ps : list mobj) (qs : list equation) (es : list seqn)
         (numeraire : option string) (num : option mobj) (uv up : list mobj) (ue : list seqn)
         (vshapes eshapes : list (list nat)),
  (forall o, In o vs -> o_kind o = KVar) -> (forall o, In o ps -> o_kind o = KPar) ->
  NoDup (map o_name vs) -> NoDup (map o_name ps) -> NoDup (map q_name qs) ->
  (forall o, In o vs -> NoDup (o_dims o) /\ o_dim_vals o = []) ->
  Forall2 (has_shape c) vs vshapes ->
  Forall2 (fun q e => parse (combine (map o_name vs) vs) (combine (map o_name ps) ps) c num (q_text q) =
                        Some (se_id e, se_dims e) /\ e = MkSeqn (se_id e) (q_name q) (se_dims e) [] []) qs es ->
  Forall2 (fun e s => Forall2 (fun d n => exists ls, dget d c = Some ls /\ length ls = n) (se_dims e) s) es eshapes ->
  match numeraire with None => num = None | Some n => exists o, num = Some o /\ In o vs /\ o_name o = n end ->
  unpack_objects order vs c = Ok uv -> NoDup (map make_indexed_name uv) ->
  unpack_objects order ps c = Ok up -> NoDup (map make_indexed_name up) ->
  unpack_eq_list es c = Ok ue -> NoDup (map se_name ue) ->
  let built := construct order parse c (Some (Many (map PObj vs))) (Some (Many (map PObj ps)))
                         (Some (Many (map PEqn qs))) numeraire true in
  (list_sum (map prodn vshapes) = list_sum (map prodn eshapes) -> exists m, built = Ok m) /\
  (list_sum (map prodn vshapes) <> list_sum (map prodn eshapes) -> built = Err ValueError).
Proof.
  intros order parse c vs ps qs es numeraire num uv up ue vshapes eshapes
         Kv Kp Nv Np Nq Hd Hs F Hes Hnum Uv NUv Up NUp Ue NUe built.
  destruct (@construct_eval order parse c vs ps qs es uv up ue numeraire num Kv Kp Nv Np Nq Uv NUv Up NUp Hnum F Ue NUe) as (d & E & _).
  destruct (@unpack_eq_list_ok c es _ Hes) as (ess & Eu & _ & Ls). rewrite Ue in Eu. injection Eu as ->.
  assert (Lv : length uv = list_sum (map prodn vshapes)).
  { destruct (@unpack_objects_ok order _ _ _ Hd Hs) as (oss & Eo & Fo).
    rewrite Uv in Eo. injection Eo as ->. rewrite sum_lengths. f_equal.
    clear -Fo Hs Hd. revert oss Fo. induction Hs as [|o s os ss Ho Hs IH]; intros oss Fo; inversion Fo as [|? us ? uss Eu Fo']; subst; auto.
    simpl. f_equal.
    - destruct (Hd o (or_introl eq_refl)) as (D1 & D2).
      destruct (expand_names order D1 D2 Ho) as (us' & lss & E & L & _). rewrite Eu in E. injection E as <-. exact L.
    - apply IH; auto. intros; apply Hd; simpl; auto. }
  assert (Le : length (List.concat ess) = list_sum (map prodn eshapes)).
  { rewrite sum_lengths, Ls. reflexivity. }
  subst built. rewrite E, Lv, Le. split; intros H.
  - rewrite (proj2 (Nat.eqb_eq _ _) H). eauto.
  - rewrite (proj2 (Nat.eqb_neq _ _) H). auto.
Qed.

(** A small economy with a numeraire: x, p and a parameter; p is the numeraire. *)
Definition toy_parse : parser := fun _ _ _ _ _ => Some (0, []).
Definition toy_vars : list mobj := [scalar KVar "x"; scalar KVar "p"].
Definition toy_pars : list mobj := [scalar KPar "a"].

Lemma c22_numeraire_refuted__p :
  (* one equation for the one remaining unknown: rejected *)
  construct (fun l => l) toy_parse [] (Some (Many (map PObj toy_vars))) (Some (Many (map PObj toy_pars)))
            (Some (Many [PEqn (MkEqn "market" "x = a" None)])) (Some "p") true = Err ValueError /\
  (* two equations for the one remaining unknown: accepted *)
  (exists m, construct (fun l => l) toy_parse [] (Some (Many (map PObj toy_vars))) (Some (Many (map PObj toy_pars)))
            (Some (Many [PEqn (MkEqn "market" "x = a" None); PEqn (MkEqn "walras" "x * p = a" None)])) (Some "p") true = Ok m /\
            dkeys (m_vars m) = ["x"] /\ length (m_ueqs m) = 2).
Proof.
  split; [reflexivity|].
  match goal with |- exists m, ?t = Ok m /\ _ => let r := eval vm_compute in t in match r with Ok ?m0 => exists m0 end end.
  split; [vm_compute; reflexivity|]. split; reflexivity.
Qed.

(** Without sympy parsing only the names of the equations are looked at: the
    verdict does not depend on the equations' text, hence not on how many
    scalar equations they describe. *)
Lemma loop_texts parse qs : forall m,
  m_sympy m = false -> NoDup (dkeys (m_eqs m) ++ map q_name qs)%list ->
  loop (fun m x => if m_sympy m then add_sympy_equation parse m x false
                   else add_pytensor_equation m x false) m (map PEqn qs) =
  (set_eqs m (m_eqs m ++ map (fun q => (q_name q, RText q)) qs)%list, Ok tt).
Proof.
  induction qs as [|q qs IH]; intros m Hs HN.
  - simpl. rewrite app_nil_r. destruct m; reflexivity.
  - assert (Hn : ~ In (q_name q) (dkeys (m_eqs m))).
    { simpl in HN. apply NoDup_remove_2 in HN. intros X. apply HN, in_or_app. auto. }
    cbn [map loop]. rewrite Hs. unfold add_pytensor_equation at 1.
    unfold add_object. rewrite (proj2 (mem_str_nIn _ _) Hn). cbn [andb]. rewrite dset_new by auto.
    rewrite IH; auto.
    + cbn [set_eqs m_eqs]. rewrite <- app_assoc. reflexivity.
    + cbn [set_eqs m_eqs]. unfold dkeys in *. rewrite map_app. simpl. rewrite <- app_assoc. exact HN.
Qed.

Lemma init_texts parse m qs u :
  m_sympy m = false -> m_eqs m = [] -> NoDup (map q_name qs) ->
  unpack_equations_pytensor (map q_name qs) (m_coords m) = Ok u ->
  exists m', init_equations parse m (Some (Many (map PEqn qs))) = Ok m' /\
             m_uvars m' = m_uvars m /\ dkeys (m_ueqs m') = u /\ m_vars m' = m_vars m.
Proof.
  intros Hs He HN Hu. unfold init_equations, add_equations. cbn [ensure_sequence].
  assert (Vq : map_res validate_eqn (map PEqn qs) = Ok qs).
  { clear. induction qs as [|q qs IH]; simpl; auto. rewrite IH. reflexivity. }
  rewrite Vq, loop_texts by (rewrite ?He; auto). cbn [finish bind]. unfold unpack_equations, set_eqs.
  cbn [m_sympy m_eqs m_coords]. rewrite Hs, He, app_nil_l.
  assert (D : map reqn_name (dvals (map (fun q => (q_name q, RText q)) qs)) = map q_name qs).
  { unfold dvals. rewrite !map_map. reflexivity. }
  rewrite D, Hu. cbn [bind]. eexists. split; [reflexivity|]. cbn [set_ueqs m_uvars m_ueqs m_vars]. repeat split; auto.
  unfold dkeys. rewrite map_map. simpl. apply map_id.
Qed.

Lemma init_texts_err parse m qs e :
  m_sympy m = false -> m_eqs m = [] -> NoDup (map q_name qs) ->
  unpack_equations_pytensor (map q_name qs) (m_coords m) = Err e ->
  init_equations parse m (Some (Many (map PEqn qs))) = Err e.
Proof.
  intros Hs He HN Hu. unfold init_equations, add_equations. cbn [ensure_sequence].
  assert (Vq : map_res validate_eqn (map PEqn qs) = Ok qs).
  { clear. induction qs as [|q qs IH]; simpl; auto. rewrite IH. reflexivity. }
  rewrite Vq, loop_texts by (rewrite ?He; auto). cbn [finish bind]. unfold unpack_equations, set_eqs.
  cbn [m_sympy m_eqs m_coords]. rewrite Hs, He, app_nil_l.
  assert (D : map reqn_name (dvals (map (fun q => (q_name q, RText q)) qs)) = map q_name qs).
  { unfold dvals. rewrite !map_map. reflexivity. }
  rewrite D, Hu. reflexivity.
Qed.

Lemma finish_ok {S} (o : outcome S) s : finish o = Ok s -> exists r, o = (s, r).
Proof. destruct o as [s' [u|e]]; simpl; intros H; inversion H; subst; eauto. Qed.

Lemma init_variables_frame order m a m' : init_variables order m a = Ok m' ->
  m_sympy m' = m_sympy m /\ m_eqs m' = m_eqs m /\ m_coords m' = m_coords m /\ m_pars m' = m_pars m /\ m_ueqs m' = m_ueqs m /\ m_upars m' = m_upars m.
Proof.
  unfold init_variables. destruct a as [a|]; intros H; [|injection H as <-; auto 10].
  apply bind_ok in H as (m1 & H1 & H). apply bind_ok in H as (l & _ & H). apply bind_ok in H as (u & _ & H).
  injection H as <-. apply finish_ok in H1 as (r & H1). unfold add_variables in H1.
  destruct (map_res _ _); [|inversion H1; subst; auto 10].
  destruct (add_objects _ _ _). inversion H1; subst. auto 10.
Qed.
Lemma init_parameters_frame order m a m' : init_parameters order m a = Ok m' ->
  m_sympy m' = m_sympy m /\ m_eqs m' = m_eqs m /\ m_coords m' = m_coords m /\ m_vars m' = m_vars m /\ m_uvars m' = m_uvars m /\ m_ueqs m' = m_ueqs m /\ m_numeraire m' = m_numeraire m.
Proof.
  unfold init_parameters. destruct a as [a|]; intros H; [|injection H as <-; auto 10].
  apply bind_ok in H as (m1 & H1 & H). apply bind_ok in H as (l & _ & H). apply bind_ok in H as (u & _ & H).
  injection H as <-. apply finish_ok in H1 as (r & H1). unfold add_parameters in H1.
  destruct (map_res _ _); [|inversion H1; subst; auto 10].
  destruct (add_objects _ _ _). inversion H1; subst. auto 10.
Qed.
Lemma choose_numeraire_frame m n m' : choose_numeraire m n = Ok m' ->
  m_sympy m' = m_sympy m /\ m_eqs m' = m_eqs m /\ m_coords m' = m_coords m /\ m_vars m' = m_vars m /\ m_pars m' = m_pars m /\
  m_uvars m' = m_uvars m /\ m_upars m' = m_upars m /\ m_ueqs m' = m_ueqs m.
Proof.
  unfold choose_numeraire. destruct n as [n|]; intros H; [|injection H as <-; auto 10].
  destruct (dget n (m_vars m)); [|discriminate]. injection H as <-. auto 10.
Qed.

Lemma c22_text_ignored_refuted__p :
  forall (order : list string -> list string) (parse parse' : parser) (c : coords) (vars pars : option pyarg)
         (qs qs' : list equation) (numeraire : option string),
  map q_name qs = map q_name qs' -> NoDup (map q_name qs) ->
  is_ok (construct order parse c vars pars (Some (Many (map PEqn qs))) numeraire false) =
  is_ok (construct order parse' c vars pars (Some (Many (map PEqn qs'))) numeraire false).
Proof.
  intros order parse parse' c vars pars qs qs' numeraire E HN. unfold construct.
  destruct (init_variables _ _ _) as [m1|e] eqn:H1; [|reflexivity]. cbn [bind].
  destruct (choose_numeraire m1 numeraire) as [m2|e] eqn:H2; [|reflexivity]. cbn [bind].
  destruct (init_parameters order m2 pars) as [m3|e] eqn:H3; [|reflexivity]. cbn [bind].
  apply init_variables_frame in H1 as (A1 & A2 & A3 & _).
  apply choose_numeraire_frame in H2 as (B1 & B2 & B3 & _).
  apply init_parameters_frame in H3 as (C1 & C2 & C3 & _).
  assert (Hs : m_sympy m3 = false) by (rewrite C1, B1, A1; reflexivity).
  assert (He : m_eqs m3 = []) by (rewrite C2, B2, A2; reflexivity).
  destruct (unpack_equations_pytensor (map q_name qs) (m_coords m3)) as [u|e] eqn:Hu.
  - destruct (@init_texts parse m3 qs u Hs He HN Hu) as (m4 & -> & D1 & D2 & _).
    destruct (@init_texts parse' m3 qs' u Hs He) as (m5 & -> & F1 & F2 & _); try congruence.
    cbn [bind].
    assert (L : forall m', m_uvars (drop_numeraire m' numeraire) = m_uvars m' /\ m_ueqs (drop_numeraire m' numeraire) = m_ueqs m').
    { intros m'. destruct numeraire as [[|a s]|]; auto. }
    destruct (L m4) as (L1 & L2), (L m5) as (L3 & L4). rewrite L1, L2, L3, L4, D1, F1.
    assert (X : length (m_ueqs m4) = length (m_ueqs m5)).
    { rewrite <- (map_length fst (m_ueqs m4)), <- (map_length fst (m_ueqs m5)).
      change (map fst (m_ueqs m4)) with (dkeys (m_ueqs m4)). change (map fst (m_ueqs m5)) with (dkeys (m_ueqs m5)). congruence. }
    rewrite X. destruct (Nat.eqb _ _); reflexivity.
  - rewrite (@init_texts_err parse m3 qs e), (@init_texts_err parse' m3 qs' e); auto; congruence.
Qed.

(** C23 *)
Lemma init_equations_frame parse m a m' : init_equations parse m a = Ok m' ->
  m_sympy m' = m_sympy m /\ m_coords m' = m_coords m /\ m_vars m' = m_vars m /\ m_pars m' = m_pars m /\
  m_uvars m' = m_uvars m /\ m_upars m' = m_upars m /\ m_numeraire m' = m_numeraire m.
Proof.
  unfold init_equations. destruct a as [a|]; intros H; [|injection H as <-; auto 10].
  apply bind_ok in H as (m1 & H1 & H). apply bind_ok in H as (u & _ & H). injection H as <-.
  apply finish_ok in H1 as (r & H1). unfold add_equations in H1.
  destruct (map_res _ _); [|inversion H1; subst; auto 10].
  assert (X : forall l s, frame m s /\ m_vars s = m_vars m /\ m_pars s = m_pars m ->
              let s' := fst (loop (fun m x => if m_sympy m then add_sympy_equation parse m x false
                   else add_pytensor_equation m x false) s l) in frame m s' /\ m_vars s' = m_vars m /\ m_pars s' = m_pars m).
  { induction l as [|x l IH]; intros s Hs; cbn [loop]; auto.
    assert (Y : forall r, r = (if m_sympy s then add_sympy_equation parse s x false else add_pytensor_equation s x false) ->
                frame m (fst r) /\ m_vars (fst r) = m_vars m /\ m_pars (fst r) = m_pars m).
    { intros r0 ->. destruct (m_sympy s).
      - unfold add_sympy_equation. destruct (validate_eqn x); [|exact Hs].
        destruct (parse _ _ _ _ _) as [[id dims]|]; [|exact Hs]. destruct (add_object _ _ _ _). exact Hs.
      - unfold add_pytensor_equation. destruct x; [| |exact Hs]; destruct (add_object _ _ _ _); exact Hs. }
    specialize (Y _ eq_refl).
    destruct (if m_sympy s then add_sympy_equation parse s x false else add_pytensor_equation s x false) as [s' [u'|e]]; cbn [fst] in *; auto. }
  specialize (X (ensure_sequence a) m (conj (frame_refl m) (conj eq_refl eq_refl))). rewrite H1 in X. cbn [fst] in X.
  destruct X as ((F1 & F2 & F3 & F4 & F5 & F6) & F7 & F8). cbn. auto 10.
Qed.

Lemma dkeys_ddel {V} n (d : dict V) : NoDup (dkeys d) -> dkeys (ddel n d) = filter (fun k => negb (String.eqb k n)) (dkeys d).
Proof.
  induction d as [|[k v] d IH]; simpl; intros H; auto. inversion H as [|? ? Hk Hd]; subst.
  rewrite String.eqb_sym. destruct (String.eqb_spec k n); simpl.
  - subst. symmetry. clear -Hk. induction (dkeys d) as [|a l IH]; simpl; auto.
    destruct (String.eqb_spec a n); simpl; [subst; exfalso; apply Hk; simpl; auto|].
    f_equal. apply IH. intros X. apply Hk. simpl; auto.
  - f_equal. auto.
Qed.

Lemma c23_numeraire_not_variable__p :
  forall (order : list string -> list string) (parse : parser) (c : coords) (vs : list mobj)
         (pars eqs : option pyarg) (n : string) (sympy : bool) (m : model),
  n <> "" ->
  construct order parse c (Some (Many (map PObj vs))) pars eqs (Some n) sympy = Ok m ->
  (exists o, m_numeraire m = Some o /\ In o vs /\ o_name o = n) /\
  dkeys (m_vars m) = filter (fun k => negb (String.eqb k n)) (map o_name vs) /\
  ~ In n (dkeys (m_vars m)) /\ get_one m n = (match dget n (m_pars m) with Some o => Ok o | None => Err ValueError end).
Proof.
  intros order parse c vs pars eqs n sympy m Hn H. unfold construct in H.
  apply bind_ok in H as (m1 & H1 & H). apply bind_ok in H as (m2 & H2 & H).
  apply bind_ok in H as (m3 & H3 & H). apply bind_ok in H as (m4 & H4 & H).
  destruct (Nat.eqb _ _); [|discriminate].
  assert (Em : m = drop_numeraire m4 (Some n)) by congruence. clear H.
  assert (V1 : m_vars m1 = named vs /\ NoDup (map o_name vs)).
  { unfold init_variables in H1. apply bind_ok in H1 as (m0 & H0 & H1). apply bind_ok in H1 as (l & Hl & H1).
    apply bind_ok in H1 as (u & _ & H1). injection H1 as <-. cbn [set_uvars m_vars].
    unfold iterate in Hl. unfold add_variables in H0. cbn [ensure_sequence] in H0.
    assert (Hvs : map_res (validate_obj KVar) (map PObj vs) = Ok vs).
    { rewrite Hl. f_equal. clear -Hl. apply map_res_ok_Forall2 in Hl. revert l Hl.
      induction vs as [|o vs IH]; simpl; intros l Hl; inversion Hl; subst; auto.
      f_equal; auto. unfold validate_obj in *. destruct (kind_eqb _ _); congruence. }
    rewrite Hvs in H0. cbn [m_vars] in H0.
    assert (X : forall l d d' u, add_objects d l false = (d', Ok u) -> NoDup (dkeys d) -> d' = (d ++ named l)%list /\ NoDup (dkeys d ++ map o_name l)%list).
    { clear. induction l as [|o l IH]; intros d d' u H N.
      - unfold add_objects in H. simpl in H. injection H as <- _. simpl. rewrite !app_nil_r. auto.
      - unfold add_objects in H. cbn [loop] in H. unfold add_object at 1 in H.
        destruct (mem_str (o_name o) (dkeys d)) eqn:E; cbn [andb negb] in H; [discriminate|].
        apply mem_str_nIn in E. rewrite dset_new in H by auto.
        apply IH in H.
        + destruct H as (-> & H). simpl. rewrite <- app_assoc. split; [reflexivity|].
          unfold dkeys in H. rewrite map_app in H. simpl in H. rewrite <- app_assoc in H. exact H.
        + unfold dkeys. rewrite map_app. simpl. now apply NoDup_app_single. }
    destruct (add_objects [] vs false) as [d' [u'|e]] eqn:Ea; [|discriminate].
    apply X in Ea as (-> & N); [|constructor]. injection H0 as <-. auto. }
  destruct V1 as (V1 & N).
  apply init_variables_frame in H1. pose proof (choose_numeraire_frame _ _ H2) as (_ & _ & _ & V2 & _).
  assert (G : exists o, dget n (named vs) = Some o /\ m_numeraire m2 = Some o).
  { unfold choose_numeraire in H2. rewrite V1 in H2. destruct (dget n (named vs)) as [o|]; [|discriminate].
    injection H2 as <-. eauto. }
  destruct G as (o & G & Gn).
  apply init_parameters_frame in H3 as (_ & _ & _ & V3 & _ & _ & N3).
  apply init_equations_frame in H4 as (_ & _ & V4 & _ & _ & _ & N4).
  assert (D : forall m', drop_numeraire m' (Some n) = set_vars m' (ddel n (m_vars m'))).
  { intros m'. unfold drop_numeraire. destruct n; [congruence|reflexivity]. }
  rewrite Em, D. cbn [set_vars m_vars m_numeraire]. rewrite V4, V3, V2, V1.
  assert (Kd : dkeys (ddel n (named vs)) = filter (fun k => negb (String.eqb k n)) (map o_name vs)).
  { rewrite dkeys_ddel, dkeys_named by (rewrite dkeys_named; exact N). reflexivity. }
  assert (Nn : ~ In n (dkeys (ddel n (named vs)))).
  { rewrite Kd. rewrite filter_In. intros (_ & X). rewrite String.eqb_refl in X. discriminate. }
  split; [|split; [exact Kd|split; [exact Nn|]]].
  - exists o. rewrite N4, N3. split; [exact Gn|]. apply dget_In in G. unfold named in G.
    apply in_map_iff in G as (o' & E & Ho). injection E as E1 E2. subst. auto.
  - unfold get_one. cbn [set_vars m_vars m_pars]. rewrite (proj2 (mem_str_nIn _ _) Nn).
    destruct (dget n (m_pars m4)) as [q|] eqn:Eq.
    + assert (M : mem_str n (dkeys (m_pars m4)) = true) by (apply mem_str_In, dget_Some_key; eauto).
      rewrite M. unfold dgetitem. now rewrite Eq.
    + apply dget_None in Eq. rewrite (proj2 (mem_str_nIn _ _) Eq). reflexivity.
Qed.

Lemma c23_unpacked_refuted__p :
  exists (m : model),
    construct (fun l => l) toy_parse [] (Some (Many (map PObj toy_vars))) (Some (Many (map PObj toy_pars)))
            (Some (Many [PEqn (MkEqn "market" "x = a" None); PEqn (MkEqn "walras" "x * p = a" None)])) (Some "p") true = Ok m /\
    In "p" (dkeys (m_uvars m)) /\ ~ In "p" (dkeys (m_pars m)) /\ ~ In "p" (dkeys (m_upars m)) /\
    get m (Some ["p"]) = Err ValueError /\
    get_symbol m (Some ["p"]) = Ok (GotOne (MkSymbol "p" true true)).
Proof.
  match goal with |- exists m, ?t = Ok m /\ _ => let r := eval vm_compute in t in match r with Ok ?m0 => exists m0 end end.
  split; [vm_compute; reflexivity|]. split; [simpl; auto|]. split; [simpl; intuition discriminate|].
  split; [simpl; intuition discriminate|]. split; reflexivity.
Qed.
