(** Lemmas for C113 and C114. *)
From Verif Require Import Py PyStr M_Primitives M_SymExpr M_Calculus M_Simplify M_Registry M_Access S_Access L_Registry L_Registry2.
Local Open Scope string_scope.
Local Open Scope list_scope.

Lemma dget_dset_is {V} k v (d : dict V) x : dget x (dset k v d) = if string_dec k x then Some v else dget x d.
Proof.
  destruct (string_dec k x) as [->|N]; [apply dget_dset_same|apply dget_dset_other; congruence].
Qed.

Lemma contains_char_is a s : contains_char a s = existsb (fun b => Ascii.eqb b a) (list_ascii_of_string s).
Proof. induction s as [|b s IH]; cbn; [reflexivity|]. rewrite <- IH. destruct (Ascii.eqb_spec a b), (Ascii.eqb_spec b a); congruence. Qed.

(** What stays and what changes *)
Lemma labelled_fields o us o' : labelled o us o' ->
  o_kind o' = o_kind o /\ o_name o' = o_name o /\ o_base_name o' = o_base_name o /\ o_dims o' = o_dims o /\
  o_latex_name o' = o_latex_name o /\ o_extend o' = o_extend o /\ o_real o' = o_real o /\ o_positive o' = o_positive o /\
  (forall d, dget d (o_dim_vals o') = last_set us d (dget d (o_dim_vals o))) /\
  (o_full_latex o = initialize_full_latex_name (o_dims o) (o_dim_vals o) (o_latex_name o) (o_extend o) ->
   o_full_latex o' = initialize_full_latex_name (o_dims o') (o_dim_vals o') (o_latex_name o') (o_extend o')) /\
  (contains_char "<" (o_description o) = false -> o_description o' = o_description o).
Proof.
  induction 1 as [o|o d l o1 us o2 H H1 IH]; [cbn; intuition auto|].
  unfold update_dim_value in H. destruct (mem_str d (o_dims o)); [|discriminate].
  assert (E : o1 = MkObj (o_kind o) (o_name o) (o_dims o) (dset d l (o_dim_vals o)) (o_latex_name o)
     (initialize_full_latex_name (o_dims o) (dset d l (o_dim_vals o)) (o_latex_name o) (o_extend o))
     (pretty_print_dim_flags (o_description o) (o_dims o) (dset d l (o_dim_vals o)))
     (o_base_name o) (o_real o) (o_positive o) (o_extend o)) by (cbn [initialize_description] in H; symmetry; congruence).
  subst o1. cbn [o_kind o_name o_base_name o_dims o_latex_name o_extend o_real o_positive o_dim_vals o_full_latex o_description] in IH.
  destruct IH as (A1 & A2 & A3 & A4 & A5 & A6 & A7 & A8 & A9 & A10 & A11).
  do 8 (split; [assumption|]). split; [|split].
  - intros x. rewrite A9. cbn [last_set]. now rewrite dget_dset_is.
  - intros _. now apply A10.
  - intros D.
    assert (P : pretty_print_dim_flags (o_description o) (o_dims o) (dset d l (o_dim_vals o)) = o_description o).
    { clear -D. unfold pretty_print_dim_flags. induction (o_dims o) as [|e ds IH]; [reflexivity|]. cbn [fold_left].
      destruct (dget e _) as [v|]; [|exact IH]. change (marker e) with (String "<" ("dim:" ++ e ++ ">")). rewrite str_replace_absent; auto. }
    rewrite P in A11. now apply A11.
Qed.

Lemma full_latex_ext dims dv dv' latex extend : (forall d, dget d dv = dget d dv') ->
  initialize_full_latex_name dims dv latex extend = initialize_full_latex_name dims dv' latex extend.
Proof.
  intros H. unfold initialize_full_latex_name, make_latex_subscript.
  assert (E : map (fun d => match dget d dv with None => d | Some v => (d ++ "=\text{" ++ str_label v ++ "}")%string end) dims =
              map (fun d => match dget d dv' with None => d | Some v => (d ++ "=\text{" ++ str_label v ++ "}")%string end) dims)
    by (apply map_ext; intros; now rewrite H).
  now rewrite E.
Qed.

Lemma full_latex_printed dims dv lab latex : (forall d, dget d dv = lab d) ->
  initialize_full_latex_name dims dv latex 0 = printed latex dims lab.
Proof.
  intros H. unfold initialize_full_latex_name, printed, make_latex_subscript.
  rewrite contains_char_is.
  assert (E : map (fun d => match dget d dv with None => d | Some v => (d ++ "=\text{" ++ str_label v ++ "}")%string end) dims =
              map (printed_index lab) dims) by (apply map_ext; intros; unfold printed_index; now rewrite H).
  rewrite E. unfold join. destruct dims as [|d dims]; [reflexivity|]. cbn [map]. reflexivity.
Qed.

Lemma mk_object_fields greek k name a dv latex descr real positive extend o :
  mk_object greek k name a dv latex descr real positive extend = Ok o ->
  o_kind o = k /\ o_name o = name /\ o_base_name o = name /\ initialize_index a = Ok (o_dims o) /\
  o_latex_name o = greek (match latex with Some s => s | None => name end) /\ o_extend o = extend /\ o_real o = real /\ o_positive o = positive /\
  initialize_dim_vals (o_dims o) dv = Ok (o_dim_vals o) /\
  o_full_latex o = initialize_full_latex_name (o_dims o) (o_dim_vals o) (o_latex_name o) (o_extend o) /\
  o_description o = initialize_description descr (o_dims o) (o_dim_vals o) (o_full_latex o) positive real.
Proof.
  unfold mk_object. intros H. apply bind_ok in H as (ds & H1 & H). apply bind_ok in H as (d & H2 & H).
  match type of H with Ok ?x = Ok o => assert (E : o = x) by (symmetry; congruence) end. subst o.
  cbn [o_kind o_name o_base_name o_dims o_latex_name o_extend o_real o_positive o_dim_vals o_full_latex o_description].
  repeat split; auto.
Qed.

Lemma c113_shown__p :
  forall (greek : string -> string) (k : kind) (name : string) (a : dims_arg) (dv : option (dict label)) (latex descr : option string)
         (real positive : bool) (extend : nat) (o o' : mobj) (us : list (string * label)),
  mk_object greek k name a dv latex descr real positive extend = Ok o -> labelled o us o' ->
  let lab := fun d => last_set us d (dget d (match dv with Some l => l | None => [] end)) in
  dkeys (to_dict o') = ["name"; "dims"; "sympy"; "latex_name"; "dim_vals"; "description"] /\
  dget "name" (to_dict o') = Some (AStr name) /\
  (exists dims, initialize_index a = Ok dims /\ dget "dims" (to_dict o') = Some (ATuple dims) /\
     dget "sympy" (to_dict o') = Some (ASympy (symbol_of_labels name dims lab)) /\
     (extend = 0 -> dget "latex_name" (to_dict o') = Some (AStr (printed (greek (match latex with Some s => s | None => name end)) dims lab)))) /\
  (exists d, dget "dim_vals" (to_dict o') = Some (ADict d) /\ forall x, dget x d = lab x) /\
  dget "latex_name" (to_dict o') = Some (AStr (repr o')).
Proof.
  intros greek k name a dv latex descr real positive extend o o' us H HL lab.
  destruct (mk_object_fields _ _ _ _ _ _ _ _ _ _ H) as (A1 & A2 & A3 & A4 & A5 & A6 & A7 & A8 & A9 & A10 & _).
  destruct (labelled_fields HL) as (B1 & B2 & B3 & B4 & B5 & B6 & B7 & B8 & B9 & B10 & _).
  assert (L : forall x, dget x (o_dim_vals o') = lab x).
  { intros x. rewrite B9. unfold lab. f_equal. f_equal. unfold initialize_dim_vals in A9. destruct dv as [d|]; [destruct (forallb _ _)|]; congruence. }
  unfold to_dict, repr. split; [reflexivity|]. split; [cbn; congruence|]. split; [|split; [|reflexivity]].
  - exists (o_dims o'). rewrite B4. split; [exact A4|]. split; [cbn; congruence|]. split.
    + cbn [dget String.eqb Ascii.eqb Bool.eqb]. do 2 f_equal. unfold to_sympy, symbol_of_labels. rewrite B4, B3, A3.
      destruct (o_dims o) as [|d ds]; [reflexivity|]. f_equal. apply map_ext. intros x. now rewrite L.
    + intros ->. cbn [dget String.eqb Ascii.eqb Bool.eqb]. do 2 f_equal. rewrite (B10 A10), B6, A6, B4, B5, A5. now apply full_latex_printed.
  - exists (o_dim_vals o'). split; [reflexivity|exact L].
Qed.

Lemma c113_like_new__p :
  forall (greek : string -> string) (k : kind) (name : string) (a : dims_arg) (dv : option (dict label)) (latex descr : option string)
         (real positive : bool) (extend : nat) (o o' n : mobj) (us : list (string * label)) (d : dict label),
  mk_object greek k name a dv latex descr real positive extend = Ok o -> labelled o us o' ->
  (forall x, dget x d = last_set us x (dget x (match dv with Some l => l | None => [] end))) ->
  mk_object greek k name a (Some d) latex descr real positive extend = Ok n ->
  repr o' = repr n /\ dget "sympy" (to_dict o') = dget "sympy" (to_dict n) /\ dget "latex_name" (to_dict o') = dget "latex_name" (to_dict n) /\
  dget "dims" (to_dict o') = dget "dims" (to_dict n).
Proof.
  intros greek k name a dv latex descr real positive extend o o' n us d H HL D HN.
  destruct (mk_object_fields _ _ _ _ _ _ _ _ _ _ H) as (A1 & A2 & A3 & A4 & A5 & A6 & A7 & A8 & A9 & A10 & _).
  destruct (mk_object_fields _ _ _ _ _ _ _ _ _ _ HN) as (C1 & C2 & C3 & C4 & C5 & C6 & C7 & C8 & C9 & C10 & _).
  destruct (labelled_fields HL) as (B1 & B2 & B3 & B4 & B5 & B6 & B7 & B8 & B9 & B10 & _).
  assert (DD : o_dims o' = o_dims n) by congruence.
  assert (L : forall x, dget x (o_dim_vals o') = dget x (o_dim_vals n)).
  { intros x. rewrite B9. assert (E : o_dim_vals n = d) by (unfold initialize_dim_vals in C9; destruct (forallb _ _); congruence).
    rewrite E, D. f_equal. f_equal. unfold initialize_dim_vals in A9. destruct dv as [e|]; [destruct (forallb _ _)|]; congruence. }
  assert (R : o_full_latex o' = o_full_latex n).
  { rewrite (B10 A10), C10, DD, B5, A5, C5, B6, A6, C6. now apply full_latex_ext. }
  unfold repr, to_dict. cbn [dget String.eqb Ascii.eqb Bool.eqb]. split; [exact R|]. split; [|split; congruence].
  do 2 f_equal. unfold to_sympy. rewrite DD, B3, A3, C3. destruct (o_dims n); [reflexivity|]. f_equal. apply map_ext. intros x. now rewrite L.
Qed.

Lemma c113_refused__p :
  forall (o : mobj) (d : string) (l : label),
  (In d (o_dims o) -> exists o', update_dim_value o d l = Ok o') /\ (~ In d (o_dims o) -> update_dim_value o d l = Err ValueError).
Proof.
  intros o d l. unfold update_dim_value. destruct (mem_str d (o_dims o)) eqn:E.
  - apply mem_str_In in E. split; [eauto|tauto].
  - apply mem_str_nIn in E. split; [tauto|auto].
Qed.

Lemma c113_getitem__p :
  forall (o : mobj) (key : string),
  In key ["name"; "dims"; "dim_vals"; "description"] -> exists v, getitem o key = Ok v /\ dget key (to_dict o) = Some v.
Proof. intros o key [<-|[<-|[<-|[<-|[]]]]]; eexists; split; reflexivity. Qed.

Lemma c113_attributes__p :
  forall (greek : string -> string) (k : kind) (name : string) (a : dims_arg) (dv : option (dict label)) (latex descr : option string)
         (real positive : bool) (extend : nat) (o o' : mobj) (us : list (string * label)),
  mk_object greek k name a dv latex descr real positive extend = Ok o -> labelled o us o' ->
  getitem o' "base_name" = Ok (AStr name) /\ getitem o' "real" = Ok (ABool real) /\ getitem o' "positive" = Ok (ABool positive) /\
  getitem o' "assumptions" = Ok (AFlags real positive) /\ getitem o' "extend_subscript" = Ok (AInt extend) /\
  getitem o' "sort_index" = Ok (AStr name) /\ getitem o' "_full_latex_name" = Ok (AStr (repr o')) /\
  getitem o' "latex_name" = Ok (AStr (greek (match latex with Some s => s | None => name end))) /\
  forall key, ~ In key ["name"; "dims"; "dim_vals"; "description"; "base_name"; "real"; "positive"; "assumptions"; "extend_subscript"; "sort_index"; "_full_latex_name"; "latex_name"] ->
    getitem o' key = Err AttributeError.
Proof.
  intros greek k name a dv latex descr real positive extend o o' us E Lb.
  assert (G : o_name o' = name /\ o_base_name o' = name /\ o_real o' = real /\ o_positive o' = positive /\ o_extend o' = extend /\
    o_latex_name o' = greek (match latex with Some s => s | None => name end)).
  { assert (G0 : o_name o = name /\ o_base_name o = name /\ o_real o = real /\ o_positive o = positive /\ o_extend o = extend /\
      o_latex_name o = greek (match latex with Some s => s | None => name end)).
    { unfold mk_object in E. destruct (initialize_index a) as [dims|]; [|discriminate]. cbn [bind] in E.
      destruct (initialize_dim_vals dims dv) as [d|]; [|discriminate]. cbn [bind] in E. injection E as <-. repeat split. }
    clear E. revert G0. induction Lb as [|o d l o1 us o2 U _ IH]; [auto|]. intros G0. apply IH. unfold update_dim_value in U.
    destruct (mem_str d (o_dims o)); [|discriminate]. injection U as <-. exact G0. }
  destruct G as (G1 & G2 & G3 & G4 & G5 & G6). unfold getitem, attributes, repr. rewrite G1, G2, G3, G4, G5, G6.
  repeat (split; [reflexivity|]). intros key N.
  match goal with |- context [dget key ?d] => assert (Q : dget key d = None) end; [|now rewrite Q].
  unfold dget. repeat match goal with |- context [String.eqb key ?s] => destruct (String.eqb_spec key s) as [->|_]; [exfalso; apply N; cbn; tauto|] end. reflexivity.
Qed.

Lemma c113_latex_refuted__p :
  forall (greek : string -> string) (k : kind) (name : string) (a : dims_arg) (dv : option (dict label)) (latex descr : option string)
         (real positive : bool) (o : mobj),
  mk_object greek k name a dv latex descr real positive 0 = Ok o -> initialize_index a <> Ok [] ->
  exists s t, getitem o "latex_name" = Ok (AStr s) /\ dget "latex_name" (to_dict o) = Some (AStr t) /\ String.length s < String.length t.
Proof.
  intros greek k name a dv latex descr real positive o H NE.
  destruct (mk_object_fields _ _ _ _ _ _ _ _ _ _ H) as (A1 & A2 & A3 & A4 & A5 & A6 & A7 & A8 & A9 & A10 & _).
  exists (o_latex_name o), (o_full_latex o). split; [reflexivity|]. split; [reflexivity|].
  rewrite A10, A6, (@full_latex_printed _ _ (fun d => dget d (o_dim_vals o))) by auto. unfold printed.
  assert (LA : forall s t, String.length (s ++ t) = String.length s + String.length t)
    by (clear; induction s as [|c s IH]; intros t; cbn; [reflexivity|now rewrite IH]).
  destruct (o_dims o) as [|d ds]; [congruence|]. rewrite !LA.
  destruct (existsb _ _); rewrite ?LA; cbn [String.length]; lia.
Qed.

Lemma c113_description__p :
  forall (greek : string -> string) (k : kind) (name : string) (a : dims_arg) (dv : option (dict label)) (latex : option string)
         (real positive : bool) (extend : nat) (o o' : mobj) (us : list (string * label)),
  mk_object greek k name a dv latex None real positive extend = Ok o -> labelled o us o' -> contains_char "<" (repr o) = false ->
  dget "description" (to_dict o') =
  Some (AStr (repr o ++ ", Positive = " ++ (if positive then "True" else "False") ++ ", Real = " ++ (if real then "True" else "False"))).
Proof.
  intros greek k name a dv latex real positive extend o o' us H HL NC.
  destruct (mk_object_fields _ _ _ _ _ _ _ _ _ _ H) as (A1 & A2 & A3 & A4 & A5 & A6 & A7 & A8 & A9 & A10 & A11).
  destruct (labelled_fields HL) as (B1 & B2 & B3 & B4 & B5 & B6 & B7 & B8 & B9 & B10 & B11).
  unfold repr in *. cbn [initialize_description] in A11. unfold to_dict. cbn [dget String.eqb Ascii.eqb Bool.eqb]. do 2 f_equal.
  rewrite B11, A11; [destruct positive, real; reflexivity|]. rewrite A11, !contains_char_app, NC. destruct positive, real; reflexivity.
Qed.

Lemma c113_description_refuted__p :
  exists (o o' : mobj), mk_object (fun s => s) KVar "x" (DStr "i") None None None true true 0 = Ok o /\ update_dim_value o "i" (LStr "A") = Ok o' /\
  repr o' = "x_{i=\text{A}}" /\ getitem o' "description" = Ok (AStr "x_{i}, Positive = True, Real = True") /\
  exists n, mk_object (fun s => s) KVar "x" (DStr "i") (Some [("i", LStr "A")]) None None true true 0 = Ok n /\
  getitem n "description" = Ok (AStr "x_{i=\text{A}}, Positive = True, Real = True").
Proof. do 2 eexists. split; [reflexivity|]. split; [reflexivity|]. split; [reflexivity|]. split; [reflexivity|]. eexists. split; reflexivity. Qed.

(** *** The variables of a model *)
Lemma added_all l : forall (d d' : dict mobj) u, add_objects d l false = (d', Ok u) -> NoDup (dkeys d) ->
  d' = d ++ map (fun o => (o_name o, o)) l /\ NoDup (dkeys d ++ map o_name l).
Proof.
  induction l as [|o l IH]; intros d d' u H N.
  - unfold add_objects in H. simpl in H. injection H as <- _. simpl. rewrite !app_nil_r. auto.
  - unfold add_objects in H. cbn [loop] in H. unfold add_object at 1 in H.
    destruct (mem_str (o_name o) (dkeys d)) eqn:E; cbn [andb negb] in H; [discriminate|].
    apply mem_str_nIn in E. rewrite dset_new in H by auto.
    apply IH in H.
    + destruct H as (-> & H). simpl. rewrite <- app_assoc. split; [reflexivity|].
      unfold dkeys in H. rewrite map_app in H. simpl in H. rewrite <- app_assoc in H. exact H.
    + unfold dkeys. rewrite map_app. simpl. now apply NoDup_app_single.
Qed.

Lemma init_variables_given order m vs m1 : m_vars m = [] -> init_variables order m (Some (Many (map PObj vs))) = Ok m1 ->
  m_vars m1 = map (fun o => (o_name o, o)) vs /\ NoDup (map o_name vs).
Proof.
  intros M0 H1. unfold init_variables in H1. apply bind_ok in H1 as (m0 & H0 & H1). apply bind_ok in H1 as (l & Hl & H1).
  apply bind_ok in H1 as (u & _ & H1). injection H1 as <-. cbn [set_uvars m_vars].
  unfold iterate in Hl. unfold add_variables in H0. cbn [ensure_sequence] in H0.
  assert (Hvs : map_res (validate_obj KVar) (map PObj vs) = Ok vs).
  { rewrite Hl. f_equal. clear -Hl. apply map_res_ok_Forall2 in Hl. revert l Hl.
    induction vs as [|o vs IH]; simpl; intros l Hl; inversion Hl; subst; auto.
    f_equal; auto. unfold validate_obj in *. destruct (kind_eqb _ _); congruence. }
  rewrite Hvs, M0 in H0.
  destruct (add_objects [] vs false) as [d' [u'|e]] eqn:Ea; [|discriminate].
  apply added_all in Ea as (-> & N); [|constructor]. injection H0 as <-. auto.
Qed.

Lemma ddel_named n vs : NoDup (map o_name vs) ->
  dvals (ddel n (map (fun o : mobj => (o_name o, o)) vs)) = filter (fun o => negb (String.eqb (o_name o) n)) vs.
Proof.
  intros N. unfold dvals. induction vs as [|o vs IH]; [reflexivity|]. cbn [map ddel].
  inversion N as [|? ? N1 N2]; subst. cbn [filter]. rewrite (String.eqb_sym n).
  destruct (String.eqb_spec (o_name o) n) as [E|E]; cbn [negb].
  - subst n. clear IH N. rewrite map_map. cbn [snd]. rewrite map_id.
    symmetry. rewrite (@filter_ext_in _ _ (fun _ => true)); [|].
    + clear. induction vs as [|a vs IH]; [reflexivity|]. cbn [filter]. now rewrite IH.
    + intros a Ha. destruct (String.eqb_spec (o_name a) (o_name o)) as [Q|]; [|reflexivity].
      exfalso. apply N1. rewrite <- Q. now apply in_map.
  - cbn [map snd]. f_equal. now apply IH.
Qed.

Lemma c113_variables__p :
  forall (order : list string -> list string) (parse : parser) (c : coords) (vs : list mobj) (pars eqs : option pyarg)
         (numeraire : option string) (sympy : bool) (m : model),
  numeraire <> Some "" ->
  construct order parse c (Some (Many (map PObj vs))) pars eqs numeraire sympy = Ok m ->
  variables m = filter (fun o => match numeraire with Some n => negb (String.eqb (o_name o) n) | None => true end) vs /\
  map o_name (variables m) = dkeys (m_vars m) /\ NoDup (map o_name (variables m)).
Proof.
  intros order parse c vs pars eqs numeraire sympy m Hn H. unfold construct in H.
  apply bind_ok in H as (m1 & H1 & H). apply bind_ok in H as (m2 & H2 & H).
  apply bind_ok in H as (m3 & H3 & H). apply bind_ok in H as (m4 & H4 & H).
  destruct (Nat.eqb _ _); [|discriminate].
  assert (Em : m = drop_numeraire m4 numeraire) by congruence. clear H.
  apply init_variables_given in H1 as (V1 & N); [|reflexivity].
  pose proof (choose_numeraire_frame _ _ H2) as (_ & _ & _ & V2 & _).
  apply init_parameters_frame in H3 as (_ & _ & _ & V3 & _ & _ & N3).
  apply init_equations_frame in H4 as (_ & _ & V4 & _ & _ & _ & N4).
  assert (V : m_vars m4 = map (fun o => (o_name o, o)) vs) by congruence.
  assert (F : variables m = filter (fun o => match numeraire with Some n => negb (String.eqb (o_name o) n) | None => true end) vs).
  { subst m. unfold variables, drop_numeraire. destruct numeraire as [[|a n]|]; [congruence| |].
    - cbn [set_vars m_vars]. rewrite V. now apply ddel_named.
    - rewrite V. unfold dvals. rewrite map_map, map_id. clear. induction vs as [|a vs IH]; [reflexivity|]. cbn [filter]. now rewrite <- IH. }
  split; [exact F|]. split.
  - subst m. unfold variables, drop_numeraire. clear - V Hn.
    assert (K : map o_name (dvals (m_vars m4)) = dkeys (m_vars m4)) by (rewrite V; unfold dvals, dkeys; rewrite !map_map; reflexivity).
    assert (K2 : forall n, map o_name (dvals (ddel n (m_vars m4))) = dkeys (ddel n (m_vars m4))).
    { intros n. rewrite V. clear. induction vs as [|o vs IH]; [reflexivity|]. cbn [map ddel].
      destruct (String.eqb n (o_name o)).
      - unfold dvals, dkeys. rewrite !map_map. reflexivity.
      - cbn [dvals dkeys map fst snd] in *. f_equal. exact IH. }
    destruct numeraire as [[|a n]|]; [congruence| |]; cbn [set_vars m_vars]; auto.
  - rewrite F. clear -N. induction vs as [|o vs IH]; [constructor|]. cbn [filter map] in *. inversion N; subst.
    destruct (match numeraire with Some n => _ | None => true end); auto. cbn [map]. constructor; auto.
    intros X. apply in_map_iff in X as (y & E & Y). apply filter_In in Y as (Y & _). apply H1. rewrite <- E. now apply in_map.
Qed.

(** *** C114: helpers *)
Lemma c114_jacobian__p :
  forall (G : Type) (as_tensor : list sexpr -> res G) (graph_replace : G -> res G) (equations : option (list sexpr)) (unpacked : list sexpr)
         (variables parameters : list string) (wrt : string) (sparse : bool),
  (exists e, make_sympytensor_jacobian as_tensor graph_replace equations unpacked variables parameters wrt sparse = Err e) /\
  ((forall l, exists g, as_tensor l = Ok g) ->
   make_sympytensor_jacobian as_tensor graph_replace equations unpacked variables parameters wrt sparse = Err TypeError).
Proof.
  intros G as_tensor gr equations unpacked vars pars wrt sparse. unfold make_sympytensor_jacobian.
  set (eqs := match equations with Some l => l | None => unpacked end). set (ws := if String.eqb wrt "variables" then vars else pars).
  assert (X : forall l, (exists e, bind (as_tensor l) (packed_graph gr 4) = Err e) /\ ((forall l, exists g, as_tensor l = Ok g) -> bind (as_tensor l) (packed_graph gr 4) = Err TypeError)).
  { intros l. split.
    - destruct (as_tensor l); cbn; eauto.
    - intros A. destruct (A l) as (g & ->). reflexivity. }
  destruct sparse.
  - cbn [sparse_jacobian bind]. apply X.
  - unfold make_sympy_jacobian. destruct (as_vector (SysList eqs)) eqn:E; cbn [bind].
    + destruct ws; cbn [bind]; [eauto|]. apply X.
    + split; [eauto|]. intros _. destruct eqs; cbn in E; congruence.
Qed.

Lemma c114_jvp__p :
  forall (G : Type) (as_tensor : list sexpr -> res G) (graph_replace : G -> res G) (grad : list sexpr)
         (variables parameters : list string) (wrt : string),
  (exists e, make_sympytensor_jvp as_tensor graph_replace grad variables parameters wrt = Err e) /\
  ((forall l, exists g, as_tensor l = Ok g) -> make_sympytensor_jvp as_tensor graph_replace grad variables parameters wrt = Err TypeError).
Proof.
  intros G as_tensor gr grad vars pars wrt. unfold make_sympytensor_jvp. split.
  - destruct (as_tensor _); cbn; eauto.
  - intros A. match goal with |- bind (as_tensor ?l) _ = _ => destruct (A l) as (g & ->) end. reflexivity.
Qed.

Lemma c114_print_latex__p :
  forall (A : Type) (eqs : list A), (eqs = [] -> print_latex eqs = Ok tt) /\ (eqs <> [] -> print_latex eqs = Err TypeError).
Proof. intros A [|e eqs]; split; intros; try congruence; reflexivity. Qed.

Lemma c114_progress__p :
  forall (s : option string),
  firstn 5 (progress_columns s) = ["text"; "spinner"; "bar"; "time"; "m_of_n"] /\
  (length (progress_columns s) = 6 <-> s <> None) /\ (s <> None <-> In "stat" (progress_columns s)).
Proof. intros [s|]; cbn; (split; [reflexivity|]); split; split; try congruence; auto 10; intros H; intuition discriminate. Qed.
