(** C112: models with a numeraire. *)
From Coq Require Import Reals Lia.
From Verif Require Import Py PyStr NdArray M_Primitives M_Utilities M_Expand M_Equations M_Registry M_Graph M_PyExpr M_SymExpr M_Calculus M_Simplify M_Lambdify M_NumbaModel M_SympyTensor M_Tensor.
From Verif Require Import S_Layout S_PyExpr S_Tensor S_ArrayModel S_Markers S_Expand S_Calculus S_Reduce S_Simplify S_Lambdify S_NumbaModel S_SympyTensor S_Numeraire.
From Verif Require Import L_PyExpr L_Utilities L_Layout L_Markers L_Unpacked L_Expand L_Reduce L_Simplify L_Simplify2 L_Lambdify L_NumbaModel.
Local Open Scope string_scope.
Local Open Scope list_scope.

Lemma ok_same {A} (a b : A) : Ok a = Ok b -> a = b. Proof. congruence. Qed.
Lemma known_shape c o : declared c o -> has_shape (lab_coords c) o (map (size (lab_coords c)) (o_dims o)).
Proof.
  intros (_ & _ & _ & H). unfold has_shape. induction (o_dims o) as [|i l IH]; cbn; constructor; [|apply IH; intros; apply H; now right].
  assert (I : In i (dkeys (lab_coords c))). { specialize (H i (or_introl eq_refl)). unfold lab_coords, dkeys in *. rewrite map_map. cbn. exact H. }
  unfold size. destruct (dget i (lab_coords c)) as [ls|] eqn:E; [eauto|]. apply dget_None in E. contradiction.
Qed.
Lemma shape_unique c o s s' : has_shape c o s -> has_shape c o s' -> s = s'.
Proof.
  unfold has_shape. intros H. revert s'. induction H as [|d n l s (ls & A & B) H IH]; intros s' H'; inversion H' as [|? n' ? s1 (ls' & A' & B') H1]; subst; [reflexivity|].
  f_equal; [congruence|auto].
Qed.
Lemma fits_length c o (a : arr R) : declared c o -> fits (lab_coords c) o a -> length (adata a) = n_elements (lab_coords c) o.
Proof. intros D (W & S). rewrite W. unfold n_elements. f_equal. eapply shape_unique; [exact S|now apply known_shape]. Qed.

Lemma expanded_count order c o us : declared c o -> expand_obj_by_indices order o (lab_coords c) None Ignore = Ok us -> length us = n_elements (lab_coords c) o.
Proof.
  intros D E. destruct (expand_names order (proj1 D) (proj1 (proj2 D)) (known_shape D)) as (us' & lss & E' & L & _). rewrite E in E'. injection E' as <-. exact L.
Qed.
Lemma unpacked_count order c objs us : (forall o, In o objs -> declared c o) -> unpack_objects order objs (lab_coords c) = Ok us -> length us = elements_of (lab_coords c) objs.
Proof.
  intros D E. unfold unpack_objects in E. destruct (map_res _ objs) as [l|] eqn:M; [|discriminate]. cbn in E. injection E as <-.
  apply map_res_ok_Forall2 in M. unfold elements_of. induction M as [|o u objs l H M IH]; [reflexivity|].
  cbn [List.concat map]. rewrite app_length, IH by (intros; apply D; now right). rewrite (@expanded_count order c o u) by (auto; apply D; now left). reflexivity.
Qed.
Lemma flat_count c (d : dict (arr R)) objs x : has_data c objs d -> concat_named d objs = Ok x -> length x = elements_of (lab_coords c) objs.
Proof.
  intros H E. apply concat_named_inv in E as (_ & as_ & F & ->). unfold elements_of. induction F as [|o a objs as_ E F IH]; [reflexivity|].
  cbn [List.concat map]. rewrite app_length, IH by (intros o' Ho'; apply H; now right). destruct (H o (or_introl eq_refl)) as (D & a' & E' & FT).
  rewrite E in E'. injection E' as <-. rewrite (@fits_length c o a D FT). reflexivity.
Qed.

(** Without [n] there are as many elements fewer as [n] has *)
Lemma without n vars f : In n vars -> NoDup (map o_name vars) ->
  list_sum (map f vars) = f n + list_sum (map f (packed_variables (Some n) vars)).
Proof.
  intros I ND. unfold packed_variables. induction vars as [|o vars IH]; [destruct I|]. cbn in ND. apply NoDup_cons_iff in ND as (NI & ND). cbn [map list_sum filter].
  destruct I as [->|I].
  - rewrite String.eqb_refl. cbn [negb]. replace (filter _ vars) with vars; [reflexivity|].
    clear IH. induction vars as [|v vars IH]; [reflexivity|]. cbn in NI, ND |- *. apply NoDup_cons_iff in ND as (_ & ND). destruct (String.eqb_spec (o_name v) (o_name n)) as [E|E]; [exfalso; auto|]. cbn. f_equal. auto.
  - assert (o_name o <> o_name n) by (intros E; apply NI; rewrite E; now apply in_map). destruct (String.eqb_spec (o_name o) (o_name n)); [contradiction|]. cbn. change (list_sum (map f vars)) with (list_sum (map f vars)).
    unfold list_sum in *. rewrite IH by auto. lia.
Qed.
Lemma positive_count c o : plain_labels c -> declared c o -> 0 < n_elements (lab_coords c) o.
Proof. intros P D. eapply shape_positive; [exact P|]. apply shape_lab. exact (known_shape D). Qed.

Lemma c112_counts__p :
  forall order c n vars params uv up d x theta, with_numeraire order c n vars params uv up d x theta ->
    length uv = length x + n_elements (lab_coords c) n /\ 0 < n_elements (lab_coords c) n.
Proof.
  intros order c n vars params uv up d x theta ((PL & NK & NL & EV & EP & NN & NO) & I & DN & HD & FL).
  assert (ND : NoDup (map o_name vars)) by (rewrite map_app in NO; exact (proj1 (NoDup_app_parts _ _ NO))).
  assert (DV : forall o, In o vars -> declared c o).
  { intros o Ho. destruct (String.eqb_spec (o_name o) (o_name n)) as [E|E].
    - assert (o = n) as ->; [|exact DN]. clear - ND Ho I E. induction vars as [|v vars IH]; [destruct I|]. cbn in ND. apply NoDup_cons_iff in ND as (NI & ND).
      destruct Ho as [->|Ho], I as [->|I]; auto; exfalso; apply NI; [rewrite E|rewrite <- E]; now apply in_map.
    - apply HD. unfold packed_variables. apply filter_In. split; [exact Ho|]. now apply negb_true_iff, String.eqb_neq. }
  split; [|now apply positive_count].
  rewrite (@unpacked_count order c vars uv DV EV). unfold variable_dict_to_flat_array in FL. destruct (concat_named d (packed_variables (Some n) vars)) as [x'|] eqn:E; [|discriminate]. cbn in FL.
  destruct (concat_named d params); [|discriminate]. cbn in FL. injection FL as -> _. rewrite (@flat_count c d _ x HD E). unfold elements_of.
  rewrite (@without n vars (n_elements (lab_coords c)) I ND). lia.
Qed.

(** * numba: the length check *)
Lemma lambdify_refuses cse exog e endog ravel f l y : numba_lambdify cse exog e endog ravel = Ok f -> length l <> length exog -> refused (f (PArr l) y).
Proof.
  unfold numba_lambdify. destruct (cse (cells e)) as (sub & exprs). destruct (negb _); [discriminate|]. intros E N. apply ok_same in E. subst f.
  destruct (mem_str "len" _); [now right|]. cbn [py_len bind]. rewrite (proj2 (Nat.eqb_neq _ _) N). now left.
Qed.
Lemma map_res_len {A B} (f : A -> res B) l l' : map_res f l = Ok l' -> length l' = length l.
Proof. intros H. apply map_res_ok_Forall2 in H. symmetry. eapply Forall2_len; exact H. Qed.
Ltac step E n := match type of E with bind ?r _ = Ok _ => let H := fresh "H" n in destruct r as [n|] eqn:H; [|discriminate E]; cbn [bind] in E end.

Lemma c112_numba__p :
  forall sub_into set_order dict_order evaluates cse order c n vars params equations uv up d x theta f,
    with_numeraire order c n vars params uv up d x theta ->
    compile_numba_cge_functions sub_into set_order dict_order evaluates cse order c (Some n) vars params equations = Ok f ->
    forall theta_final, refused (nf_system f x theta_final) /\ refused (nf_jac f x theta_final) /\ refused (nf_resid f x theta_final) /\ refused (nf_grad f x theta_final).
Proof.
  intros si so do_ ev cse order c n vars params equations uv up d x theta f W E th. destruct (c112_counts__p W) as (LC & PC).
  destruct W as ((PL & NK & NL & EV & EP & NN & NO) & _).
  rewrite map_app in NN. destruct (NoDup_app_parts _ _ NN) as (NV & _). destruct (@unpack_group_ok order vars (lab_coords c) uv EV NV) as (EG & DG).
  unfold compile_numba_cge_functions in E. rewrite EG in E. cbn [bind] in E. step E gp. rewrite DG in E. step E ess. step E vs. step E ps. step E fs. step E fj. step E fr. step E fg.
  apply ok_same in E. subst f. cbn [nf_system nf_jac nf_resid nf_grad].
  assert (LV : length x <> length vs). { unfold unpacked_symbols in Hvs. rewrite (map_res_len _ _ Hvs). lia. }
  unfold compile_numba_system in Hfs. step Hfs g1. apply ok_same in Hfs. subst fs.
  unfold compile_numba_jacobian_function in Hfj. step Hfj jac. step Hfj g2. apply ok_same in Hfj. subst fj.
  unfold compile_numba_error_function in Hfr. step Hfr g3. apply ok_same in Hfr. subst fr.
  unfold compile_numba_gradient_function in Hfg. cbn zeta in Hfg. step Hfg g4. apply ok_same in Hfg. subst fg.
  unfold call2. repeat split; eapply lambdify_refuses; eauto.
Qed.

(** * sympytensor: more residuals than unknowns *)
Lemma c112_sympytensor__p :
  forall sub_into set_order dict_order evaluates order c n vars params equations uv up d x theta f ess,
    with_numeraire order c n vars params uv up d x theta ->
    map_res (fun lr => equation_symbols sub_into set_order dict_order evaluates c (Some n) (uv ++ up) (fst lr) (snd lr)) equations = Ok ess ->
    length (List.concat ess) = length uv ->
    compile_sympytensor_cge_functions sub_into set_order dict_order evaluates order c (Some n) vars params equations = Ok f ->
    (forall kwargs r, sf_system f kwargs = Ok r -> length r = length x + n_elements (lab_coords c) n) /\
    (forall kwargs J, sf_jac f kwargs = Ok J -> length J = length x + n_elements (lab_coords c) n /\ forall row, In row J -> length row = length x + n_elements (lab_coords c) n) /\
    (forall kwargs g, sf_grad f kwargs = Ok g -> length g = length x + n_elements (lab_coords c) n).
Proof.
  intros si so do_ ev order c n vars params equations uv up d x theta f ess W Es SQ E. destruct (c112_counts__p W) as (LC & PC).
  destruct W as ((PL & NK & NL & EV & EP & NN & NO) & _).
  rewrite map_app in NN. destruct (NoDup_app_parts _ _ NN) as (NV & NP & _). destruct (@unpack_group_ok order vars (lab_coords c) uv EV NV) as (EG & DG). destruct (@unpack_group_ok order params (lab_coords c) up EP NP) as (EG' & DG').
  unfold compile_sympytensor_cge_functions in E. rewrite EG, EG' in E. cbn [bind] in E. rewrite DG, DG', Es in E. cbn [bind] in E. step E vs.
  assert (LV : length vs = length uv) by exact (map_res_len _ _ Hvs).
  step E rp. step E vp. step E jac. step E hess. step E hp. apply ok_same in E. subst f. cbn [sf_system sf_jac sf_grad]. unfold matrix_function, call.
  split; [|split]; intros kw r H; destruct (_ && _)%bool; try discriminate H.
  - rewrite (map_res_len _ _ H). lia.
  - unfold make_sympy_jacobian in Hjac. step Hjac l. destruct vs as [|v0 vs0]; [discriminate|]. apply ok_same in Hjac. subst jac. assert (l = List.concat ess) as -> by (cbn in Hl; destruct (List.concat ess); [discriminate|now apply ok_same in Hl]).
    split.
    + rewrite (map_res_len _ _ H), map_length. lia.
    + intros row I. apply map_res_ok_Forall2 in H. clear - H I LV LC. revert H. generalize (List.concat ess). intros l H.
      remember (map (fun e => map (fun x => diff x e) (v0 :: vs0)) l) as rows. revert l Heqrows. induction H as [|a b rows r H1 H IH]; intros l Q; [destruct I|].
      destruct l as [|e l]; [discriminate|]. injection Q as -> Q. destruct I as [->|I]; [|eapply IH; eauto]. rewrite (map_res_len _ _ H1). cbn [length]. rewrite ?map_length. cbn in LV. lia.
  - rewrite (map_res_len _ _ H). unfold make_sympy_gradient. rewrite map_length. lia.
Qed.

(** * pytensor: the name is not defined *)
Lemma reads_fails number_op w e cache : reads w e -> literal w = None -> dget w cache = None -> forall a, tensor_eval number_op cache e <> Ok a.
Proof.
  intros H L D. induction H as [|op a b H IH|op a b H IH|a H IH|a args H IH|a m args H IH]; intros r E; cbn [tensor_eval] in E.
  - rewrite L in E. destruct (_ || _)%bool; [discriminate|]. rewrite D in E. discriminate.
  - destruct (tensor_eval number_op cache a) as [y|] eqn:Q; [|discriminate]. now apply (IH y).
  - destruct (tensor_eval number_op cache a) as [y|]; [|discriminate]. cbn in E. destruct (tensor_eval number_op cache b) as [z|] eqn:Q; [|discriminate]. now apply (IH z).
  - destruct (tensor_eval number_op cache a) as [y|] eqn:Q; [|discriminate]. now apply (IH y).
  - destruct (tensor_eval number_op cache a) as [y|] eqn:Q; [|discriminate]. now apply (IH y).
  - destruct (tensor_eval number_op cache a) as [y|] eqn:Q; [|discriminate]. now apply (IH y).
Qed.
Lemma c112_pytensor__p :
  forall number_op C n vars params texts names data s e,
    In n vars -> NoDup (map o_name (vars ++ params)) -> In s texts -> is_expr (normalize_eq s) e -> reads (o_name n) e -> literal (o_name n) = None ->
    forall r, pytensor_system number_op C (packed_variables (Some n) vars ++ params) texts names data <> Ok r.
Proof.
  intros nop C n vars params texts names data s e I NO Is Ie Rd Ln r E. unfold pytensor_system in E. step E inputs. step E arrays. clear E.
  apply map_res_ok_Forall2 in Harrays. assert (exists a, eval_equation nop (dict_of_list inputs) s = Ok a) as (a & Ea).
  { clear - Is Harrays. induction Harrays as [|q a l l' H F IH]; [destruct Is|]. destruct Is as [->|Is]; eauto. }
  unfold eval_equation in Ea. rewrite (parse_complete Ie) in Ea. revert Ea. apply (@reads_fails nop (o_name n)); auto.
  rewrite dget_dict_of_list. apply dget_None. unfold dkeys. rewrite map_rev. intros K. apply in_rev in K. apply map_res_ok_Forall2 in Hinputs.
  assert (Q : map fst inputs = map o_name (packed_variables (Some n) vars ++ params)).
  { clear - Hinputs. unfold tensor_inputs in Hinputs. induction Hinputs as [|o p l l' H F IH]; [reflexivity|]. cbn. rewrite IH. f_equal.
    destruct (object_shape C o); [|discriminate]. cbn in H. destruct (dgetitem (o_name o) data) as [ar|]; [|discriminate]. cbn in H. destruct (list_eq_dec _ _ _); [|discriminate]. now injection H as <-. }
  rewrite Q, map_app in K. apply in_app_or in K as [K|K].
  - apply in_map_iff in K as (o & Eo & Io). apply filter_In in Io as (_ & Io). rewrite Eo, String.eqb_refl in Io. discriminate.
  - rewrite map_app in NO. destruct (NoDup_app_parts _ _ NO) as (_ & _ & DJ). apply (DJ (o_name n)); [now apply in_map|exact K].
Qed.
