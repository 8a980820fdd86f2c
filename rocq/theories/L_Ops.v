(** Lemmas for C107: the Ops of a model. *)
From Coq Require Import Reals Lia.
From Verif Require Import Py PyStr NdArray M_Primitives M_PyExpr M_Euler M_Jacobian M_Tensor M_ArrayModel M_Ops
  S_Layout S_Meaning S_Production S_Tensor S_ArrayModel S_Ops L_Layout L_Utilities L_Euler L_Tensor L_ArrayModel L_ArrayModel2 L_ArrayModel3.
Local Open Scope string_scope.
Local Open Scope list_scope.

Lemma holds_chop c objs : forall arrays flat, array_data c objs arrays flat ->
  length flat = total (shapes_of c objs) /\ chop (shapes_of c objs) flat = arrays /\ length arrays = length objs.
Proof.
  intros arrays flat (F & ->). induction F as [|o a objs arrays (W & S) F (L & C & N)]; [repeat split|]. cbn [map List.concat]. rewrite total_cons, app_length.
  assert (E : length (adata a) = n_elements c o) by (rewrite W; unfold fits in S; now rewrite S). split; [now rewrite E, L|]. split; [|cbn [length]; now rewrite N].
  cbn [shapes_of map chop]. change (prodn (shape_of c o)) with (n_elements c o). rewrite <- E, firstn_app, skipn_app, Nat.sub_diag, firstn_all, skipn_all. cbn [firstn skipn app]. rewrite app_nil_r.
  fold (shapes_of c objs). rewrite C. f_equal. destruct a as [s d]. unfold fits in S. cbn in *. now subst s.
Qed.
Lemma elements_chop c objs arrays flat : array_data c objs arrays flat -> elements arrays = flat.
Proof. intros (_ & ->). reflexivity. Qed.
Lemma holds_shapes c objs arrays flat : array_data c objs arrays flat -> map ashape arrays = shapes_of c objs.
Proof. intros (F & _). induction F as [|o a objs arrays (_ & S) F IH]; [reflexivity|]. cbn [map shapes_of]. unfold fits in S. rewrite S. f_equal. exact IH. Qed.
Lemma op_call_ok {W} (f : list (arr R) -> res W) args : forall shapes, map ashape args = shapes -> op_call shapes f args = f args.
Proof.
  intros shapes <-. unfold op_call. rewrite map_length, Nat.eqb_refl. cbn [negb]. replace (forallb _ _) with true; [reflexivity|]. symmetry. apply forallb_forall.
  intros (s & a) I. cbn [fst snd]. destruct (list_eq_dec Nat.eq_dec s (ashape a)) as [|N]; [reflexivity|]. exfalso. apply N. clear - I. induction args as [|b args IH]; [destruct I|]. destruct I as [I|I]; [congruence|auto].
Qed.

Lemma c107_ops__p :
  forall number_op partial c vars params equations names rs theta res x xs thetas,
    array_model number_op c vars params equations names rs theta res -> exact_partial partial ->
    array_data c vars xs x -> array_data c params thetas theta -> all_defined c (vars ++ params) rs (x ++ theta) -> 0 < n_residuals c rs ->
    exists f_model f_jac, compile_cge_model_to_pytensor_Op number_op partial c vars params equations names = Ok (f_model, f_jac) /\
      f_model (xs ++ thetas) = Ok (res x) /\
      exists jac, f_jac (xs ++ thetas) = Ok jac /\ ashape jac = [n_residuals c rs; length x] /\
        forall k d, k < length x -> residual_partials c vars params rs theta res x k d ->
        forall r, r < n_residuals c rs -> aget jac [r; k] = Ok (d r).
Proof.
  intros number_op partial c vars params equations names rs theta res x xs thetas M EP Hx Ht D Hn.
  destruct (holds_chop Hx) as (Lx & Cx & Nx). destruct (holds_chop Ht) as (Lt & Ct & Nt).
  unfold compile_cge_model_to_pytensor_Op. rewrite (proj2 (declared_vars M)), (proj2 (declared_params M)). cbn [bind]. eexists _, _. split; [reflexivity|].
  assert (S : map ashape (xs ++ thetas) = shapes_of c vars ++ shapes_of c params) by (rewrite map_app, (holds_shapes Hx), (holds_shapes Ht); reflexivity).
  rewrite !op_call_ok by exact S. assert (Le : length x = elements_of c vars) by now rewrite total_elements.
  destruct (@sys_ok number_op c vars params equations names rs theta res M x Le D) as (E & Ln). split.
  - rewrite <- E. unfold f_sys_wrapped. rewrite (proj2 (declared_vars M)), (proj2 (declared_params M)). cbn [bind]. rewrite !ragged_chop0 by assumption. cbn [bind]. now rewrite Cx, Ct.
  - rewrite <- Nx, firstn_app, skipn_app, Nat.sub_diag, firstn_all, skipn_all. cbn [firstn skipn app]. rewrite app_nil_r, (elements_chop Hx), (elements_chop Ht).
    rewrite <- Ln in *. destruct (@pytensor_jacobian_ok number_op partial c vars params equations names rs theta res M _ _ x Le E Hn) as (a & Ea & Sa & H). exists a. split; [exact Ea|]. split; [exact Sa|].
    intros k d K P r Hr. rewrite H by assumption. f_equal. apply jacobian_entry with (1 := M) (2 := EP); auto. now rewrite <- Ln.
Qed.

Lemma map_shapes_length c objs shapes : map_res (object_shape c) objs = Ok shapes -> length shapes = length objs.
Proof. revert shapes. induction objs as [|o objs IH]; intros shapes H; cbn in H; [now inversion H|]. destruct (object_shape c o); [|discriminate]. cbn in H. destruct (map_res _ objs); [|discriminate]. inversion H; subst. cbn. now rewrite (IH _ eq_refl). Qed.
Lemma op_call_shape {W} (f : list (arr R) -> res W) shapes args k a s : length args = length shapes -> nth_error args k = Some a -> nth_error shapes k = Some s -> ashape a <> s ->
  op_call shapes f args = Err TypeError.
Proof.
  intros L Ea Es N. unfold op_call. rewrite L, Nat.eqb_refl. cbn [negb]. replace (forallb _ _) with false; [reflexivity|]. symmetry. clear L.
  revert args k Ea Es. induction shapes as [|s' shapes IH]; intros [|a' args] [|k] Ea Es; try discriminate; cbn [combine forallb fst snd].
  - cbn in Ea, Es. injection Ea as ->. injection Es as ->. destruct (list_eq_dec Nat.eq_dec s (ashape a)); [congruence|reflexivity].
  - cbn in Ea, Es. rewrite (IH args k Ea Es). now destruct (list_eq_dec _ _ _).
Qed.
Lemma c107_refused__p :
  forall number_op partial c vars params equations names f_model f_jac args,
    well_declared c (vars ++ params) ->
    compile_cge_model_to_pytensor_Op number_op partial c vars params equations names = Ok (f_model, f_jac) ->
    (length args <> length (vars ++ params) -> f_model args = Err ValueError /\ f_jac args = Err ValueError) /\
    (forall k a o, length args = length (vars ++ params) -> nth_error args k = Some a -> nth_error (vars ++ params) k = Some o -> ~ fits c o a ->
      f_model args = Err TypeError /\ f_jac args = Err TypeError).
Proof.
  intros number_op partial c vars params equations names f_model f_jac args (_ & D) H. unfold compile_cge_model_to_pytensor_Op in H.
  rewrite (proj2 (@shapes_declared c vars (fun o d I => D o d (in_or_app _ _ _ (or_introl I))))) in H. rewrite (proj2 (@shapes_declared c params (fun o d I => D o d (in_or_app _ _ _ (or_intror I))))) in H. cbn [bind] in H.
  inversion H as [[Hm Hj]]. clear H Hm Hj. assert (S : shapes_of c vars ++ shapes_of c params = shapes_of c (vars ++ params)) by (unfold shapes_of; now rewrite map_app). rewrite S. split.
  - intros L. unfold op_call, shapes_of at 1 3. rewrite map_length. apply Nat.eqb_neq in L. rewrite L. now split.
  - intros k a o L Ea Eo N. assert (Es : nth_error (shapes_of c (vars ++ params)) k = Some (shape_of c o)) by (unfold shapes_of; now rewrite nth_error_map, Eo).
    assert (LS : length args = length (shapes_of c (vars ++ params))) by (unfold shapes_of; now rewrite map_length). split; eapply op_call_shape; eassumption.
Qed.

Lemma append_suffix_inj s : forall a b : string, (a ++ s = b ++ s)%string -> a = b.
Proof.
  intros a b H. assert (L : String.length a = String.length b).
  { assert (X : forall u v, String.length (u ++ v) = String.length u + String.length v) by (induction u as [|ch u IH]; intros v; cbn; [reflexivity|now rewrite IH]).
    pose proof (f_equal String.length H) as Y. rewrite !X in Y. lia. }
  revert b H L. induction a as [|ch a IH]; intros [|ch' b] H L; try discriminate; [reflexivity|]. cbn in H, L. injection H as -> H. f_equal. apply IH; [exact H|lia].
Qed.
Lemma c107_clones__p :
  forall xs suffix,
    let clones := map (fun x => clone_and_rename x suffix) xs in
    map t_shape clones = map t_shape xs /\ map t_name clones = map (fun x => (t_name x ++ suffix)%string) xs /\
    (NoDup (map t_name xs) -> NoDup (map t_name clones)).
Proof.
  intros xs suffix clones. unfold clones. rewrite !map_map. split; [reflexivity|]. split; [reflexivity|]. intros N. cbn [clone_and_rename t_name].
  rewrite <- map_map with (g := fun n => (n ++ suffix)%string). apply FinFun.Injective_map_NoDup; [|exact N]. intros a b. apply append_suffix_inj.
Qed.
Lemma c107_clash_refuted__p :
  exists xs suffix, NoDup (map t_name xs) /\ ~ NoDup (map t_name (xs ++ map (fun x => clone_and_rename x suffix) xs)).
Proof.
  exists [MkTensor "a" []; MkTensor "a_initial" []], "_initial". split.
  - repeat constructor; cbn; intuition discriminate.
  - intros N. cbn in N. inversion N as [|? ? _ N1]; subst. inversion N1 as [|? ? N2 _]; subst. apply N2. now left.
Qed.
