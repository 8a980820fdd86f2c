(** Lemmas for C75-C77, continued. *)
From Coq Require Import Reals Lra.
From Verif Require Import Py PyStr NdArray M_Primitives M_Utilities M_Expand M_SymExpr M_Calculus M_Euler M_Jacobian.
From Verif Require Import S_Layout S_Markers S_Expand S_Jacobian L_Utilities L_Layout L_Markers L_Expand L_Expand2 L_Unpacked L_Euler L_Jacobian.
Local Open Scope nat_scope.
Local Open Scope list_scope.

Lemma expanded_sizes order c objs shapes uss :
  (forall o, In o objs -> NoDup (o_dims o) /\ o_dim_vals o = []) ->
  Forall2 (has_shape c) objs shapes ->
  Forall2 (fun o us => expand_obj_by_indices order o c None Ignore = Ok us) objs uss ->
  map (@length _) uss = map prodn shapes.
Proof.
  intros Hw HS. revert uss. induction HS as [|o s objs shapes Hs HS IH]; intros uss F; inversion F as [|? us ? uss' Hus F']; subst; [reflexivity|].
  cbn [map]. f_equal; [|apply IH; auto; intros; apply Hw; simpl; auto].
  destruct (Hw o (or_introl eq_refl)) as (A & B).
  destruct (expand_names order A B Hs) as (us' & lss & E1 & L & _). rewrite Hus in E1. injection E1 as ->. exact L.
Qed.

Lemma Forall2_nth_r {A B} (P : A -> B -> Prop) l1 l2 j x : Forall2 P l1 l2 -> nth_error l1 j = Some x ->
  exists y, nth_error l2 j = Some y /\ P x y.
Proof.
  intros F. revert j. induction F as [|a b l1 l2 H F IH]; intros [|j] Hj; simpl in *; try discriminate.
  - injection Hj as <-. eauto.
  - eauto.
Qed.

Lemma unpacked_position order c objs shapes us :
  (forall o, In o objs -> NoDup (o_dims o) /\ o_dim_vals o = []) ->
  Forall2 (has_shape c) objs shapes -> unpack_objects order objs c = Ok us ->
  length us = total shapes /\
  forall j o idx, nth_error objs j = Some o -> is_element shapes j idx ->
  exists ls u, labels_at c (o_dims o) idx ls /\ nth_error us (position shapes j idx) = Some u /\
               make_indexed_name u = join "_" (o_name o :: map str_label ls).
Proof.
  intros Hw HS Hu. destruct (@unpack_objects_ok order c objs shapes Hw HS) as (uss & E & F).
  rewrite Hu in E. injection E as ->.
  pose proof (@expanded_sizes order c objs shapes uss Hw HS F) as Sz.
  split. { rewrite concat_length_, Sz. reflexivity. }
  intros j o idx Hj (Hl & Hr).
  destruct (@Forall2_nth_r _ _ _ _ _ j o HS Hj) as (s & Hs & HSs). destruct (@Forall2_nth_r _ _ _ _ _ j o F Hj) as (us & Hus & Eus).
  destruct (Hw o (nth_error_In _ _ Hj)) as (A & B).
  unfold position. rewrite (nth_error_nth _ _ [] Hs) in *.
  destruct (@c11_enumerates__p order c o Ignore s A B HSs) as (us' & E1 & L1 & H1).
  rewrite Eus in E1. injection E1 as <-.
  destruct (H1 idx Hr) as (ls & u & LA & Hn & DV & SA).
  exists ls, u. split; [exact LA|]. split.
  - unfold total. rewrite <- firstn_map, <- Sz, firstn_map.
    rewrite nth_error_concat with (l := us); auto. rewrite L1. now apply offset_lt.
  - unfold make_indexed_name. destruct SA as (_ & -> & _). rewrite DV, dvals_combine; auto.
    destruct LA as (LA & LB). apply Forall2_length in LA. rewrite combine_length in LA. lia.
Qed.

Lemma c75_numba__p :
  forall (order : list string -> list string) (c : coords) (objs us : list mobj) (shapes : list (list nat)) (eqs : list sexpr),
  (forall o, In o objs -> NoDup (o_dims o) /\ o_dim_vals o = []) ->
  Forall2 (has_shape c) objs shapes ->
  unpack_objects order objs c = Ok us -> us <> [] -> NoDup (map make_indexed_name us) -> eqs <> [] ->
  exists g m, unpack_group order objs c = Ok g /\ make_sympy_jacobian (SysList eqs) (dkeys g) = Ok m /\ length m = length eqs /\
    (forall e eq row, nth_error eqs e = Some eq -> nth_error m e = Some row -> length row = total shapes /\
       forall j o idx, nth_error objs j = Some o -> is_element shapes j idx ->
       exists ls, labels_at c (o_dims o) idx ls /\
                  nth_error row (position shapes j idx) = Some (diff (join "_" (o_name o :: map str_label ls)) eq)).
Proof.
  intros order c objs us shapes eqs Hw HS Hu Hne Hnd Heq.
  destruct (@unpacked_position order c objs shapes us Hw HS Hu) as (Hl & Hp).
  unfold unpack_group. rewrite Hu. cbn [bind].
  exists (combine (map make_indexed_name us) us).
  exists (map (fun e => map (fun x => diff x e) (map make_indexed_name us)) eqs).
  split. { f_equal. apply dict_of_list_NoDup. rewrite map_fst_combine; auto. now rewrite map_length. }
  split.
  { unfold dkeys. rewrite map_fst_combine by (now rewrite map_length).
    unfold make_sympy_jacobian, as_vector. destruct eqs; [congruence|]. cbn [bind].
    destruct us; [congruence|]. reflexivity. }
  split; [apply map_length|].
  intros e eq row He Hrow. rewrite nth_error_map, He in Hrow. injection Hrow as <-.
  split; [now rewrite !map_length|]. intros j o idx Hj Hi.
  destruct (Hp j o idx Hj Hi) as (ls & u & LA & Hn & EN). exists ls. split; [exact LA|].
  rewrite !nth_error_map, Hn. cbn [option_map]. now rewrite EN.
Qed.

Lemma c75_backends_agree__p :
  forall (V : Type) (value : sexpr -> V) (D : nat -> nat -> list nat -> V) (order : list string -> list string) (c : coords)
         (objs us : list mobj) (shapes : list (list nat)) (eqs : list sexpr),
  (forall o, In o objs -> NoDup (o_dims o) /\ o_dim_vals o = []) ->
  Forall2 (has_shape c) objs shapes ->
  unpack_objects order objs c = Ok us -> us <> [] -> NoDup (map make_indexed_name us) -> eqs <> [] ->
  (** both differentiate correctly: the derivative of equation e in an element of an
      array is the derivative in the symbol of that element *)
  (forall e eq j o idx ls, nth_error eqs e = Some eq -> nth_error objs j = Some o -> labels_at c (o_dims o) idx ls ->
     D e j idx = value (diff (join "_" (o_name o :: map str_label ls)) eq)) ->
  exists a g m, make_jacobian D (length eqs) shapes = Ok a /\
    unpack_group order objs c = Ok g /\ make_sympy_jacobian (SysList eqs) (dkeys g) = Ok m /\
    forall e row k d, nth_error m e = Some row -> nth_error row k = Some d -> aget a [e; k] = Ok (value d).
Proof.
  intros V value D order c objs us shapes eqs Hw HS Hu Hne Hnd Heq HD.
  destruct (@c75_numba__p order c objs us shapes eqs Hw HS Hu Hne Hnd Heq) as (g & m & Hg & Hm & Lm & H).
  destruct (@unpacked_position order c objs shapes us Hw HS Hu) as (Hl & _).
  assert (Hs : shapes <> []). { intros ->. destruct us; [congruence|discriminate]. }
  assert (Hn : 0 < length eqs) by (destruct eqs; [congruence|simpl; lia]).
  destruct (@c75_jacobian__p V D (length eqs) shapes Hs Hn) as (a & Ha & _ & _ & Hpos & Hbij).
  exists a, g, m. split; [exact Ha|]. split; [exact Hg|]. split; [exact Hm|].
  intros e row k d Hrow Hk.
  assert (He : e < length eqs). { rewrite <- Lm. apply nth_error_Some. congruence. }
  destruct (nth_error eqs e) as [eq|] eqn:Ee; [|apply nth_error_None in Ee; lia].
  destruct (H e eq row Ee Hrow) as (Lr & Hr).
  assert (Hk' : k < total shapes). { rewrite <- Lr. apply nth_error_Some. congruence. }
  destruct (Hbij k Hk') as ((j & idx) & (Hi & Hpk) & _). cbn [fst snd] in *.
  destruct (nth_error objs j) as [o|] eqn:Ej.
  2:{ apply nth_error_None in Ej. destruct Hi as (Hj & _). apply Forall2_length in HS. lia. }
  destruct (Hr j o idx Ej Hi) as (ls & LA & Hd). rewrite Hpk, Hk in Hd. injection Hd as ->.
  destruct (Hpos e j idx He Hi) as (_ & Hget). rewrite Hpk in Hget. rewrite Hget. f_equal. eapply HD; eauto.
Qed.

(** ** Products *)
Local Open Scope R_scope.

Lemma dot_app a a' b b' : length a = length b -> dot (a ++ a') (b ++ b') = dot a b + dot a' b'.
Proof.
  intros H. unfold dot. rewrite vmap2_app by auto. induction (vmap2 Rmult a b) as [|x l IH]; simpl; lra.
Qed.

Lemma rop_row (D : nat -> nat -> list nat -> R) e (vs : list (arr R)) : Forall (fun a => arr_wf a) vs ->
  forall j, fold_right Rplus 0 (map (fun jv => dot (map (D e (fst jv)) (ndindex (ashape (snd jv)))) (adata (snd jv)))
                              (combine (seq j (length vs)) vs))
  = dot (jrow D e j (map (@ashape R) vs)) (List.concat (map (@adata R) vs)).
Proof.
  induction 1 as [|a vs W F IH]; intros j; [reflexivity|].
  unfold jrow. cbn [length seq combine map fold_right fst snd List.concat].
  rewrite dot_app by (rewrite map_length, ndindex_length; symmetry; exact W).
  f_equal. rewrite IH. unfold jrow. now rewrite !map_length.
Qed.

Lemma rop_matrix (D : nat -> nat -> list nat -> R) n (vs : list (arr R)) : Forall (fun a => arr_wf a) vs ->
  rop D n vs = mv (map (fun e => jrow D e 0 (map (@ashape R) vs)) (seq 0 n)) (List.concat (map (@adata R) vs)).
Proof.
  intros F. unfold rop, mv. rewrite map_map. apply map_ext. intros e. exact (rop_row D e F 0).
Qed.

Lemma flatten_ok (vs : list (arr R)) : vs <> [] -> Forall (fun a => arr_wf a) vs ->
  flatten_equations vs = Ok (List.concat (map (@adata R) vs)).
Proof.
  intros Hv F. unfold flatten_equations, concat_arrays. destruct vs as [|v vs'] eqn:E; [congruence|]. rewrite <- E in *.
  cbn [bind]. rewrite (total_arrays F). unfold total. rewrite map_map, Nat.eqb_refl. reflexivity.
Qed.

Lemma step_product_rows b D n sp vs : sp <> [] -> (0 < n)%nat -> map (@ashape R) vs = sp -> Forall (fun a => arr_wf a) vs ->
  step_product b D n sp vs = Ok (mv (map (fun e => jrow D e 0 sp) (seq 0 n)) (List.concat (map (@adata R) vs))).
Proof.
  intros Hs Hn E F. unfold step_product. rewrite make_jacobian_rows by auto. cbn [bind]. destruct b.
  - rewrite rop_matrix by auto. now rewrite E.
  - rewrite flatten_ok; auto; [|intros Z; rewrite Z in E; simpl in E; congruence]. cbn [bind].
    now rewrite rows_concat; [|rewrite map_length, seq_length|apply jrows_uniform].
Qed.

Lemma adata_elems (a : arr R) : arr_wf a -> adata a = map (elem a) (ndindex (ashape a)).
Proof.
  intros W. apply list_ext. intros k. rewrite nth_error_map.
  destruct (nth_error (ndindex (ashape a)) k) as [idx|] eqn:E.
  - apply offset_nth_ndindex in E as (Hr & <-). cbn [option_map]. unfold elem, aget.
    pose proof (offset_lt Hr) as Ho. apply in_rangeb_spec in Hr. rewrite Hr.
    destruct (nth_error (adata a) (offset (ashape a) idx)) eqn:G; [reflexivity|].
    apply nth_error_None in G. unfold arr_wf in W. lia.
  - apply nth_error_None in E. rewrite ndindex_length in E. apply nth_error_None. unfold arr_wf in W. lia.
Qed.

Lemma dot_maps {A} (f g : A -> R) l : dot (map f l) (map g l) = sum_of (map (fun x => f x * g x) l).
Proof. unfold dot, vmap2. induction l as [|x l IH]; [reflexivity|]. simpl. now rewrite IH. Qed.

Lemma first_order_row D e (dx : list (arr R)) : Forall (fun a => arr_wf a) dx ->
  first_order D e dx = dot (jrow D e 0 (map (@ashape R) dx)) (List.concat (map (@adata R) dx)).
Proof.
  intros F. unfold first_order.
  assert (G : forall pre, sum_elements (fun j idx => D e j idx * elem (nth j (pre ++ dx) (mkArr [] [])) idx) (length pre) (map (@ashape R) dx)
              = dot (jrow D e (length pre) (map (@ashape R) dx)) (List.concat (map (@adata R) dx))).
  { induction F as [|a dx W F IH]; intros pre; [reflexivity|].
    unfold jrow. cbn [length seq combine map fst snd List.concat sum_elements].
    rewrite dot_app by (rewrite map_length, ndindex_length; symmetry; exact W). f_equal.
    - rewrite (adata_elems W), dot_maps. f_equal. apply map_ext. intros idx. rewrite app_nth2, Nat.sub_diag by lia. reflexivity.
    - specialize (IH (pre ++ [a])). rewrite <- app_assoc in IH. cbn [app] in IH.
      rewrite app_length in IH. cbn [length] in IH. rewrite Nat.add_1_r in IH. exact IH. }
  exact (G []).
Qed.

Lemma c76_step_product__p :
  forall (DP : nat -> nat -> list nat -> R) (n_eq : nat) (sp : list (list nat)) (step : list (arr R)),
  sp <> [] -> (0 < n_eq)%nat -> map (@ashape R) step = sp -> Forall (fun a => arr_wf a) step ->
  exists bv, step_product true DP n_eq sp step = Ok bv /\ step_product false DP n_eq sp step = Ok bv /\
    length bv = n_eq /\ forall e, (e < n_eq)%nat -> nth_error bv e = Some (first_order DP e step).
Proof.
  intros DP n sp step Hs Hn E F. rewrite !step_product_rows by auto. eexists. split; [reflexivity|]. split; [reflexivity|].
  unfold mv. split; [now rewrite !map_length, seq_length|]. intros e He. rewrite map_map, nth_error_map_seq by auto.
  rewrite first_order_row by auto. now rewrite E.
Qed.

Lemma dot_neg row x : dot row (vneg x) = - dot row x.
Proof.
  unfold dot, vmap2, vneg. revert x. induction row as [|a row IH]; intros [|b x]; simpl; try lra. rewrite IH. lra.
Qed.

Lemma dot_sum row x : dot row x = sum_of (map (fun p => fst p * snd p) (combine row x)).
Proof. unfold dot, vmap2. induction (map _ (combine row x)) as [|a l IH]; simpl; congruence. Qed.

Lemma chop_wf {V} shapes (x : list V) : length x = total shapes -> Forall (fun a => arr_wf a) (chop shapes x).
Proof.
  revert x. induction shapes as [|s shapes IH]; intros x H; constructor.
  - unfold arr_wf. cbn [adata ashape]. unfold total in H. simpl in H. rewrite firstn_length. lia.
  - apply IH. unfold total in *. simpl in H. rewrite skipn_length. lia.
Qed.

Lemma c77_linearised__p :
  forall (has_rop : bool) (solve : list (list R) -> list R -> list R) (D DP : nat -> nat -> list nat -> R) (n_eq : nat)
         (sv sp : list (list nat)) (step : list (arr R)),
  sv <> [] -> sp <> [] -> (0 < n_eq)%nat -> map (@ashape R) step = sp -> Forall (fun a => arr_wf a) step ->
  (forall A, make_jacobian D n_eq sv = Ok A -> solver_for solve (rows A) n_eq (total sv)) ->
  exists delta, euler_delta has_rop solve D DP n_eq sv sp step = Ok delta /\
    map (@ashape R) delta = sv /\ Forall (fun a => arr_wf a) delta /\
    forall e, (e < n_eq)%nat -> (first_order D e delta + first_order DP e step = 0)%R.
Proof.
  intros b solve D DP n sv sp step Hv Hs Hn E F HS. unfold euler_delta.
  rewrite step_product_rows by auto.
  specialize (HS _ (make_jacobian_rows D Hv Hn)). rewrite make_jacobian_rows by auto. cbn [bind].
  rewrite rows_concat in *; try apply jrows_uniform; try (now rewrite map_length, seq_length).
  set (A := map (fun e => jrow D e 0 sv) (seq 0 n)) in *.
  set (Bv := mv (map (fun e => jrow DP e 0 sp) (seq 0 n)) (List.concat (map (@adata R) step))) in *.
  assert (LB : length Bv = n) by (unfold Bv, mv; now rewrite !map_length, seq_length).
  destruct (HS Bv LB) as (Lx & Ex).
  assert (Ln : length (vneg (solve A Bv)) = total sv) by (now rewrite vneg_length).
  exists (chop sv (vneg (solve A Bv))). split; [now apply ragged_chop0|]. split; [apply chop_shapes|]. split; [now apply chop_wf|].
  intros e He. rewrite !first_order_row by (auto using chop_wf). rewrite chop_shapes, chop_concat, E by auto.
  rewrite dot_neg, dot_sum.
  assert (N : nth_error Bv e = Some (dot (jrow DP e 0 sp) (List.concat (map (@adata R) step)))).
  { unfold Bv, mv. now rewrite map_map, nth_error_map_seq. }
  rewrite <- Ex in N. unfold A in N at 2. rewrite map_map, nth_error_map_seq in N by auto. injection N as N. rewrite N. lra.
Qed.

Lemma positions_seq shapes : jrow (fun _ => position shapes) 0 0 shapes = seq 0 (total shapes).
Proof.
  apply list_ext. intros k. destruct (Nat.lt_ge_cases k (total shapes)) as [H|H].
  - destruct (positions_bijective shapes H) as ((j & idx) & (Hi & Hp) & _). cbn [fst snd] in *.
    pose proof (chunks_position (position shapes) Hi) as P. rewrite Hp in P.
    unfold jrow. fold (numbered shapes). rewrite P.
    rewrite nth_error_nth' with (d := 0%nat) by (now rewrite seq_length). now rewrite seq_nth.
  - rewrite !(proj2 (nth_error_None _ _)); auto; [now rewrite seq_length|now rewrite jrow_length].
Qed.

Lemma sum_elements_ext f g shapes : forall j,
  (forall i idx, (i < length shapes)%nat -> in_range (nth i shapes []) idx -> f (j + i)%nat idx = g (j + i)%nat idx) ->
  sum_elements f j shapes = sum_elements g j shapes.
Proof.
  induction shapes as [|s shapes IH]; intros j H; [reflexivity|]. cbn [sum_elements]. f_equal.
  - f_equal. apply map_ext_in. intros idx Hi. apply in_ndindex in Hi.
    specialize (H 0%nat idx). rewrite Nat.add_0_r in H. apply H; simpl; auto. lia.
  - apply IH. intros i idx Hi Hr. specialize (H (S i) idx). rewrite Nat.add_succ_r in H. apply H; simpl; auto. lia.
Qed.

Lemma c76_hessp__p :
  forall (D : nat -> nat -> list nat -> R) (shapes : list (list nat)) (points : list (arr R)),
  shapes <> [] -> (0 < total shapes)%nat -> map (@ashape R) points = shapes -> Forall (fun a => arr_wf a) points ->
  exists H h, make_jacobian D (total shapes) shapes = Ok H /\ make_jvp D (total shapes) shapes None points = Ok h /\
    length h = total shapes /\
    (forall k, (k < total shapes)%nat ->
       nth_error h k = Some (sum_elements (fun j idx => (elem H [position shapes j idx; k] * elem (nth j points (mkArr [] [])) idx)%R)
                                          0 shapes)).
Proof.
  intros D shapes points Hs Hn E F.
  destruct (@c75_jacobian__p R D (total shapes) shapes Hs Hn) as (H & HJ & _ & _ & Hpos & Hbij).
  set (p := List.concat (map (@adata R) points)).
  assert (Lp : length p = total shapes) by (unfold p; rewrite total_arrays, E; auto).
  set (G := fun j idx => dot (map (fun m => D m j idx) (seq 0 (length p))) p).
  exists H, (jrow (fun _ => G) 0 0 shapes). split; [exact HJ|]. split; [|split; [apply jrow_length|]].
  - assert (CA : concat_arrays points = Ok p).
    { unfold concat_arrays, p. destruct points; [simpl in E; congruence|reflexivity]. }
    unfold make_jvp. rewrite CA. cbn [bind]. rewrite Lp, Nat.eqb_refl. cbn [negb].
    assert (EJ : List.concat (map (fun js => jvp_chunk D p (fst js) (snd js)) (numbered shapes)) = jrow (fun _ => G) 0 0 shapes).
    { unfold jrow, numbered, jvp_chunk, G. reflexivity. }
    rewrite EJ, jrow_length, Nat.eqb_refl. cbn [negb]. destruct shapes; [congruence|reflexivity].
  - intros k Hk. destruct (Hbij k Hk) as ((j & idx) & (Hi & Hp) & _). cbn [fst snd] in *.
    pose proof (chunks_position G Hi) as P. rewrite Hp in P. unfold jrow. fold (numbered shapes). rewrite P. f_equal.
    set (D' := fun (_ : nat) j' idx' => D (position shapes j' idx') j idx).
    transitivity (first_order D' 0 points).
    + rewrite first_order_row, E by auto. fold p. unfold G. f_equal. rewrite Lp, <- positions_seq.
      unfold D', jrow. rewrite concat_map, map_map. f_equal. apply map_ext. intros js. now rewrite map_map.
    + unfold first_order. rewrite E. apply sum_elements_ext. intros i idx' Hi' Hr'. cbn [Nat.add].
      f_equal. unfold D', elem. assert (Hel : is_element shapes i idx') by (split; auto).
      pose proof (position_lt Hel) as Hlt. destruct (Hpos (position shapes i idx') j idx Hlt Hi) as (_ & Hget).
      rewrite Hp in Hget. now rewrite Hget.
Qed.

Lemma c76_symmetric__p :
  forall (D : nat -> nat -> list nat -> R) (shapes : list (list nat)) (points : list (arr R)),
  shapes <> [] -> (0 < total shapes)%nat -> map (@ashape R) points = shapes -> Forall (fun a => arr_wf a) points ->
  (** second derivatives do not depend on the order of differentiation *)
  (forall j idx j' idx', is_element shapes j idx -> is_element shapes j' idx' ->
     D (position shapes j idx) j' idx' = D (position shapes j' idx') j idx) ->
  exists h, make_jvp D (total shapes) shapes None points = Ok h /\ length h = total shapes /\
    forall k, (k < total shapes)%nat -> nth_error h k = Some (first_order D k points).
Proof.
  intros D shapes points Hs Hn E F Hsym.
  destruct (@c76_hessp__p D shapes points Hs Hn E F) as (H & h & HJ & Hh & Lh & Hk).
  destruct (@c75_jacobian__p R D (total shapes) shapes Hs Hn) as (H' & HJ' & _ & _ & Hpos & Hbij).
  rewrite HJ in HJ'. injection HJ' as <-.
  exists h. split; [exact Hh|]. split; [exact Lh|]. intros k Hlt. rewrite (Hk k Hlt). f_equal.
  destruct (Hbij k Hlt) as ((j & idx) & (Hi & Hp) & _). cbn [fst snd] in *.
  unfold first_order. rewrite E. apply sum_elements_ext. intros i idx' Hi' Hr'. cbn [Nat.add]. f_equal.
  assert (Hel : is_element shapes i idx') by (split; auto).
  destruct (Hpos (position shapes i idx') j idx (position_lt Hel) Hi) as (_ & Hget). rewrite Hp in Hget.
  unfold elem. rewrite Hget. rewrite (Hsym i idx' j idx Hel Hi). now rewrite Hp.
Qed.

Lemma c76_given_direction_refuted__p :
  forall (D : nat -> nat -> list nat -> R) (n_eq : nat) (shapes : list (list nat)) (p : list R) (points : list (arr R)),
  exists err, make_jvp D n_eq shapes (Some p) points = Err err /\
              (shapes <> [] -> n_eq = total shapes -> length p = n_eq -> err = NameError).
Proof.
  intros D n shapes p points. unfold make_jvp. cbn [bind].
  destruct (Nat.eqb_spec (length p) n) as [E|E]; cbn [negb]; [|eexists; split; [reflexivity|congruence]].
  destruct shapes as [|s0 shapes0] eqn:Es; [eexists; split; [reflexivity|congruence]|]. rewrite <- Es. 
  assert (EJ : length (List.concat (map (fun js => jvp_chunk D p (fst js) (snd js)) (numbered shapes))) = total shapes).
  { exact (jrow_length (fun _ j idx => dot (map (fun m => D m j idx) (seq 0 (length p))) p) 0 shapes 0). }
  rewrite EJ. destruct (Nat.eqb_spec (total shapes) n); cbn [negb]; eexists; (split; [reflexivity|]); intros; congruence.
Qed.
