(** C85: the sympytensor functions and the written equations. *)
From Coq Require Import Reals Lra.
From Verif Require Import Py PyStr NdArray M_Primitives M_Utilities M_Expand M_Equations M_Registry M_Graph M_SymExpr M_Calculus M_Simplify M_Lambdify M_NumbaModel M_SympyTensor.
From Verif Require Import S_Layout S_Markers S_Expand S_Calculus S_Reduce S_Simplify S_Lambdify S_NumbaModel S_SympyTensor.
From Verif Require Import L_Utilities L_Layout L_Markers L_Unpacked L_Expand L_Reduce L_Simplify L_Simplify2 L_Calculus L_Calculus2 L_Lambdify L_NumbaStep L_Lambdify2 L_Graph L_NumbaModel L_Tensor2.
Local Open Scope string_scope.
Local Open Scope list_scope.

(** * Printed graphs *)
Lemma graph_numval d replace point st p e : no_reduction e -> (forall s, In s (atoms e) -> packed_value d replace s = Ok (st s)) ->
  (forall b l, In (b, l) (indexed_exprs e) -> exists i, l = [IPos i] /\ nth_error point i = Some (p b l)) ->
  graph_value d replace point e = Ok (numval st p e).
Proof.
  induction e; cbn [no_reduction atoms indexed_exprs graph_value numval]; intros N A I.
  - reflexivity.
  - apply A. now left.
  - destruct (I base ixs (or_introl eq_refl)) as (i & -> & E). now rewrite E.
  - destruct N as (N1 & N2).
    assert (E1 : graph_value d replace point e1 = Ok (numval st p e1)) by (apply IHe1; [exact N1|intros s Hs; apply A, in_or_app; now left|intros b l Hb; apply I, in_or_app; now left]).
    assert (E2 : graph_value d replace point e2 = Ok (numval st p e2)) by (apply IHe2; [exact N2|intros s Hs; apply A, in_or_app; now right|intros b l Hb; apply I, in_or_app; now right]).
    rewrite E1. cbn [bind]. rewrite E2. cbn [bind]. destruct o; reflexivity.
  - destruct f; rewrite IHe by auto; reflexivity.
  - destruct N.
Qed.
Lemma graph_closed d replace point st p names e : closed_in names e -> (forall s, In s (atoms e) -> packed_value d replace s = Ok (st s)) ->
  graph_value d replace point e = Ok (numval st p e).
Proof. intros (A & B & C) H. apply graph_numval; auto. rewrite B. easy. Qed.

Lemma printed_In es s : In s (printed_symbols es) <-> exists e, In e es /\ In s (atoms e).
Proof.
  unfold printed_symbols. rewrite dget_Some_key. split.
  - intros (u & H). rewrite dget_dict_of_list in H. apply dget_In, in_rev, in_map_iff in H as (s' & E & H). injection E as ->. now apply in_flat_map in H.
  - intros H. rewrite dget_dict_of_list. apply dget_Some_key. unfold dkeys. rewrite map_rev, <- in_rev, map_map. cbn. rewrite map_id. now apply in_flat_map.
Qed.
Lemma printed_NoDup es : NoDup (printed_symbols es). Proof. apply NoDup_dict_of_list. Qed.

(** * Calls *)
Lemma call_ok {A} inputs (f : dict (arr R) -> res A) kw : NoDup inputs -> (forall k, In k (dkeys kw) <-> In k inputs) -> call inputs f kw = f kw.
Proof.
  intros N H. unfold call.
  assert (forallb (fun k => Nat.eqb (count_occ string_dec inputs k) 1) (dkeys kw) = true) as ->.
  { apply forallb_forall. intros k Hk. apply Nat.eqb_eq. apply H in Hk. apply (proj1 (count_occ_In string_dec _ _)) in Hk.
    assert (M := proj1 (NoDup_count_occ string_dec inputs) N k). lia. }
  assert (forallb (fun n => mem_str n (dkeys kw)) inputs = true) as ->.
  { apply forallb_forall. intros n Hn. apply mem_str_In. now apply H. }
  reflexivity.
Qed.

(** * What the symbols are replaced by *)
Lemma packed_index_parent m cn n u p i : packed_index m cn n = Ok (p, i) -> get_unpacked_parent_object m n = Ok u -> p = o_base_name u.
Proof.
  unfold packed_index. intros H E. rewrite E in H. cbn [bind] in H. apply bind_ok in H as (j & Hj & H).
  apply (index_of_ok String.eqb String.eqb_eq) in Hj as (Hj & _). rewrite Hj in H. cbn [bind] in H. apply bind_ok in H as (l & _ & H). now injection H as <- _.
Qed.

Section Model.
Variables (sub_into : sexpr -> list string -> bool) (set_order : list sexpr -> list sexpr) (dict_order : list (sexpr * sexpr) -> list (sexpr * sexpr)).
Variables (evaluates : sexpr -> sexpr -> bool) (order : list string -> list string).
Hypothesis (WS : walks_set set_order) (WD : walks_set dict_order).
Variables (c : dict (list string)) (axes : string -> list (list string)) (vars params : list mobj) (equations : list (sexpr * sexpr)).
Variables (uv up : list mobj) (d : dict (arr R)) (v : elements) (w : scalars) (x theta : list R).
Hypothesis (DC : declaration order c vars params uv up) (AR : arguments c vars params d v w x theta).
Let names := map make_indexed_name (uv ++ up).
Let nv := map make_indexed_name uv.
Let np_ := map make_indexed_name up.
Let state := state_of names (x ++ theta).
Let zero : string -> list idx -> R := fun _ _ => 0%R.
Hypothesis (VN : vars <> []) (QN : equations <> []).
Hypothesis EQ : forall lr, In lr equations -> flat_reductions c axes (written lr) /\ has_value c v w lr /\
  exists es, equation_symbols sub_into set_order dict_order evaluates c None (uv ++ up) (fst lr) (snd lr) = Ok es.

Let PL : plain_labels c. Proof. apply DC. Qed.
Let NK : NoDup (dkeys c). Proof. apply DC. Qed.
Let LD : forall i ls, dget i c = Some ls -> NoDup ls. Proof. apply DC. Qed.
Let EV : unpack_objects order vars (lab_coords c) = Ok uv. Proof. apply DC. Qed.
Let EP : unpack_objects order params (lab_coords c) = Ok up. Proof. apply DC. Qed.
Let ND : NoDup names. Proof. apply DC. Qed.
Let NO : NoDup (map o_name (vars ++ params)). Proof. apply DC. Qed.
Let HD : has_data c (vars ++ params) d. Proof. apply AR. Qed.
Let FL : variable_dict_to_flat_array d vars params = Ok (x, theta). Proof. apply AR. Qed.
Let DA : data_of c (vars ++ params) d v w. Proof. apply AR. Qed.

Definition the_model : model := MkModel (lab_coords c) true None [] [] [] (combine nv uv) (combine np_ up) [].
Definition on_names : list string := map o_name (vars ++ params).

Lemma groups : unpack_group order vars (lab_coords c) = Ok (combine nv uv) /\ dvals (combine nv uv) = uv /\
  unpack_group order params (lab_coords c) = Ok (combine np_ up) /\ dvals (combine np_ up) = up /\
  dkeys (combine nv uv) = nv /\ dkeys (combine np_ up) = np_ /\ NoDup nv /\ NoDup np_ /\ forall n, In n nv -> ~ In n np_.
Proof.
  unfold names in ND. rewrite map_app in ND. destruct (NoDup_app_inv _ _ ND) as (N1 & N2 & N3).
  destruct (@unpack_group_ok order vars (lab_coords c) uv EV N1) as (G1 & G2). destruct (@unpack_group_ok order params (lab_coords c) up EP N2) as (G3 & G4).
  repeat split; auto; unfold dkeys, nv, np_; rewrite map_fst_combine; auto; now rewrite map_length.
Qed.

(** the array a scalar belongs to *)
Lemma parent n : In n names -> exists o ls u, In o (vars ++ params) /\ element c (o_dims o) ls /\ n = join "_" (o_name o :: ls) /\
  get_unpacked_parent_object the_model n = Ok u /\ o_base_name u = o_name o.
Proof.
  intros Hn. destruct groups as (_ & _ & _ & _ & K1 & K2 & N1 & N2 & N3).
  assert (UC := proj1 (@unpack_copies order c (vars ++ params) (uv ++ up) (fun o H => proj1 (HD o H)) (@unpack_objects_app order vars params (lab_coords c) uv up EV EP))).
  apply in_map_iff in Hn as (u & <- & Hu). destruct (UC u Hu) as (o & ls & Ho & El & Co). exists o, ls, u.
  destruct (@copy_key c o u ls (proj1 (HD o Ho)) PL El Co) as (_ & Nm). split; [exact Ho|]. split; [exact El|]. split; [exact Nm|].
  assert (B : o_base_name u = o_name o). { destruct Co as ((_ & _ & _ & _ & B & _) & _). rewrite B. now destruct (HD o Ho) as ((_ & _ & ? & _) & _). }
  split; [|exact B].
  assert (CB : forall us, In u us -> In (make_indexed_name u, u) (combine (map make_indexed_name us) us)).
  { clear. induction us as [|a us IH]; [easy|]. intros [->|H]; cbn; auto. }
  unfold get_unpacked_parent_object, the_model. cbn [m_uvars m_upars]. rewrite K1, K2. unfold dgetitem. apply in_app_or in Hu as [Hu|Hu].
  - rewrite (proj2 (mem_str_In _ _)) by (unfold nv; now apply in_map). rewrite (@dget_In_NoDup _ _ _ u); [reflexivity|now rewrite K1|now apply CB].
  - assert (I : In (make_indexed_name u) np_) by (unfold np_; now apply in_map).
    rewrite (proj2 (mem_str_nIn _ _)) by (intros H; exact (N3 _ H I)). rewrite (proj2 (mem_str_In _ _) I).
    rewrite (@dget_In_NoDup _ _ _ u); [reflexivity|now rewrite K2|now apply CB].
Qed.

Lemma nameof o ls : In o (vars ++ params) -> element c (o_dims o) ls -> In (join "_" (o_name o :: ls)) names.
Proof.
  intros Ho El. assert (UC := proj2 (@unpack_copies order c (vars ++ params) (uv ++ up) (fun o H => proj1 (HD o H)) (@unpack_objects_app order vars params (lab_coords c) uv up EV EP))).
  destruct (UC o ls Ho El) as (u & Hu & Co). destruct (@copy_key c o u ls (proj1 (HD o Ho)) PL El Co) as (_ & <-). unfold names. now apply in_map.
Qed.

(** names determine the array *)
Lemma name_array o ls o2 ls2 : In o (vars ++ params) -> element c (o_dims o) ls -> In o2 (vars ++ params) -> element c (o_dims o2) ls2 ->
  join "_" (o_name o :: ls) = join "_" (o_name o2 :: ls2) -> o_name o = o_name o2.
Proof.
  intros Ho El Ho2 El2 E. assert (UC := proj2 (@unpack_copies order c (vars ++ params) (uv ++ up) (fun o H => proj1 (HD o H)) (@unpack_objects_app order vars params (lab_coords c) uv up EV EP))).
  destruct (UC o ls Ho El) as (u & Hu & Co). destruct (@copy_key c o u ls (proj1 (HD o Ho)) PL El Co) as (_ & Nm).
  destruct (UC o2 ls2 Ho2 El2) as (u2 & Hu2 & Co2). destruct (@copy_key c o2 u2 ls2 (proj1 (HD o2 Ho2)) PL El2 Co2) as (_ & Nm2).
  assert (u = u2). { apply In_nth_error in Hu as (k & Hk). apply In_nth_error in Hu2 as (k2 & Hk2).
    assert (k = k2). { apply (proj1 (NoDup_nth_error _) ND); [unfold names; rewrite map_length; apply nth_error_Some; congruence|].
      unfold names. rewrite !nth_error_map, Hk, Hk2. cbn [option_map]. congruence. } congruence. }
  subst u2. destruct Co as ((_ & A & _) & _). destruct Co2 as ((_ & B & _) & _). congruence.
Qed.

Lemma data_hyp d' v' w' x' theta' : arguments c vars params d' v' w' x' theta' ->
  forall o, In o (vars ++ params) -> NoDup (o_dims o) /\ o_dim_vals o = [] /\ o_base_name o = o_name o /\ exists a, dget (o_name o) d' = Some a /\ fits (lab_coords c) o a.
Proof. intros (H & _) o Ho. destruct (H o Ho) as ((A & B & C & _) & D). auto. Qed.

(** the replacement, for all symbols of the scalar equations *)
Lemma replacement syms : NoDup syms -> (forall n, In n syms -> In n names) ->
  exists replace, make_unpacked_to_packed_map the_model on_names syms = Ok replace /\
    (forall d' v' w' x' theta', arguments c vars params d' v' w' x' theta' -> forall n, In n syms -> packed_value d' replace n = Ok (state_of names (x' ++ theta') n)) /\
    (forall p, In p (dvals replace) <-> exists n, In n syms /\ packed_index the_model on_names n = Ok p) /\
    (forall n, In n syms -> exists p, packed_index the_model on_names n = Ok p).
Proof.
  intros NS Hs. destruct groups as (G1 & G2 & G3 & G4 & K1 & K2 & N1 & N2 & N3).
  assert (LDl : forall i ls, dget i (lab_coords c) = Some ls -> NoDup ls).
  { intros i ls H. rewrite dget_lab in H. destruct (dget i c) as [l|] eqn:E; [|discriminate]. injection H as <-. apply FinFun.Injective_map_NoDup; [|now apply (LD i)].
    intros a b Hab. now injection Hab. }
  assert (KN : dkeys (m_uvars the_model) ++ dkeys (m_upars the_model) = names) by (cbn [the_model m_uvars m_upars]; rewrite K1, K2; unfold names, nv, np_; now rewrite map_app).
  assert (C52 : forall d' v' w' x' theta', arguments c vars params d' v' w' x' theta' -> exists map_, make_unpacked_to_packed_map the_model on_names syms = Ok map_ /\
     forall n, In n syms -> packed_value d' map_ n = Ok (state_of names (x' ++ theta') n)).
  { intros d' v' w' x' theta' A. destruct (@c52_packed_value__p R order the_model vars params uv up d' x' theta' syms) as (map_ & E & _ & L & P); auto.
    - intros o Ho. apply (data_hyp A o Ho).
    - apply A.
    - rewrite KN. exact Hs.
    - exists map_. split; [exact E|]. intros n Hn. rewrite KN in P, L. destruct (In_nth_error _ _ (Hs n Hn)) as (k & Hk). destruct (P k n Hn Hk) as (r & R1 & R2).
      rewrite R1. f_equal. unfold state_of. now rewrite (@dget_combine names (x' ++ theta') k n r ND Hk R2). }
  destruct (C52 d v w x theta AR) as (replace & E & _). exists replace. split; [exact E|]. split.
  { intros d' v' w' x' theta' A. destruct (C52 d' v' w' x' theta' A) as (r' & E' & P). rewrite E in E'. injection E' as <-. exact P. }
  unfold make_unpacked_to_packed_map in E. apply bind_ok in E as (l & El & E). injection E as <-.
  apply map_res_ok_Forall2 in El.
  assert (Kl : map fst l = syms). { clear -El. induction El as [|n q ns l H F IH]; [reflexivity|]. cbn. apply bind_ok in H as (p & _ & H). injection H as <-. cbn. now f_equal. }
  rewrite dict_of_list_NoDup by (now rewrite Kl). split; [intros p; split|].
  - intros Hp. apply in_map_iff in Hp as ((n & p') & <- & Hp). cbn [snd]. exists n. split; [rewrite <- Kl; apply in_map_iff; exists (n, p'); auto|].
    clear -El Hp. induction El as [|n' q ns l H F IH]; [easy|]. destruct Hp as [->|Hp]; auto. apply bind_ok in H as (p & Hi & H). injection H as -> ->. exact Hi.
  - intros (n & Hn & Hi). clear -El Hn Hi. induction El as [|n' q ns l H F IH]; [easy|]. destruct Hn as [->|Hn]; [|right; auto].
    left. rewrite Hi in H. cbn in H. injection H as <-. reflexivity.
  - intros n Hn. clear -El Hn. induction El as [|n' q ns l H F IH]; [easy|]. destruct Hn as [->|Hn]; auto. apply bind_ok in H as (p & Hi & _). eauto.
Qed.

(** which tensors are inputs of the equations *)
Lemma cache_get k n : nth_error on_names k = Some n -> dget n (printer_cache on_names) = Some (TTensor k).
Proof.
  intros H. unfold printer_cache. rewrite dict_of_list_NoDup.
  - apply (@dget_combine_nth _ on_names (map TTensor (seq 0 (length on_names))) k n (TTensor k)); auto. rewrite nth_error_map.
    assert (L : k < length on_names) by (apply nth_error_Some; congruence). rewrite (nth_error_nth' _ 0) by (now rewrite seq_length). now rewrite seq_nth by auto.
  - rewrite map_fst_combine; [exact NO|now rewrite map_length, seq_length].
Qed.
Lemma cache_vals : dvals (printer_cache on_names) = map TTensor (seq 0 (length on_names)) /\ dkeys (printer_cache on_names) = on_names.
Proof.
  assert (L : length on_names = length (map TTensor (seq 0 (length on_names)))) by (now rewrite map_length, seq_length).
  unfold printer_cache. rewrite dict_of_list_NoDup by (rewrite map_fst_combine; auto). unfold dvals, dkeys. rewrite map_fst_combine by auto.
  split; [|reflexivity]. revert L. generalize on_names (map TTensor (seq 0 (length on_names))). clear. induction l as [|a l IH]; intros [|b l'] L; try discriminate; [reflexivity|].
  cbn in *. f_equal. apply IH. lia.
Qed.
Lemma packed_parent n p : In n names -> packed_index the_model on_names n = Ok p -> exists o ls, In o (vars ++ params) /\ element c (o_dims o) ls /\ n = join "_" (o_name o :: ls) /\ fst p = o_name o.
Proof.
  intros Hn Hp. destruct (@parent n Hn) as (o & ls & u & A & B & C & D & E). exists o, ls. repeat split; auto. destruct p as (p & i). cbn. rewrite (@packed_index_parent _ _ _ _ _ _ Hp D). exact E.
Qed.

Lemma required_iff eqs replace : (forall e, In e eqs -> closed_in names e) ->
  (forall p, In p (dvals replace) <-> exists n, In n (printed_symbols eqs) /\ packed_index the_model on_names n = Ok p) ->
  (forall n, In n (printed_symbols eqs) -> exists p, packed_index the_model on_names n = Ok p) ->
  forall k, In k (replaced_inputs (printer_cache on_names) replace) <-> exists o, nth_error (vars ++ params) k = Some o /\ occurs_in c eqs o.
Proof.
  intros CL PV PE k. assert (PN : forall n, In n (printed_symbols eqs) -> In n names). { intros n Hn. apply printed_In in Hn as (e & He & Hs). now apply (CL e He). }
  unfold replaced_inputs. rewrite in_flat_map. split.
  - intros (p & Hp & Hk). apply PV in Hp as (n & Hn & Hi). destruct (@packed_parent n p (PN n Hn) Hi) as (o & ls & A & B & C & D).
    apply In_nth_error in A as (j & Hj). rewrite D in Hk. rewrite (@cache_get j (o_name o)) in Hk by (unfold on_names; now rewrite nth_error_map, Hj). destruct Hk as [<-|[]].
    exists o. split; [exact Hj|]. apply printed_In in Hn as (e & He & Hs). exists e, ls. rewrite <- C. auto.
  - intros (o & Ho & e & ls & He & El & Hs). assert (Hn : In (join "_" (o_name o :: ls)) (printed_symbols eqs)) by (apply printed_In; eauto).
    destruct (PE _ Hn) as (p & Hp). exists p. split; [apply PV; eauto|]. destruct (@packed_parent _ p (PN _ Hn) Hp) as (o' & ls' & A & B & C & D).
    assert (o_name o = o_name o') as En. { apply (@name_array o ls o' ls'); auto. eapply nth_error_In; eauto. }
    rewrite D, <- En. rewrite (@cache_get k (o_name o)) by (unfold on_names; now rewrite nth_error_map, Ho). now left.
Qed.

Lemma validated eqs replace : (forall e, In e eqs -> closed_in names e) ->
  (forall p, In p (dvals replace) <-> exists n, In n (printed_symbols eqs) /\ packed_index the_model on_names n = Ok p) ->
  (forall n, In n (printed_symbols eqs) -> exists p, packed_index the_model on_names n = Ok p) ->
  ((forall o, In o (vars ++ params) -> occurs_in c eqs o) -> validate_parsing (length on_names) (printer_cache on_names) (replaced_inputs (printer_cache on_names) replace) = Ok tt) /\
  ((exists o, In o (vars ++ params) /\ ~ occurs_in c eqs o) -> validate_parsing (length on_names) (printer_cache on_names) (replaced_inputs (printer_cache on_names) replace) = Err ValueError).
Proof.
  intros CL PV PE. assert (RI := @required_iff eqs replace CL PV PE). unfold validate_parsing. destruct cache_vals as (-> & _).
  assert (forallb (fun k => existsb (fun v0 => match v0 with TTensor j => Nat.eqb j k | TModule => false end) (map TTensor (seq 0 (length on_names)))) (seq 0 (length on_names)) = true) as ->.
  { apply forallb_forall. intros k Hk. apply existsb_exists. exists (TTensor k). split; [now apply in_map|apply Nat.eqb_refl]. }
  cbn [negb]. assert (L : length on_names = length (vars ++ params)) by apply map_length.
  assert (existsb (fun k => negb (mem_nat k (seq 0 (length on_names)))) (replaced_inputs (printer_cache on_names) replace) = false) as ->.
  { apply not_true_is_false. intros H. apply existsb_exists in H as (k & Hk & H). apply RI in Hk as (o & Ho & _). apply negb_true_iff in H.
    assert (In k (seq 0 (length on_names))) as I. { apply in_seq. rewrite L. split; [lia|]. cbn. apply nth_error_Some. congruence. }
    apply mem_nat_In in I. congruence. }
  split.
  - intros H. destruct (existsb _ _) eqn:E; [|reflexivity]. exfalso. apply existsb_exists in E as (k & Hk & E). apply negb_true_iff in E. apply in_seq in Hk.
    destruct (nth_error (vars ++ params) k) as [o|] eqn:Eo; [|apply nth_error_None in Eo; lia].
    assert (In k (replaced_inputs (printer_cache on_names) replace)) as I by (apply RI; exists o; split; auto; apply H; eapply nth_error_In; eauto). apply mem_nat_In in I. congruence.
  - intros (o & Ho & No). destruct (existsb _ _) eqn:E; [reflexivity|]. exfalso. apply In_nth_error in Ho as (k & Hk).
    assert (HF : ~ In k (replaced_inputs (printer_cache on_names) replace)). { intros I. apply RI in I as (o' & E' & Oc). apply No. congruence. }
    assert (T : existsb (fun k0 => negb (mem_nat k0 (replaced_inputs (printer_cache on_names) replace))) (seq 0 (length on_names)) = true).
    { apply existsb_exists. exists k. split; [apply in_seq; rewrite L; split; [lia|]; cbn; apply nth_error_Some; congruence|]. apply negb_true_iff, not_true_is_false. rewrite mem_nat_In. exact HF. }
    congruence.
Qed.

Definition hess_of (eqs : list sexpr) : list (list sexpr) := map (fun e => map (fun y => diff y e) nv) (make_sympy_gradient (squared_loss eqs) nv).
Definition jac_of (eqs : list sexpr) : list (list sexpr) := map (fun e => map (fun y => diff y e) nv) eqs.

Lemma nv_nonempty : nv <> []. Proof. exact (@var_nonempty order c vars params d v w uv up x theta PL HD EV EP ND FL DA VN). Qed.

Lemma compiled : exists ess,
  Forall2 (fun lr es => equation_symbols sub_into set_order dict_order evaluates c None (uv ++ up) (fst lr) (snd lr) = Ok es) equations ess /\
  (forall e, In e (List.concat ess) -> closed_in names e) /\ List.concat ess <> [] /\
  exists replace,
   (forall d' v' w' x' theta', arguments c vars params d' v' w' x' theta' -> forall n, In n (printed_symbols (List.concat ess)) -> packed_value d' replace n = Ok (state_of names (x' ++ theta') n)) /\
   let eqs := List.concat ess in
   let grad := make_sympy_gradient (squared_loss eqs) nv in
   let compile := compile_sympytensor_cge_functions sub_into set_order dict_order evaluates order c None vars params equations in
   ((forall o, In o (vars ++ params) -> occurs_in c eqs o) -> ~ In "hess_point" names ->
      compile = Ok (MkSympytensor
        (call on_names (fun data => map_res (graph_value data replace []) eqs))
        (matrix_function on_names replace (jac_of eqs))
        (call on_names (fun data => graph_value data replace [] (squared_loss eqs)))
        (call on_names (fun data => map_res (graph_value data replace []) grad))
        (matrix_function on_names replace (hess_of eqs))
        (call (on_names ++ point_names vars)
              (fun kwargs => let* point := point_vector vars kwargs in map_res (graph_value kwargs replace point) (make_sympy_hessp grad nv))))) /\
   ((exists o, In o (vars ++ params) /\ ~ occurs_in c eqs o) -> compile = Err ValueError).
Proof.
  destruct (map_res_exists (fun lr : sexpr * sexpr => equation_symbols sub_into set_order dict_order evaluates c None (uv ++ up) (fst lr) (snd lr)) equations) as (ess & Ess & Fss).
  { intros lr Hl. apply (EQ lr Hl). }
  assert (BE : belongs c (vars ++ params) v w) by exact (@bel c vars params d v w DA).
  assert (SV : scalar_view c (vars ++ params) v w (view names state)) by exact (@sview order c vars params d v w uv up x theta HD EV EP ND FL DA).
  assert (DE : forall o, In o (vars ++ params) -> declared c o) by (intros o Ho; apply (HD o Ho)).
  assert (EUs := @unpack_objects_app order vars params (lab_coords c) uv up EV EP).
  destruct (@unpack_copies order c (vars ++ params) (uv ++ up) DE EUs) as (UC & _).
  assert (CORE : forall lr es, In lr equations -> equation_symbols sub_into set_order dict_order evaluates c None (uv ++ up) (fst lr) (snd lr) = Ok es ->
     (forall e, In e es -> closed_in names e) /\ es <> []).
  { intros lr es Hl E. destruct (EQ lr Hl) as (Q1 & Q2 & _).
    destruct (@eq_core sub_into set_order dict_order evaluates order WS WD c axes None (vars ++ params) (uv ++ up) PL NK DE EUs names zero lr es v w state) as (dims & shape & _ & Q3 & Q4 & Q5 & _); auto; try exact I.
    split; [exact Q5|]. assert (P := shape_positive PL Q3). destruct es; [cbn in Q4; lia|discriminate]. }
  assert (CL : forall e, In e (List.concat ess) -> closed_in names e).
  { intros e He. apply in_concat in He as (es & I1 & I2).
    assert (exists lr, In lr equations /\ equation_symbols sub_into set_order dict_order evaluates c None (uv ++ up) (fst lr) (snd lr) = Ok es) as (lr & I3 & I4).
    { clear -Fss I1. induction Fss as [|a b l l' H F IH]; [easy|]. destruct I1 as [<-|I1]; [exists a; split; [now left|exact H]|]. destruct (IH I1) as (lr & A & B). exists lr. split; [now right|exact B]. }
    now apply (CORE lr es I3 I4). }
  assert (CN : List.concat ess <> []).
  { destruct equations as [|lr l] eqn:E; [congruence|]. inversion Fss; subst. destruct (CORE lr y) as (_ & Q); auto; [now left|]. destruct y; [congruence|discriminate]. }
  assert (PN : forall n, In n (printed_symbols (List.concat ess)) -> In n names). { intros n Hn. apply printed_In in Hn as (e & He & Hs). now apply (CL e He). }
  exists ess. split; [exact Fss|]. split; [exact CL|]. split; [exact CN|].
  destruct (@replacement (printed_symbols (List.concat ess)) (printed_NoDup _) PN) as (replace & ER & PVAL & PV & PE).
  exists replace. split; [exact PVAL|]. cbn zeta. destruct (@validated (List.concat ess) replace CL PV PE) as (VA & VB).
  destruct groups as (G1 & G2 & G3 & G4 & _).
  unfold compile_sympytensor_cge_functions. rewrite G1. cbn [bind]. rewrite G3. cbn [bind]. rewrite G2, G4, Ess. cbn [bind].
  rewrite (@symbols_ok sub_into dict_order WD c (vars ++ params) PL DE uv (uv ++ up) UC) by (intros; apply in_or_app; auto). cbn [bind packed_variables].
  fold nv. fold on_names. fold the_model. destruct cache_vals as (_ & CK). rewrite CK. unfold sympy_cge_primitives_to_pytensor. rewrite ER. cbn [bind].
  assert (EN : forall (A : Type) (a b : A), match List.concat ess with [] => a | _ => b end = b) by (intros; destruct (List.concat ess); [congruence|reflexivity]).
  rewrite EN. cbn [bind].
  split.
  - intros OC HP. rewrite VA by exact OC. cbn [bind].
    assert (JJ : make_sympy_jacobian (SysList (List.concat ess)) nv = Ok (jac_of (List.concat ess))).
    { unfold make_sympy_jacobian, jac_of. destruct (List.concat ess) as [|e es]; [congruence|]. destruct nv eqn:En; [now destruct nv_nonempty|]. reflexivity. }
    rewrite JJ. cbn [bind].
    destruct (@c50_hessian__p (List.concat ess) nv nv_nonempty) as (HS & EH & _).
    assert (HH : HS = hess_of (List.concat ess)).
    { assert (E : as_vector (SysMatrix (map (fun g => [g]) (make_sympy_gradient (squared_loss (List.concat ess)) nv))) = as_vector (SysList (make_sympy_gradient (squared_loss (List.concat ess)) nv))).
      { destruct (make_sympy_gradient (squared_loss (List.concat ess)) nv) as [|g [|g2 gs]]; [reflexivity|reflexivity|]. cbn. do 3 f_equal. clear. induction gs; cbn; congruence. }
      unfold make_sympy_jacobian in EH. rewrite E in EH. unfold hess_of. pose proof nv_nonempty as NVE. destruct nv as [|y0 vs]; [congruence|].
      cbn [make_sympy_gradient map as_vector bind] in EH. injection EH as <-. reflexivity. }
    rewrite EH, HH. cbn [bind]. rewrite (proj2 (mem_str_nIn _ _)) by (intros H; apply HP, PN, H). reflexivity.
  - intros NO'. rewrite VB by exact NO'. reflexivity.
Qed.
End Model.
