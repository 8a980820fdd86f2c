(** Lemmas for C21, and invariants of constructed models. *)
From Verif Require Import Py PyStr NdArray M_Primitives M_Utilities M_Expand M_Equations M_Registry.
From Verif Require Import S_Registry L_Registry L_Registry2.
Local Open Scope string_scope.

Lemma dget_ddel {V} k n (d : dict V) v : NoDup (dkeys d) -> dget k (ddel n d) = Some v -> dget k d = Some v.
Proof.
  induction d as [|[k' v'] d IH]; simpl; auto. intros N. inversion N as [|? ? Hk Hd]; subst.
  destruct (String.eqb_spec n k').
  - intros G. destruct (String.eqb_spec k k'); auto. subst. exfalso. apply Hk.
    apply dget_Some_key. eauto.
  - simpl. destruct (String.eqb k k'); auto.
Qed.
Lemma NoDup_filter_ {A} (f : A -> bool) l : NoDup l -> NoDup (filter f l).
Proof. apply NoDup_filter. Qed.

Lemma drop_well_filed m n : well_filed m -> well_filed (drop_numeraire m n).
Proof.
  intros H. unfold drop_numeraire. destruct n as [[|a s]|]; auto.
  destruct H as (N1 & N2 & N3 & F1 & F2 & F3). unfold well_filed. cbn [set_vars m_vars m_pars m_eqs].
  repeat split; auto.
  - rewrite dkeys_ddel by auto. now apply NoDup_filter.
  - apply (F1 n). eapply dget_ddel; eauto.
  - apply (F1 n). eapply dget_ddel; eauto.
  - eapply F2; eauto.
  - eapply F2; eauto.
Qed.

Lemma finish_fst {S} (o : outcome S) s : finish o = Ok s -> fst o = s.
Proof. destruct o as [s' [u|e]]; simpl; congruence. Qed.

(** Everything a successful construction guarantees about the registries. *)
Lemma c19_constructed__p :
  forall (order : list string -> list string) (parse : parser) (c : coords) (vars pars eqs : option pyarg)
         (numeraire : option string) (sympy : bool) (m : model),
  construct order parse c vars pars eqs numeraire sympy = Ok m -> well_filed m.
Proof.
  intros order parse c vars pars eqs numeraire sympy m H. unfold construct in H.
  apply bind_ok in H as (m1 & H1 & H). apply bind_ok in H as (m2 & H2 & H).
  apply bind_ok in H as (m3 & H3 & H). apply bind_ok in H as (m4 & H4 & H).
  destruct (Nat.eqb _ _); [|discriminate].
  assert (Em : m = drop_numeraire m4 numeraire) by congruence. rewrite Em. apply drop_well_filed. clear H Em.
  assert (W0 : well_filed (MkModel c sympy None [] [] [] [] [] [])).
  { repeat split; try constructor; intros; discriminate. }
  assert (W1 : well_filed m1).
  { unfold init_variables in H1. destruct vars as [a|]; [|congruence].
    apply bind_ok in H1 as (m0 & H0 & H1). apply bind_ok in H1 as (l & _ & H1). apply bind_ok in H1 as (u & _ & H1).
    assert (m1 = set_uvars m0 u) by congruence. subst. apply finish_fst in H0. subst.
    exact (run_op_well_filed parse (AddVars a false) W0). }
  assert (W2 : well_filed m2).
  { unfold choose_numeraire in H2. destruct numeraire; [|congruence].
    destruct (dget _ _); [|discriminate]. assert (m2 = set_numeraire m1 (Some m0)) by congruence. subst. exact W1. }
  assert (W3 : well_filed m3).
  { unfold init_parameters in H3. destruct pars as [a|]; [|congruence].
    apply bind_ok in H3 as (m0 & H0 & H3). apply bind_ok in H3 as (l & _ & H3). apply bind_ok in H3 as (u & _ & H3).
    assert (m3 = set_upars m0 u) by congruence. subst. apply finish_fst in H0. subst.
    exact (run_op_well_filed parse (AddPars a false) W2). }
  unfold init_equations in H4. destruct eqs as [a|]; [|congruence].
  apply bind_ok in H4 as (m0 & H0 & H4). apply bind_ok in H4 as (u & _ & H4).
  assert (m4 = set_ueqs m0 u) by congruence. subst. apply finish_fst in H0. subst.
  exact (run_op_well_filed parse (AddEqs a false) W3).
Qed.

(** Unpacked objects are filed under their indexed names. *)
Definition unpacked_filed (m : model) : Prop :=
  (forall n u, dget n (m_uvars m) = Some u -> make_indexed_name u = n) /\
  (forall n u, dget n (m_upars m) = Some u -> make_indexed_name u = n).

Lemma unpack_group_filed order l c d n u : unpack_group order l c = Ok d -> dget n d = Some u -> make_indexed_name u = n.
Proof.
  unfold unpack_group. intros H G. apply bind_ok in H as (us & _ & H). injection H as <-.
  rewrite dget_dict_of_list in G. apply dget_In in G. apply in_rev in G.
  clear -G. induction us as [|x us IH]; simpl in G; [destruct G|].
  destruct G as [E|G]; auto. injection E as <- <-. reflexivity.
Qed.

Lemma constructed_unpacked order parse c vars pars eqs numeraire sympy m :
  construct order parse c vars pars eqs numeraire sympy = Ok m -> unpacked_filed m /\ m_sympy m = sympy.
Proof.
  intros H. unfold construct in H.
  apply bind_ok in H as (m1 & H1 & H). apply bind_ok in H as (m2 & H2 & H).
  apply bind_ok in H as (m3 & H3 & H). apply bind_ok in H as (m4 & H4 & H).
  destruct (Nat.eqb _ _); [|discriminate].
  assert (Em : m = drop_numeraire m4 numeraire) by congruence.
  assert (X : m_uvars m = m_uvars m4 /\ m_upars m = m_upars m4 /\ m_sympy m = m_sympy m4).
  { rewrite Em. destruct numeraire as [[|a s]|]; auto. }
  destruct X as (X1 & X2 & X3). unfold unpacked_filed. rewrite X1, X2, X3.
  pose proof (init_equations_frame _ _ _ H4) as (S4 & _ & _ & _ & U4 & P4 & _). rewrite S4, U4, P4.
  pose proof (init_parameters_frame _ _ _ H3) as (S3 & _ & _ & _ & U3 & _). rewrite S3, U3.
  pose proof (choose_numeraire_frame _ _ H2) as (S2 & _ & _ & _ & _ & U2 & P2 & _). rewrite S2, U2.
  pose proof (init_variables_frame _ _ _ H1) as (S1 & _ & _ & _ & _ & P1). rewrite S1.
  repeat split.
  - unfold init_variables in H1. destruct vars as [a|].
    + apply bind_ok in H1 as (m0 & H0 & H1). apply bind_ok in H1 as (l & _ & H1). apply bind_ok in H1 as (u & Hu & H1).
      assert (E : m1 = set_uvars m0 u) by congruence. rewrite E. cbn [set_uvars m_uvars].
      intros n v. eapply unpack_group_filed; eauto.
    + injection H1 as <-. discriminate.
  - unfold init_parameters in H3. destruct pars as [a|].
    + apply bind_ok in H3 as (m0 & H0 & H3). apply bind_ok in H3 as (l & _ & H3). apply bind_ok in H3 as (u & Hu & H3).
      assert (E : m3 = set_upars m0 u) by congruence. rewrite E. cbn [set_upars m_upars].
      intros n v. eapply unpack_group_filed; eauto.
    + injection H3 as <-. rewrite P2, P1. discriminate.
Qed.

Lemma get_one_ok m n o : well_filed m -> get_one m n = Ok o ->
  o_name o = n /\ (dget n (m_vars m) = Some o \/ dget n (m_vars m) = None /\ dget n (m_pars m) = Some o).
Proof.
  intros (_ & _ & _ & F1 & F2 & _) H. unfold get_one in H.
  destruct (mem_str n (dkeys (m_vars m))) eqn:E1.
  - unfold dgetitem in H. destruct (dget n (m_vars m)) eqn:G; inversion H; subst.
    split; [eapply F1; eauto|auto].
  - apply mem_str_nIn, dget_None in E1. destruct (mem_str n (dkeys (m_pars m))) eqn:E2; [|discriminate].
    unfold dgetitem in H. destruct (dget n (m_pars m)) eqn:G; inversion H; subst.
    split; [eapply F2; eauto|auto].
Qed.

Lemma get_one_err m n e : get_one m n = Err e -> e = ValueError /\ ~ In n (dkeys (m_vars m)) /\ ~ In n (dkeys (m_pars m)).
Proof.
  unfold get_one. destruct (mem_str n (dkeys (m_vars m))) eqn:E1.
  - intros H. exfalso. apply mem_str_In, dget_Some_key in E1 as (v & E1). unfold dgetitem in H. rewrite E1 in H. discriminate.
  - destruct (mem_str n (dkeys (m_pars m))) eqn:E2.
    + intros H. exfalso. apply mem_str_In, dget_Some_key in E2 as (v & E2). unfold dgetitem in H. rewrite E2 in H. discriminate.
    + intros H. injection H as <-. apply mem_str_nIn in E1. apply mem_str_nIn in E2. auto.
Qed.

Lemma map_res_err {A B} (f : A -> res B) l e : map_res f l = Err e -> exists a, In a l /\ f a = Err e.
Proof.
  induction l as [|a l IH]; simpl; [discriminate|]. destruct (f a) as [b|e'] eqn:E; simpl.
  - destruct (map_res f l); simpl; [discriminate|]. intros H. destruct (IH H) as (x & Hx & Ex). eauto.
  - intros H. injection H as <-. eauto.
Qed.

(** The objects of a lookup result, in order. *)
Definition got_list {A} (g : got A) : list A := match g with GotOne a => [a] | GotMany l => l end.
Lemma got_list_unwrap {A} (l : list A) : got_list (unwrap l) = l.
Proof. destruct l as [|a [|b l]]; reflexivity. Qed.

Lemma c21_get_by_name__p :
  forall (m : model) (names : list string),
  well_filed m ->
  match get m (Some names) with
  | Ok g =>
      let l := match g with GotOne o => [o] | GotMany l => l end in
      map o_name l = names /\
      (forall o, In o l -> dget (o_name o) (m_vars m) = Some o \/
                           dget (o_name o) (m_vars m) = None /\ dget (o_name o) (m_pars m) = Some o) /\
      (match g with GotOne _ => length names = 1 | GotMany _ => length names <> 1 end)
  | Err e => e = ValueError /\ exists n, In n names /\ ~ In n (dkeys (m_vars m)) /\ ~ In n (dkeys (m_pars m))
  end.
Proof.
  intros m names W. unfold get. destruct (map_res (get_one m) names) as [out|e] eqn:E; cbn [bind].
  - assert (L := map_res_ok_length _ _ E).
    apply map_res_ok_Forall2 in E.
    assert (X : map o_name out = names /\ (forall o, In o out -> dget (o_name o) (m_vars m) = Some o \/
                           dget (o_name o) (m_vars m) = None /\ dget (o_name o) (m_pars m) = Some o)).
    { clear L. induction E as [|n o names out En E IH]; [split; [reflexivity|intros o []]|].
      destruct (get_one_ok _ W En) as (N & R). destruct IH as (IH1 & IH2). split; [simpl; congruence|].
      intros o' [<-|Ho]; auto. rewrite N. exact R. }
    destruct X as (X1 & X2).
    destruct out as [|a [|b out]]; simpl in *; repeat split; auto; lia.
  - apply map_res_err in E as (n & Hn & E). apply get_one_err in E as (-> & E). eauto.
Qed.

Lemma c21_get_all__p :
  forall (m : model),
  well_filed m -> (forall n, In n (dkeys (m_pars m)) -> ~ In n (dkeys (m_vars m))) ->
  exists g, get m None = Ok g /\
    (match g with GotOne o => [o] | GotMany l => l end) = (map snd (m_pars m) ++ map snd (m_vars m))%list.
Proof.
  intros m W D. exists (unwrap (map snd (m_pars m) ++ map snd (m_vars m))%list). split; [|apply got_list_unwrap].
  unfold get.
  assert (X : map_res (get_one m) (dkeys (m_pars m) ++ dkeys (m_vars m))%list = Ok (map snd (m_pars m) ++ map snd (m_vars m))%list).
  { apply map_res_ok_Forall2. destruct W as (N1 & N2 & _). apply Forall2_app.
    - assert (Y : forall d, (forall p, In p d -> In p (m_pars m)) -> Forall2 (fun a b => get_one m a = Ok b) (dkeys d) (map snd d)).
      { induction d as [|[k v] d IH]; intros S; constructor.
        - simpl. unfold get_one.
          assert (G : dget k (m_pars m) = Some v) by (apply dget_In_NoDup; auto; apply S; simpl; auto).
          assert (K : In k (dkeys (m_pars m))) by (apply dget_Some_key; eauto).
          rewrite (proj2 (mem_str_nIn _ _) (D k K)), (proj2 (mem_str_In _ _) K). unfold dgetitem. now rewrite G.
        - apply IH. intros; apply S; simpl; auto. }
      now apply Y.
    - assert (Y : forall d, (forall p, In p d -> In p (m_vars m)) -> Forall2 (fun a b => get_one m a = Ok b) (dkeys d) (map snd d)).
      { induction d as [|[k v] d IH]; intros S; constructor.
        - simpl. unfold get_one.
          assert (G : dget k (m_vars m) = Some v) by (apply dget_In_NoDup; auto; apply S; simpl; auto).
          assert (K : In k (dkeys (m_vars m))) by (apply dget_Some_key; eauto).
          rewrite (proj2 (mem_str_In _ _) K). unfold dgetitem. now rewrite G.
        - apply IH. intros; apply S; simpl; auto. }
      now apply Y. }
  rewrite X. reflexivity.
Qed.

(** Lookup in the unpacked objects of any constructed model. *)
Lemma c21_symbol_by_name__p :
  forall (order : list string -> list string) (parse : parser) (c : coords) (vars pars eqs : option pyarg)
         (numeraire : option string) (m : model) (n : string),
  construct order parse c vars pars eqs numeraire true = Ok m ->
  (forall s, get_symbol m (Some [n]) = Ok s -> exists sy, s = GotOne sy /\ sy_name sy = n) /\
  (In n (dkeys (m_uvars m)) \/ In n (dkeys (m_upars m)) -> exists s, get_symbol m (Some [n]) = Ok s) /\
  (~ In n (dkeys (m_uvars m)) -> ~ In n (dkeys (m_upars m)) -> get_symbol m (Some [n]) = Err ValueError) /\
  (* the symbol is that of the parent object unless a parameter hides a variable *)
  (~ (In n (dkeys (m_uvars m)) /\ In n (dkeys (m_upars m))) ->
   forall u, get_unpacked_parent_object m n = Ok u ->
             get_symbol m (Some [n]) = Ok (GotOne (MkSymbol n (o_real u) (o_positive u)))).
Proof.
  intros order parse c vars pars eqs numeraire m n H. apply constructed_unpacked in H as ((F1 & F2) & S).
  unfold get_symbol, get_unpacked_parent_object. cbn [map bind map_res].
  unfold get_symbol_one, symbol_entry, dgetitem. rewrite S.
  destruct (mem_str n (dkeys (m_upars m))) eqn:E2; destruct (mem_str n (dkeys (m_uvars m))) eqn:E1.
  - pose proof (proj1 (mem_str_In _ _) E2) as I2. pose proof (proj1 (mem_str_In _ _) E1) as I1.
    pose proof (proj1 (dget_Some_key _ _) I2) as (v & G). rewrite G. cbn [bind unwrap].
    split; [|split; [eauto|split; [tauto|tauto]]].
    intros s X. injection X as <-. eexists. split; [reflexivity|]. simpl. now apply F2.
  - pose proof (proj1 (mem_str_In _ _) E2) as I2.
    pose proof (proj1 (dget_Some_key _ _) I2) as (v & G). rewrite G. cbn [bind unwrap].
    split; [|split; [eauto|split; [tauto|]]].
    + intros s X. injection X as <-. eexists. split; [reflexivity|]. simpl. now apply F2.
    + intros _ u X. injection X as <-. unfold symbol_of. rewrite (F2 _ _ G). reflexivity.
  - pose proof (proj1 (mem_str_In _ _) E1) as I1.
    pose proof (proj1 (dget_Some_key _ _) I1) as (v & G). rewrite G. cbn [bind unwrap].
    split; [|split; [eauto|split; [tauto|]]].
    + intros s X. injection X as <-. eexists. split; [reflexivity|]. simpl. now apply F1.
    + intros _ u X. injection X as <-. unfold symbol_of. rewrite (F1 _ _ G). reflexivity.
  - apply mem_str_nIn in E1. apply mem_str_nIn in E2. cbn [bind]. repeat split; auto; try tauto; discriminate.
Qed.

(** get_symbol without names fails in every model that has a parameter. *)
Lemma c21_all_symbols_refuted__p :
  forall (m : model), m_upars m <> [] -> exists e, get_symbol m None = Err e.
Proof.
  intros m H. unfold get_symbol.
  destruct (map_res (fun n => symbol_entry m n (m_upars m)) (dkeys (m_upars m))) as [syms|e] eqn:E; cbn [bind]; [|eauto].
  destruct (map_res (get_symbol_one m) _) as [out|e] eqn:E2; cbn [bind]; [|eauto]. exfalso.
  apply map_res_ok_Forall2 in E2. apply Forall2_app_inv_l in E2 as (l1 & l2 & _ & F & _).
  apply map_res_ok_length in E. destruct (m_upars m) as [|p d]; [congruence|].
  destruct syms as [|s syms]; [discriminate|]. inversion F; subst. discriminate.
Qed.

(** A variable and a parameter may share a name; the two lookups then disagree. *)
Lemma c21_same_object_refuted__p :
  exists (m : model),
    construct (fun l => l) toy_parse [] (Some (Many [PObj (MkObj KVar "x" [] [] "x" "x" "x" "x" true false 0)]))
              (Some (Many [PObj (MkObj KPar "x" [] [] "x" "x" "x" "x" true true 0)]))
              (Some (Many [PEqn (MkEqn "e" "x = 1" None)])) None true = Ok m /\
    (exists o, get m (Some ["x"]) = Ok (GotOne o) /\ o_kind o = KVar /\ o_positive o = false) /\
    get_symbol m (Some ["x"]) = Ok (GotOne (MkSymbol "x" true true)) /\
    (exists l, get m None = Ok (GotMany l) /\ map o_kind l = [KVar; KVar]).
Proof.
  eexists. split; [reflexivity|]. split; [eexists; split; [reflexivity|auto]|]. split; [reflexivity|].
  eexists. split; reflexivity.
Qed.
