(** Lemmas for C109: which trees are read without [other]. *)
From Coq Require Import Ascii ZArith.
From Verif Require Import Py PyStr NdArray M_Primitives M_PyExpr M_Expand M_SymExpr M_Simplify M_Parse S_Meaning S_Parse S_Parse2 L_Reduce L_Parse.
Local Open Scope string_scope.
Local Open Scope list_scope.

Section Forms.
Context (names : dict sexpr) (dims : list string).
Notation refuse := (fun _ : pexpr => @Err sexpr ValueError).
Notation good := (plain_form (dkeys names) dims).

Lemma dget_key w : In w (dkeys names) <-> exists t, dget w names = Some t.
Proof.
  clear. induction names as [|[k v] d IH]; cbn; [split; [tauto|intros (t & E); discriminate]|]. destruct (String.eqb_spec w k) as [->|N].
  - split; eauto.
  - rewrite <- IH. split; [intros [E|E]; [congruence|exact E]|auto].
Qed.
Lemma dmem_key w : dmem w names = true <-> In w (dkeys names).
Proof.
  unfold dmem. apply mem_str_In.
Qed.
Lemma limits_plain l : forall r, limits_of dims l = Some r -> plain_limits dims l /\ (r = [] <-> l = ENil).
Proof.
  revert l. fix IH 1. intros l r E. destruct l; try discriminate; [cbn in E; injection E as <-; split; [constructor|tauto]|].
  destruct l1; try discriminate. destruct l1; try discriminate. destruct l1_1; try discriminate. destruct l1_2; try discriminate. destruct l1_2_1; try discriminate.
  destruct l1_2_2; try discriminate. destruct l1_2_2_1; try discriminate. destruct l1_2_2_2; try discriminate. cbn [limits_of] in E.
  destruct (mem_str w dims) eqn:M; [|discriminate]. destruct (whole_number w0) eqn:N0; [|discriminate]. destruct (whole_number w1) eqn:N1; [|discriminate].
  destruct (limits_of dims l2) as [q|] eqn:Q; [|discriminate]. injection E as <-. rewrite whole_number_eq in N0, N1. split; [|split; discriminate].
  econstructor; eauto; [now apply mem_str_In|]. exact (proj1 (IH l2 q Q)).
Qed.
Lemma plain_limits_of l : plain_limits dims l -> exists r, limits_of dims l = Some r /\ (l <> ENil -> r <> []).
Proof.
  induction 1 as [|i lo hi m n rest Hi Hm Hn _ (r & Er & _)]; [exists []; split; [reflexivity|congruence]|]. cbn [limits_of].
  rewrite (proj2 (mem_str_In _ _) Hi), (whole_number_eq lo), Hm, (whole_number_eq hi), Hn, Er. eexists. split; [reflexivity|discriminate].
Qed.

Lemma read_plain : forall e t, sympy_of refuse names dims e = Ok t -> good e.
Proof.
  fix IH 1. intros e t E. destruct e; try discriminate.
  - cbn [sympy_of] in E. rewrite whole_number_eq in E. destruct (number w) eqn:N; [econstructor; exact N|]. destruct (mem_str w dims) eqn:M; [discriminate|].
    destruct (dget w names) eqn:D; [|discriminate]. apply pf_name; [exact N|apply dget_key; eauto|]. rewrite <- mem_str_In. congruence.
  - cbn [sympy_of] in E. destruct (sympy_of refuse names dims e1) eqn:E1; [|discriminate]. destruct (sympy_of refuse names dims e2) eqn:E2; [|discriminate].
    constructor; eapply IH; eassumption.
  - cbn [sympy_of] in E. destruct (sympy_of refuse names dims e) eqn:E1; [|discriminate]. constructor. eapply IH; eassumption.
  - destruct e1; try discriminate.
    + destruct e2; try discriminate. cbn [sympy_of] in E. destruct (mem_str w dims) eqn:M; [discriminate|]. destruct (dmem w names) eqn:D; [discriminate|]. cbn [orb] in E.
      assert (N1 : ~ In w dims) by (rewrite <- mem_str_In; congruence). assert (N2 : ~ In w (dkeys names)) by (rewrite <- dmem_key; congruence).
      destruct (reduction w) as [o|] eqn:Rw.
      * destruct (limits_of dims e2_2) as [[|l ls]|] eqn:Ll; try discriminate. destruct (sympy_of refuse names dims e2_1) eqn:E1; [|discriminate].
        destruct (limits_plain _ Ll) as (P & Q). destruct e2_2 as [| | | | | | | | |  |l0 ls0| | |]; try (inversion P; fail); [destruct Q as (_ & Q); discriminate (Q eq_refl)|].
        apply pf_reduction; auto; [|eapply IH; eassumption]. unfold reduction in Rw. destruct (String.eqb_spec w "Sum"); auto. destruct (String.eqb_spec w "Product"); auto. discriminate.
      * destruct (function w) as [h|] eqn:Fw; [|destruct (limits_of dims e2_2); discriminate]. destruct (limits_of dims e2_2) as [[|l ls]|] eqn:Ll; try discriminate.
        destruct (sympy_of refuse names dims e2_1) eqn:E1; [|discriminate]. destruct (limits_plain _ Ll) as (_ & Q). rewrite (proj1 Q eq_refl).
        apply pf_function; auto; [|eapply IH; eassumption]. unfold function in Fw. destruct (String.eqb_spec w "exp"); auto. destruct (String.eqb_spec w "log"); auto. discriminate.
    + destruct e2; try discriminate. destruct e2_1; try discriminate. destruct e2_1; try discriminate. destruct e2_1_1; try discriminate. destruct e2_1_1_1; try discriminate.
      destruct e2_1_1_2; try discriminate. destruct e2_1_2; try discriminate. destruct e2_2; try discriminate. cbn [sympy_of] in E.
      destruct (String.eqb_spec w "subs") as [->|]; [|discriminate]. destruct (mem_str w0 dims) eqn:M0; [|discriminate]. destruct (mem_str w1 dims) eqn:M1; [|discriminate]. cbn [andb] in E.
      destruct (sympy_of refuse names dims e1) eqn:E1; [|discriminate]. apply (@pf_index _ _ e1 w0 w1); [eapply IH; eassumption|now apply mem_str_In|now apply mem_str_In].
Qed.
Lemma plain_read e : good e -> exists t, forall other, sympy_of other names dims e = Ok t.
Proof.
  assert (NM : forall w, ~ In w dims -> mem_str w dims = false) by (intros w H; destruct (mem_str w dims) eqn:M; auto; apply mem_str_In in M; tauto).
  assert (ND : forall w, ~ In w (dkeys names) -> dmem w names = false) by (intros w H; destruct (dmem w names) eqn:M; auto; apply dmem_key in M; tauto).
  induction 1 as [w n N|w N I D|op a b _ (x & Ex) _ (y & Ey)|a _ (x & Ex)|f a F N D _ (x & Ex)|f a l ls F N D _ (x & Ex) P|a i j _ (x & Ex) Hi Hj].
  - eexists. intros other. cbn [sympy_of]. rewrite whole_number_eq, N. reflexivity.
  - apply dget_key in I. destruct I as (t & E). exists t. intros other. cbn [sympy_of]. rewrite whole_number_eq, N, (NM w D), E. reflexivity.
  - eexists. intros other. cbn [sympy_of]. rewrite Ex, Ey. reflexivity.
  - eexists. intros other. cbn [sympy_of]. rewrite Ex. reflexivity.
  - destruct F as [->| ->]; eexists; intros other; cbn [sympy_of]; rewrite (NM _ D), (ND _ N); cbn; rewrite Ex; reflexivity.
  - destruct (plain_limits_of P) as ([|r rs] & Er & Q); [exfalso; apply Q; [discriminate|reflexivity]|].
    destruct F as [->| ->]; eexists; intros other; cbn [sympy_of]; rewrite (NM _ D), (ND _ N), Er; cbn; rewrite Ex; reflexivity.
  - eexists. intros other. unfold index_changed. cbn [sympy_of]. rewrite (proj2 (mem_str_In _ _) Hi), (proj2 (mem_str_In _ _) Hj). cbn. rewrite Ex. reflexivity.
Qed.
End Forms.

Lemma c109_read__p :
  forall (names : dict sexpr) (dims : list string) (e : pexpr),
    (plain_form (dkeys names) dims e -> exists t, forall other, sympy_of other names dims e = Ok t) /\
    (~ plain_form (dkeys names) dims e -> sympy_of (fun _ => Err ValueError) names dims e = Err ValueError).
Proof.
  intros. split; [apply plain_read|]. intros N. destruct (sympy_of _ names dims e) as [t|x] eqn:E; [exfalso; apply N; now apply read_plain with t|].
  clear N. f_equal. revert e x E. fix IH 1. intros e x E. destruct e; try (cbn in E; congruence).
  - cbn [sympy_of] in E. destruct (whole_number w); [discriminate|]. destruct (mem_str w dims); [congruence|]. destruct (dget w names); congruence.
  - cbn [sympy_of] in E. destruct (sympy_of _ names dims e1) eqn:E1; [|cbn in E; injection E as <-; eapply IH; eassumption].
    destruct (sympy_of _ names dims e2) eqn:E2; [discriminate|]. cbn in E; injection E as <-; eapply IH; eassumption.
  - cbn [sympy_of] in E. destruct (sympy_of _ names dims e) eqn:E1; [discriminate|]. cbn in E; injection E as <-; eapply IH; eassumption.
  - destruct e1; try (cbn in E; congruence).
    + destruct e2; try (cbn in E; congruence). cbn [sympy_of] in E. destruct (_ || _); [congruence|].
      destruct (reduction w); [|destruct (function w)]; destruct (limits_of dims e2_2) as [[|l ls]|]; try congruence;
        (destruct (sympy_of _ names dims e2_1) eqn:E1; [discriminate|]; cbn in E; injection E as <-; eapply IH; eassumption).
    + destruct e2; try (cbn in E; congruence). destruct e2_1; try (cbn in E; congruence). destruct e2_1; try (cbn in E; congruence). destruct e2_1_1; try (cbn in E; congruence).
      destruct e2_1_1_1; try (cbn in E; congruence). destruct e2_1_1_2; try (cbn in E; congruence). destruct e2_1_2; try (cbn in E; congruence). destruct e2_2; try (cbn in E; congruence).
      cbn [sympy_of] in E. destruct (_ && _); [|congruence]. destruct (sympy_of _ names dims e1) eqn:E1; [discriminate|]. cbn in E; injection E as <-; eapply IH; eassumption.
Qed.
