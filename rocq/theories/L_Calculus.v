(** Lemmas for C49 and C50: symbolic derivatives are derivatives. *)
From Coq Require Import Reals Lra FunctionalExtensionality.
From Verif Require Import Py PyStr M_SymExpr M_Calculus S_Calculus.
Local Open Scope string_scope.
Local Open Scope list_scope.

Lemma diff_pow_gen x a b : is_num b = None ->
  diff x (SBin OPow a b) = SBin OMul (SBin OPow a b) (SBin OAdd (SBin OMul (diff x b) (SFun FLog a)) (SBin ODiv (SBin OMul b (diff x a)) a)).
Proof. destruct b; cbn; auto; discriminate. Qed.
Lemma diff_pow_num x a n : diff x (SBin OPow a (SNum n)) = if Z.eqb n 0 then SNum 0 else SBin OMul (SBin OMul (SNum n) (SBin OPow a (SNum (n - 1)))) (diff x a).
Proof. reflexivity. Qed.

Lemma val_ext v v' p e : (forall s, v s = v' s) -> val v p e = val v' p e.
Proof. intros H. replace v' with v; auto. now apply functional_extensionality. Qed.
Lemma set_sym_same v x : set_sym v x (v x) = v.
Proof. apply functional_extensionality. intros s. unfold set_sym. destruct (String.eqb_spec s x); congruence. Qed.

Lemma deriv_ext f g x l : (forall t, f t = g t) -> derivable_pt_lim f x l -> derivable_pt_lim g x l.
Proof. intros H. replace g with f; auto. now apply functional_extensionality. Qed.

Open Scope R_scope.
Lemma deriv_powerRZ n x : ((n < 0)%Z -> x <> 0) -> n <> 0%Z -> derivable_pt_lim (fun t => powerRZ t n) x (IZR n * powerRZ x (n - 1)).
Proof.
  intros H N. destruct n as [|q|q]; [tauto| |].
  - assert (E := derivable_pt_lim_pow x (Pos.to_nat q)). cbn [powerRZ]. replace (IZR (Zpos q)) with (INR (Pos.to_nat q)) by (rewrite INR_IZR_INZ, positive_nat_Z; auto).
    replace (powerRZ x (Zpos q - 1)) with (x ^ pred (Pos.to_nat q)); [exact E|].
    rewrite pow_powerRZ. f_equal. assert (P := Pos2Nat.is_pos q). lia.
  - assert (X : x <> 0) by (apply H; lia). clear H N. cbn [powerRZ].
    assert (E := derivable_pt_lim_pow x (Pos.to_nat q)).
    assert (D := @derivable_pt_lim_div (fct_cte 1) (fun t => t ^ Pos.to_nat q) x 0 _ (derivable_pt_lim_const 1 x) E (pow_nonzero _ _ X)).
    eapply deriv_ext in D; [|intros t; unfold div_fct, fct_cte, Rdiv; rewrite Rmult_1_l; reflexivity].
    match type of D with derivable_pt_lim _ _ ?d => replace (IZR (Zneg q) * powerRZ x (Zneg q - 1)) with d; [exact D|] end.
    replace (IZR (Zneg q)) with (- INR (Pos.to_nat q)) by (rewrite INR_IZR_INZ, positive_nat_Z; reflexivity).
    replace (Zneg q - 1)%Z with (- Z.of_nat (S (Pos.to_nat q)))%Z by lia.
    rewrite powerRZ_neg', <- pow_powerRZ by auto. unfold fct_cte, Rsqr.
    destruct (Pos.to_nat q) as [|m] eqn:Q; [assert (P := Pos2Nat.is_pos q); lia|]. cbn [pred].
    cbn [pow]. rewrite ?pow_inv. field. split; auto. now apply pow_nonzero.
Qed.

Section Point.
Context (v : string -> R) (p : string -> list idx -> R) (x : string).
Notation V := (val v p).
Notation at_ e := (fun t => val (set_sym v x t) p e).

Lemma at_here e : val (set_sym v x (v x)) p e = V e. Proof. now rewrite set_sym_same. Qed.

Lemma deriv_val e : smooth v p e -> derivable_pt_lim (at_ e) (v x) (V (diff x e)).
Proof.
  induction e; intros H.
  - cbn. apply (derivable_pt_lim_const (IZR z)).
  - cbn [val diff]. unfold set_sym. destruct (String.eqb s x); [apply derivable_pt_lim_id|apply (derivable_pt_lim_const (v s))].
  - cbn. apply (derivable_pt_lim_const (p base ixs)).
  - destruct o; cbn [smooth] in H.
    + apply (derivable_pt_lim_plus (at_ e1) (at_ e2)); tauto.
    + apply (derivable_pt_lim_minus (at_ e1) (at_ e2)); tauto.
    + cbn [val diff]. destruct H as (H1 & H2). assert (D := @derivable_pt_lim_mult (at_ e1) (at_ e2) (v x) _ _ (IHe1 H1) (IHe2 H2)).
      cbn beta in D. rewrite !at_here in D. exact D.
    + cbn [val diff]. destruct H as (H1 & H2 & H3).
      assert (D := @derivable_pt_lim_div (at_ e1) (at_ e2) (v x) _ _ (IHe1 H1) (IHe2 H2)). cbn beta in D. rewrite !at_here in D. specialize (D H3).
      match type of D with derivable_pt_lim _ _ ?d => match goal with |- derivable_pt_lim _ _ ?g => replace g with d; [exact D|] end end.
      unfold Rsqr. field. auto.
    + destruct H as (H1 & H2 & H3). destruct (is_num e2) as [n|] eqn:N.
      * destruct e2; try discriminate. injection N as ->. rewrite diff_pow_num. destruct (Z.eqb_spec n 0).
        { subst. cbn. apply (derivable_pt_lim_const 1). }
        assert (P := @deriv_powerRZ n (V e1) H3 n0). cbn [val is_num].
        assert (D := @derivable_pt_lim_comp (at_ e1) (fun t => powerRZ t n) (v x) _ (IZR n * powerRZ (V e1) (n - 1)) (IHe1 H1)).
        cbn beta in D. rewrite at_here in D. specialize (D P). exact D.
      * rewrite diff_pow_gen by auto. cbn [val]. rewrite N.
        assert (L := @derivable_pt_lim_comp (at_ e1) ln (v x) _ (/ V e1) (IHe1 H1)). cbn beta in L. rewrite at_here in L. specialize (L (derivable_pt_lim_ln _ H3)).
        assert (M := @derivable_pt_lim_mult (at_ e2) (comp ln (at_ e1)) (v x) _ _ (IHe2 H2) L).
        assert (D := @derivable_pt_lim_comp _ exp (v x) _ _ M (derivable_pt_lim_exp _)).
        unfold comp, mult_fct in D. cbn beta in D. rewrite !at_here in D. unfold Rpower.
        match type of D with derivable_pt_lim _ _ ?d => match goal with |- derivable_pt_lim _ _ ?g => replace g with d; [exact D|] end end.
        field. lra.
  - destruct f; cbn [smooth] in H.
    + cbn [val diff]. assert (D := @derivable_pt_lim_comp (at_ e) exp (v x) _ _ (IHe H) (derivable_pt_lim_exp _)). cbn beta in D. rewrite at_here in D. exact D.
    + cbn [val diff]. destruct H as (H1 & H2). assert (L := @derivable_pt_lim_comp (at_ e) ln (v x) _ (/ V e) (IHe H1)). cbn beta in L. rewrite at_here in L.
      specialize (L (derivable_pt_lim_ln _ H2)). unfold Rdiv. rewrite Rmult_comm. exact L.
  - destruct H.
Qed.
End Point.

Lemma smooth_diff v p x e : smooth v p e -> smooth v p (diff x e).
Proof.
  induction e; intros H; try now cbn.
  - destruct o; cbn [smooth] in H; cbn [diff smooth val].
    + tauto. + tauto. + tauto.
    + destruct H as (H1 & H2 & H3). repeat split; auto using Rmult_integral_contrapositive_currified.
    + destruct H as (H1 & H2 & H3). destruct (is_num e2) as [n|] eqn:N.
      * destruct e2; try discriminate. injection N as ->. destruct (Z.eqb_spec n 0); [exact I|]. cbn [smooth is_num]. repeat split; auto.
        intros L. apply H3. lia.
      * change (smooth v p (diff x (SBin OPow e1 e2))). rewrite diff_pow_gen by auto. cbn [smooth val]. rewrite N. repeat split; auto. lra.
  - destruct f; cbn [smooth] in H; cbn [diff smooth].
    + auto. + destruct H. repeat split; auto. lra.
Qed.

(** Mixed derivatives commute *)
Lemma diff_comm v p x y e : smooth v p e -> val v p (diff x (diff y e)) = val v p (diff y (diff x e)).
Proof.
  induction e; intros H.
  - reflexivity.
  - cbn. reflexivity.
  - reflexivity.
  - destruct o; cbn [smooth] in H.
    + cbn. rewrite IHe1, IHe2; tauto.
    + cbn. rewrite IHe1, IHe2; tauto.
    + cbn. rewrite IHe1, IHe2; try tauto. ring.
    + destruct H as (H1 & H2 & H3). cbn. rewrite IHe1, IHe2 by tauto. field. auto.
    + destruct H as (H1 & H2 & H3). destruct (is_num e2) as [n|] eqn:N.
      * destruct e2; try discriminate. injection N as ->. rewrite !diff_pow_num. destruct (Z.eqb_spec n 0); [reflexivity|].
        cbn [diff]. destruct (Z.eqb_spec (n - 1) 0); cbn [val]; rewrite IHe1 by auto; ring.
      * rewrite !diff_pow_gen by auto. change (diff x (SBin OMul ?a ?b)) with (SBin OAdd (SBin OMul (diff x a) b) (SBin OMul a (diff x b))).
        change (diff y (SBin OMul ?a ?b)) with (SBin OAdd (SBin OMul (diff y a) b) (SBin OMul a (diff y b))).
        rewrite !diff_pow_gen by auto. cbn [diff]. cbn [val]. rewrite N, IHe1, IHe2 by auto. field. lra.
  - destruct f; cbn [smooth] in H.
    + cbn. rewrite IHe by auto. ring.
    + destruct H. cbn. rewrite IHe by auto. field. lra.
  - destruct H.
Qed.

(** A symbol that does not occur *)
Lemma diff_absent v p x e : ~ In x (atoms e) -> val v p (diff x e) = 0.
Proof.
  induction e; intros H; cbn [atoms] in H; rewrite ?in_app_iff in H.
  - reflexivity.
  - cbn. destruct (String.eqb_spec s x); auto. subst. exfalso. apply H. now left.
  - reflexivity.
  - assert (H1 : ~ In x (atoms e1)) by tauto. assert (H2 : ~ In x (atoms e2)) by tauto. specialize (IHe1 H1). specialize (IHe2 H2). destruct o.
    1-4: cbn; rewrite IHe1, IHe2; unfold Rdiv; ring.
    destruct (is_num e2) as [n|] eqn:N.
    + destruct e2; try discriminate. rewrite diff_pow_num. destruct (Z.eqb z 0); [reflexivity|]. cbn. rewrite IHe1. ring.
    + rewrite diff_pow_gen by auto. cbn [val]. rewrite N, IHe1, IHe2. unfold Rdiv. ring.
  - destruct f; cbn; rewrite IHe by auto; unfold Rdiv; ring.
  - reflexivity.
Qed.
Close Scope R_scope.
