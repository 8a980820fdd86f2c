(** Lemmas for C18, C47, C48. *)
From Coq Require Import Reals Lra.
From Verif Require Import Py PyStr M_SymExpr S_Reduce.
Local Open Scope string_scope.
Local Open Scope list_scope.

(** * Equality *)
Lemma idx_eqb_eq a b : idx_eqb a b = true <-> a = b.
Proof.
  destruct a, b; cbn; split; intros H; try discriminate; try (apply String.eqb_eq in H; now subst); try (apply Nat.eqb_eq in H; now subst);
    injection H as ->; try apply String.eqb_refl; apply Nat.eqb_refl.
Qed.
Lemma list_eqb_eq {A} (f : A -> A -> bool) (F : forall a b, f a b = true <-> a = b) l m : list_eqb f l m = true <-> l = m.
Proof.
  revert m. induction l as [|a l IH]; intros [|b m]; cbn; split; intros H; try discriminate; auto.
  - apply andb_prop in H as (H1 & H2). apply F in H1. apply IH in H2. now subst.
  - injection H as -> ->. now rewrite (proj2 (F b b) eq_refl), (proj2 (IH m) eq_refl).
Qed.
Lemma lim_eqb_eq a b : lim_eqb a b = true <-> a = b.
Proof.
  destruct a as (a & (x & y)), b as (b & (x' & y')). unfold lim_eqb. cbn. rewrite !andb_true_iff, String.eqb_eq, !Nat.eqb_eq.
  split; [intros ((-> & ->) & ->); auto | intros H; injection H; intros; subst; auto].
Qed.
Lemma sexpr_eqb_eq a b : sexpr_eqb a b = true <-> a = b.
Proof.
  revert b. induction a; intros [ ]; cbn; split; intros H; try discriminate.
  - apply Z.eqb_eq in H. now subst.
  - injection H as ->. apply Z.eqb_refl.
  - apply String.eqb_eq in H. now subst.
  - injection H as ->. apply String.eqb_refl.
  - apply andb_prop in H as (H1 & H2). apply String.eqb_eq in H1. apply (list_eqb_eq idx_eqb idx_eqb_eq) in H2. now subst.
  - injection H as -> ->. rewrite String.eqb_refl. now apply (list_eqb_eq idx_eqb idx_eqb_eq).
  - apply andb_prop in H as (H1 & H2). apply andb_prop in H1 as (H0 & H1). apply IHa1 in H1. apply IHa2 in H2. subst.
    destruct o, o0; try discriminate; auto.
  - injection H as -> -> ->. rewrite (proj2 (IHa1 _) eq_refl), (proj2 (IHa2 _) eq_refl). now destruct o0.
  - apply andb_prop in H as (H1 & H2). apply IHa in H2. subst. destruct f, f0; try discriminate; auto.
  - injection H as -> ->. rewrite (proj2 (IHa _) eq_refl). now destruct f0.
  - apply andb_prop in H as (H1 & H2). apply andb_prop in H1 as (H0 & H1). apply IHa in H1. apply (list_eqb_eq lim_eqb lim_eqb_eq) in H2. subst.
    destruct o, o0; try discriminate; auto.
  - injection H as -> -> ->. rewrite (proj2 (IHa _) eq_refl), (proj2 (list_eqb_eq lim_eqb lim_eqb_eq _ _) eq_refl). now destruct o0.
Qed.
Lemma sexpr_eqb_refl a : sexpr_eqb a a = true. Proof. now apply sexpr_eqb_eq. Qed.
Lemma mem_str_In s l : mem_str s l = true <-> In s l.
Proof.
  unfold mem_str. rewrite existsb_exists. split; [intros (x & H & E); apply String.eqb_eq in E; now subst | intros H; exists s; split; auto; apply String.eqb_refl].
Qed.

(** * C18: dims *)
Lemma index_names_occurs e i : In i (index_names e) <-> occurs i e.
Proof.
  induction e; cbn [index_names].
  - split; [easy|inversion 1].
  - split; [easy|inversion 1].
  - rewrite in_flat_map. split.
    + intros (x & H & Hx). destruct x; cbn in Hx; try easy. destruct Hx as [->|[]]. now constructor.
    + inversion 1; subst. eexists; split; eauto. now left.
  - rewrite in_app_iff, IHe1, IHe2. split; [intros [|]; [now apply OcL | now apply OcR] | inversion 1; auto].
  - rewrite IHe. split; [now constructor | inversion 1; auto].
  - rewrite in_app_iff, IHe. split; [intros [|]; [now apply OcRed|now apply OcLim] | inversion 1; auto].
Qed.

Lemma pos_of_nth l k d : NoDup l -> k < length l -> pos_of (nth k l d) l = k.
Proof.
  revert k. induction l as [|a l IH]; intros k N K; [cbn in K; lia|]. inversion N; subst.
  destruct k; cbn [nth pos_of]; [now rewrite String.eqb_refl|].
  destruct (String.eqb_spec (nth k l d) a) as [E|E]; [exfalso; apply H1; rewrite <- E; apply nth_In; cbn in K; lia|].
  f_equal. apply IH; cbn in K; auto; lia.
Qed.

Fixpoint incr_by {A} (key : A -> nat) (l : list A) : Prop :=
  match l with [] => True | a :: l' => (forall b, In b l' -> key a < key b) /\ incr_by key l' end.
Lemma sort_by_incr {A} (key : A -> nat) l : incr_by key l -> sort_by key l = l.
Proof.
  induction l as [|a l IH]; cbn; auto. intros (H & I). rewrite IH; auto. destruct l; cbn; auto.
  assert (L := H a0 (or_introl eq_refl)). now rewrite (proj2 (Nat.leb_le _ _)) by lia.
Qed.
Lemma filter_incr {A} (key : A -> nat) f l : incr_by key l -> incr_by key (filter f l).
Proof.
  induction l as [|a l IH]; cbn; auto. intros (H & I). destruct (f a); cbn; auto. split; auto. intros b B. apply filter_In in B as (B & _). auto.
Qed.
Lemma pos_of_app p l x : ~ In x p -> pos_of x (p ++ l) = length p + pos_of x l.
Proof.
  induction p as [|a p IH]; cbn; auto. intros H. destruct (String.eqb_spec x a); [subst; tauto|]. rewrite IH by tauto. reflexivity.
Qed.
Lemma pos_of_incr p l : NoDup (p ++ l) -> incr_by (fun x => pos_of x (p ++ l)) l.
Proof.
  revert p. induction l as [|a l IH]; intros p N; cbn [incr_by]; auto. split.
  - intros b B.
    assert (Na : ~ In a p) by (apply NoDup_remove_2 in N; rewrite in_app_iff in N; tauto).
    assert (Nb : ~ In b p /\ b <> a).
    { replace (p ++ a :: l) with ((p ++ [a]) ++ l) in N by now rewrite <- app_assoc.
      assert (X : ~ In b (p ++ [a])).
      { revert B N. clear. intros B N I. induction (p ++ [a]); [easy|]. cbn in N. inversion N; subst. destruct I as [->|I]; auto. apply H1. apply in_app_iff. auto. }
      rewrite in_app_iff in X. cbn in X. split; [tauto|]. intros ->. tauto. }
    rewrite !pos_of_app by tauto. cbn. rewrite String.eqb_refl. destruct (String.eqb_spec b a); [tauto|]. lia.
  - replace (p ++ a :: l) with ((p ++ [a]) ++ l) in * by now rewrite <- app_assoc. apply IH. auto.
Qed.

Lemma find_equation_dims_filter e ds : NoDup ds -> find_equation_dims e ds = filter (has_index e) ds.
Proof.
  intros N. unfold find_equation_dims. apply sort_by_incr. apply (filter_incr (fun x => pos_of x ds)). apply (pos_of_incr [] ds). auto.
Qed.

(** The relative order of two members of a list *)
Lemma filter_before {A} (f : A -> bool) (l : list A) : exists rest, Permutation l (filter f l ++ rest).
Proof.
  induction l as [|a l (r & IH)]; [now exists []|]. cbn. destruct (f a).
  - exists r. cbn. now constructor.
  - exists (a :: r). etransitivity; [constructor; exact IH|]. apply Permutation_middle.
Qed.

Lemma c18_dims__p :
  forall e coords_dims, NoDup coords_dims ->
    let ds := find_equation_dims e coords_dims in
    NoDup ds /\
    (forall d, In d ds <-> In d coords_dims /\ occurs d e) /\
    (forall k1 k2, k1 < k2 -> k2 < length ds ->
       exists j1 j2, j1 < j2 /\ j2 < length coords_dims /\
                     nth_error ds k1 = nth_error coords_dims j1 /\ nth_error ds k2 = nth_error coords_dims j2).
Proof.
  intros e cd N ds. unfold ds. rewrite find_equation_dims_filter by auto. split; [now apply NoDup_filter|]. split.
  - intros d. rewrite filter_In. unfold has_index. rewrite mem_str_In, index_names_occurs. reflexivity.
  - clear ds N. induction cd as [|a l IH]; cbn; [lia|]. destruct (has_index e a); cbn.
    + intros k1 k2 K L. destruct k2 as [|k2]; [lia|]. destruct k1 as [|k1].
      * exists 0. cbn. assert (I : k2 < length (filter (has_index e) l)) by lia.
        destruct (nth_error (filter (has_index e) l) k2) eqn:E; [|apply nth_error_None in E; lia].
        apply nth_error_In in E. apply filter_In in E as (E & _). apply In_nth_error in E as (j & E). exists (S j). cbn.
        repeat split; auto; try lia. assert (j < length l) by (apply nth_error_Some; congruence). lia.
      * destruct (IH k1 k2 ltac:(lia) ltac:(lia)) as (j1 & j2 & J & L' & E1 & E2). exists (S j1), (S j2). cbn. repeat split; auto; lia.
    + intros k1 k2 K L. destruct (IH k1 k2 K L) as (j1 & j2 & J & L' & E1 & E2). exists (S j1), (S j2). cbn. repeat split; auto; lia.
Qed.
