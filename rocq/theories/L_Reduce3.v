(** Lemmas for C47, continued: the dictionaries and the loop. *)
From Coq Require Import Reals Lra.
From Verif Require Import Py PyStr M_SymExpr S_Reduce L_Reduce L_Reduce2.
Local Open Scope string_scope.
Local Open Scope list_scope.

Lemma combine_app {A B} (a1 a2 : list A) (b1 b2 : list B) : length a1 = length b1 -> combine (a1 ++ a2) (b1 ++ b2) = combine a1 b1 ++ combine a2 b2.
Proof. revert b1. induction a1 as [|x a1 IH]; intros [|y b1] H; cbn in *; try discriminate; auto. f_equal. apply IH. lia. Qed.
Lemma combine_map2 {A B A' B'} (f : A -> A') (h : B -> B') l m : combine (map f l) (map h m) = map (fun p => (f (fst p), h (snd p))) (combine l m).
Proof. revert m. induction l as [|x l IH]; intros [|y m]; cbn; auto. now rewrite IH. Qed.

Lemma product_len2 {A} (cs : list (list A * list A)) : Forall (fun c => length (fst c) = length (snd c)) cs ->
  length (product (map fst cs)) = length (product (map snd cs)).
Proof. intros H. rewrite !product_length. induction H; cbn; auto. Qed.

Lemma combine_product {A} (cs : list (list A * list A)) : Forall (fun c => length (fst c) = length (snd c)) cs ->
  combine (product (map snd cs)) (product (map fst cs)) =
  map (fun ps => (map fst ps, map snd ps)) (product (map (fun c => combine (snd c) (fst c)) cs)).
Proof.
  induction 1 as [|(A1 & B1) cs L F IH]; cbn in *; auto.
  assert (E := product_len2 F).
  revert A1 L. induction B1 as [|x B1 IHB]; intros [|y A1] L; cbn in *; try discriminate; auto.
  rewrite combine_app by (rewrite !map_length; congruence). rewrite map_app. f_equal; [|apply IHB; lia].
  rewrite combine_map2, IH, !map_map. apply map_ext. reflexivity.
Qed.


Section Axes.
Context (coords : dict (list string)) (axes : string -> list (list string)).
Notation lam := (lam axes).
Definition model_index (i : idx) (labs : list string) : Prop := exists s, i = IVar s /\ dget s coords = Some labs.

Lemma in_combine_seq {A} (ls : list A) n x : In (n, x) (combine (seq 0 (length ls)) ls) <-> nth_error ls n = Some x.
Proof.
  enough (G : forall o, In (n, x) (combine (seq o (length ls)) ls) <-> o <= n /\ nth_error ls (n - o) = Some x).
  { rewrite G. rewrite Nat.sub_0_r. split; [tauto|]. intros; split; auto; lia. }
  induction ls as [|a ls IH]; intros o; cbn.
  - split; [easy|]. intros (_ & H). now destruct (n - o).
  - rewrite IH. split.
    + intros [E|(H & E)]; [injection E as <- <-; rewrite Nat.sub_diag; auto|]. split; [lia|]. replace (n - o) with (S (n - S o)) by lia. exact E.
    + intros (H & E). destruct (Nat.eq_dec n o); [left; subst; rewrite Nat.sub_diag in E; cbn in E; congruence|].
      right. split; [lia|]. replace (n - o) with (S (n - S o)) in E by lia. exact E.
Qed.

Context (PL : plain_labels coords).

Lemma index_choices_ok used i labs : model_index i labs ->
  exists c, index_choices coords used i = Ok c /\ length (fst c) = length (snd c) /\
    (forall p, In p (combine (snd c) (fst c)) -> snd p = match fst p with IPos k => match nth_error labs k with Some s => ILab s | None => IPos k end | x => x end) /\
    (forall y, rel coords used i y -> exists z, In (y, z) (combine (snd c) (fst c))).
Proof.
  intros (s & -> & D). destruct (PL _ D) as (NE & NN). unfold index_choices, dgetitem. rewrite D. cbn [bind].
  assert (LI : map label_idx labs = map ILab labs).
  { clear - NN. induction NN as [|l ls H NN IH]; cbn; auto. unfold label_idx at 1. rewrite H. now f_equal. }
  destruct (mem_str s used) eqn:U.
  - eexists; split; [reflexivity|]. cbn [fst snd]. rewrite !map_length, seq_length. split; auto. rewrite LI, combine_map2. split.
    + intros p P. apply in_map_iff in P as ((n & l) & <- & P). cbn. apply in_combine_seq in P. now rewrite P.
    + intros y (s' & ls & E & D' & R). injection E as <-. assert (ls = labs) by congruence. subst.
      apply mem_str_In in U. destruct R as [(_ & n & -> & L)|(R & _)]; [|tauto].
      destruct (nth_error labs n) as [l|] eqn:E; [|apply nth_error_None in E; lia]. exists (ILab l). apply in_map_iff. exists (n, l). split; auto.
      now apply in_combine_seq.
  - eexists; split; [reflexivity|]. cbn [fst snd]. rewrite !map_length. split; auto. rewrite combine_map2. split.
    + intros p P. apply in_map_iff in P as (q & <- & P). reflexivity.
    + intros y (s' & ls & E & D' & R). injection E as <-. destruct R as [(R & _)|(_ & ->)]; [apply mem_str_In in R; congruence|].
      destruct labs as [|l labs]; [tauto|]. exists (IVar s). cbn. now left.
Qed.

Lemma make_sub_dict_ok b l used : Forall2 model_index l (axes b) ->
  exists d, make_sub_dict coords (b, l) used = Ok d /\
    (forall kv, In kv d -> exists k, kv = (SIx b k, SIx b (lam b k))) /\
    (forall k, Forall2 (rel coords used) l k -> In (SIx b k, SIx b (lam b k)) d).
Proof.
  intros F. unfold make_sub_dict. cbn [fst snd].
  assert (X : exists cs, map_res (index_choices coords used) l = Ok cs /\ Forall (fun c => length (fst c) = length (snd c)) cs /\
    (forall ps, Forall2 (fun p c => In p (combine (snd c) (fst c))) ps cs -> map snd ps = lab_ixs (axes b) (map fst ps)) /\
    (forall k, Forall2 (rel coords used) l k -> exists ps, map fst ps = k /\ Forall2 (fun p c => In p (combine (snd c) (fst c))) ps cs)).
  { induction F as [|i labs l labs1 M F IH]; cbn [map_res].
    - exists []. repeat split; auto. + intros ps H. now inversion H. + intros k H. inversion H; subst. exists []. auto.
    - destruct (index_choices_ok used M) as (c & -> & C1 & C2 & C3). destruct IH as (cs & -> & I1 & I2 & I3). cbn [bind].
      exists (c :: cs). split; auto. split; auto. split.
      + intros ps H. inversion H as [|p0 c0 ps0 cs0 HA HB]; subst. cbn [map]. rewrite (C2 _ HA), (I2 _ HB). destruct (fst p0); reflexivity.
      + intros k H. inversion H as [|i0 y l0 k0 HA HB]; subst. destruct (C3 _ HA) as (z & Z). destruct (I3 _ HB) as (ps & <- & P). exists ((y, z) :: ps). split; auto. }
  destruct X as (cs & -> & L & X1 & X2). cbn [bind]. eexists; split; [reflexivity|]. rewrite combine_map2, combine_product by auto. split.
  - intros kv H. apply in_map_iff in H as (p & <- & H). apply in_map_iff in H as (ps & <- & H). cbn [fst snd]. apply in_product in H.
    exists (map fst ps). f_equal. f_equal. apply X1. clear - H. revert H. generalize cs. induction ps; intros c H; destruct c; inversion H; subst; constructor; auto.
  - intros k H. destruct (X2 _ H) as (ps & <- & P). apply in_map_iff. exists (map fst ps, map snd ps). split.
    + cbn. f_equal. f_equal. now apply X1.
    + apply in_map_iff. exists ps. split; auto. apply in_product. clear - P. induction P; cbn; constructor; auto.
Qed.

Context (si : sexpr -> list string -> bool) (dord : list (sexpr * sexpr) -> list (sexpr * sexpr)) (DO : walks_set dord).

(** A partial labelling of e0 that has treated the keys in K *)
Definition partial_lab (e0 : sexpr) (K : string -> list idx -> Prop) (e : sexpr) : Prop :=
  exists f, e = leafmap f e0 /\ (forall b l, f b l = l \/ f b l = lam b l) /\ (forall b l, K b l -> f b l = lam b l).

Lemma lam_idem b l : lam b (lam b l) = lam b l.
Proof. apply lab_ixs_idem. Qed.

Lemma partial_step e0 K b k e : no_reduction e0 -> partial_lab e0 K e ->
  partial_lab e0 (fun b' l => K b' l \/ (b' = b /\ l = k)) (subs1 si (SIx b k) (SIx b (lam b k)) e).
Proof.
  intros R (f & -> & F & FK). rewrite subs1_leaf by now apply leafmap_nored. rewrite leafmap_comp. eexists; split; [reflexivity|].
  assert (G : forall b0 l, f b0 l = lam b0 l -> (if (String.eqb b0 b && list_eqb idx_eqb (f b0 l) k)%bool then lam b k else f b0 l) = lam b0 l).
  { intros b0 l E. rewrite E. destruct (String.eqb_spec b0 b); cbn; auto. destruct (list_eqb idx_eqb (lam b0 l) k) eqn:Q; auto.
    apply (list_eqb_eq _ idx_eqb_eq) in Q. subst. apply lam_idem. }
  split.
  - intros b0 l. destruct (F b0 l) as [E|E]; [|right; now apply G]. rewrite E.
    destruct (String.eqb_spec b0 b); cbn; auto. destruct (list_eqb idx_eqb l k) eqn:Q; auto.
    apply (list_eqb_eq _ idx_eqb_eq) in Q. subst. auto.
  - intros b0 l [H|(-> & ->)]; [apply G; auto|]. destruct (F b k) as [E|E]; [|now apply G]. rewrite E, String.eqb_refl. cbn.
    now rewrite (proj2 (list_eqb_eq _ idx_eqb_eq k k) eq_refl).
Qed.

Lemma partial_weaken e0 (K K' : string -> list idx -> Prop) e : (forall b l, K' b l -> K b l) -> partial_lab e0 K e -> partial_lab e0 K' e.
Proof. intros H (f & E & F & G). exists f. auto. Qed.

Lemma partial_dict e0 K d e : no_reduction e0 -> (forall kv, In kv d -> exists b k, kv = (SIx b k, SIx b (lam b k))) -> partial_lab e0 K e ->
  partial_lab e0 (fun b l => K b l \/ In (SIx b l, SIx b (lam b l)) d) (subs si dord d e).
Proof.
  intros R D P. unfold subs. assert (W := DO d). destruct W as (_ & W).
  assert (D' : forall kv, In kv (dord d) -> exists b k, kv = (SIx b k, SIx b (lam b k))) by (intros kv H; apply D; now apply W).
  apply partial_weaken with (K := fun b l => K b l \/ In (SIx b l, SIx b (lam b l)) (dord d)); [intros b l [|]; auto; right; now apply W|].
  clear W D. revert e K P. induction (dord d) as [|kv ds IH]; intros e K P; cbn [fold_left].
  - apply partial_weaken with (K := K); auto. intros b l [|[]]; auto.
  - destruct (D' kv (or_introl eq_refl)) as (b & k & ->). cbn [fst snd].
    eapply partial_weaken; [|apply IH; [intros kv H; apply D'; now right | apply partial_step; eauto]].
    cbn. intros b' l [H|[H|H]]; auto. injection H as <- <-. auto.
Qed.

Lemma expand_op_ok o a lims : no_reduction a -> (forall b l, In (b, l) (indexed_exprs a) -> Forall2 model_index l (axes b)) -> lims_ok coords lims ->
  expand_op si dord coords (SRed o a lims) = Ok (leafmap lam (doit (SRed o a lims))).
Proof.
  intros R M L. unfold expand_op. set (used := map fst lims).
  assert (T : typed coords axes a).
  { intros b l H. specialize (M _ _ H). clear - M. induction M; constructor; auto. left. auto. }
  assert (E : doit (SRed o a lims) = fold_left (doit1 o) lims a) by (cbn; now rewrite doit_nored). rewrite E. clear E.
  set (e0 := fold_left (doit1 o) lims a).
  destruct (@doit_spec coords axes (fun _ _ => None) (fun _ => None) o lims a R T L) as (R0 & T0 & _). fold e0 in R0, T0.
  assert (G : forall vars e K, (forall b l, In (b, l) vars -> Forall2 model_index l (axes b)) -> partial_lab e0 K e ->
    exists e', fold_res (fun e var => let* d := make_sub_dict coords var used in Ok (subs si dord d e)) e vars = Ok e' /\
      partial_lab e0 (fun b l => K b l \/ exists l0, In (b, l0) vars /\ Forall2 (rel coords used) l0 l) e').
  { induction vars as [|(b & l) vars IH]; intros e K V P; cbn [fold_res].
    - exists e. split; auto. apply partial_weaken with (K := K); auto. intros b l [H|(l0 & [] & _)]; auto.
    - destruct (@make_sub_dict_ok b l used) as (d & -> & D1 & D2); [apply V; now left|]. cbn [bind].
      destruct (IH (subs si dord d e) (fun b l => K b l \/ In (SIx b l, SIx b (lam b l)) d)) as (e' & -> & P').
      + intros b' l' H. apply V. now right.
      + apply partial_dict; auto. intros kv H. destruct (D1 _ H) as (k & ->). eauto.
      + exists e'. split; auto. apply partial_weaken with (2 := P'). intros b' l' [H|(l0 & [H|H] & F)]; auto.
        * injection H as <- <-. left. right. now apply D2.
        * right. eauto. }
  destruct (G (indexed_exprs a) e0 (fun _ _ => False)) as (e' & -> & (f & -> & _ & F)); auto.
  - exists (fun _ l => l). split; [now rewrite leafmap_id|]. split; auto. intros b l [].
  - f_equal. apply leafmap_ext. intros b l H. apply F. right.
    destruct (@doit_leaves coords axes (fun _ _ => None) (fun _ => None) o lims a [] R T L a) with (b := b) (l := l) as (l0 & I0 & F0); auto.
    + intros b' l' H'. exists l'. split; auto. specialize (M _ _ H'). clear - M. induction M; constructor; auto.
      destruct H as (s & -> & D). exists s, y. repeat split; auto.
    + exists l0. split; auto. rewrite app_nil_r in F0. clear - F0. induction F0 as [|x y l0 l1 (s & ls & E & D & Q) F0 IH]; constructor; auto.
      exists s, ls. repeat split; auto. unfold used. now rewrite <- in_rev in Q.
Qed.
End Axes.
