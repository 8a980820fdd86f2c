(** Lemmas for C73 and C74. *)
From Coq Require Import Reals Lra DecimalString.
From Verif Require Import Py PyStr NdArray M_Primitives M_Expand M_SymExpr M_Simplify.
From Verif Require Import S_Layout S_Markers S_Expand S_Reduce S_Simplify.
From Verif Require Import L_Markers L_Expand L_Results L_Reduce L_Reduce2 L_Reduce4.
Local Open Scope string_scope.
Local Open Scope list_scope.

(** * Numerals *)
Lemma digits_val_uint u : forall acc, exists n, digits_val acc (NilEmpty.string_of_uint u) = Some n.
Proof. induction u; intros acc; cbn [NilEmpty.string_of_uint digits_val]; [eauto|..]; apply IHu. Qed.
Lemma numeral_str n : numeral (str_of_nat n) <> None.
Proof.
  destruct (str_of_nat_digits n) as (u & E & _ & N). rewrite E. pose proof (string_of_uint_nonempty N) as M.
  destruct (digits_val_uint u 0) as (k & K). unfold numeral. destruct (NilEmpty.string_of_uint u); congruence.
Qed.

(** * Meaning *)
Section Den.
Context (coords : dict (list string)).

Lemma den_ext v w g g' e : no_reduction e -> (forall s, g s = g' s) -> den coords v w g e = den coords v w g' e.
Proof.
  intros R G. induction e; cbn in *; auto; try easy.
  - replace (map (idx_lab g') ixs) with (map (idx_lab g) ixs); auto. apply map_ext. intros [ ]; cbn; auto.
  - destruct R. now rewrite IHe1, IHe2.
  - now rewrite IHe.
Qed.

Lemma den_mono v w w' g e x : no_reduction e -> (forall s y, w s = Some y -> w' s = Some y) ->
  den coords v w g e = Some x -> den coords v w' g e = Some x.
Proof.
  intros R W. revert x. induction e; cbn in *; intros x H; auto; try easy.
  - destruct R as (R1 & R2). destruct (den coords v w g e1) as [y1|]; [|easy]. destruct (den coords v w g e2) as [y2|]; [|easy].
    rewrite (IHe1 R1 y1 eq_refl), (IHe2 R2 y2 eq_refl). auto.
  - destruct (den coords v w g e) as [y1|]; [|easy]. rewrite (IHe R y1 eq_refl). auto.
Qed.

(** Replacing an expression by one with the same value *)
Lemma den_subs1 si v w old new e : (forall g, den coords v w g old = den coords v w g new) ->
  forall g, den coords v w g (subs1 si old new e) = den coords v w g e.
Proof.
  intros H. induction e; intros g; cbn [subs1]; destruct (sexpr_eqb _ old) eqn:E; try (apply sexpr_eqb_eq in E; rewrite E; now rewrite H); auto.
  - cbn. now rewrite IHe1, IHe2.
  - cbn. now rewrite IHe.
  - destruct (si old (map fst lims)); auto. cbn. now apply over_ext.
Qed.

Lemma subs1_nored_gen si old new e : no_reduction new -> no_reduction e -> no_reduction (subs1 si old new e).
Proof.
  intros N. induction e; cbn [subs1]; destruct (sexpr_eqb _ old); cbn; auto; tauto.
Qed.

(** The indexed leaves after replacing by a symbol *)
Lemma indexed_subs1 si old s e p : no_reduction e -> In p (indexed_exprs (subs1 si old (SSym s) e)) ->
  In p (indexed_exprs e) /\ old <> SIx (fst p) (snd p).
Proof.
  induction e; cbn [subs1]; intros R; destruct (sexpr_eqb _ old) eqn:E; cbn; try easy.
  - intros [<-|[]]. split; auto. intros ->. cbn in E. now rewrite String.eqb_refl, (proj2 (list_eqb_eq idx_eqb idx_eqb_eq _ _) eq_refl) in E.
  - cbn in R. destruct R as (R1 & R2). intros H. rewrite in_app_iff in *. destruct H as [H|H]; [destruct (IHe1 R1 H) | destruct (IHe2 R2 H)]; auto.
  - auto.
Qed.

(** Without indexed leaves only the scalars matter *)
Lemma den_no_index v v' w g g' e : no_reduction e -> indexed_exprs e = [] -> den coords v w g e = den coords v' w g' e.
Proof.
  induction e; cbn; intros R I; auto; try easy.
  - apply app_eq_nil in I as (I1 & I2). destruct R. now rewrite IHe1, IHe2.
  - now rewrite IHe.
Qed.

(** Every indexed leaf of an expression with a value has a value *)
Lemma den_leaf v w g e x b l : no_reduction e -> den coords v w g e = Some x -> In (b, l) (indexed_exprs e) ->
  exists ls y, all_some (map (idx_lab g) l) = Some ls /\ v b ls = Some y.
Proof.
  revert x. induction e; cbn; intros x R D; try easy.
  - intros [E|[]]. injection E as -> ->. destruct (all_some (map (idx_lab g) l)) as [ls|]; [|easy]. exists ls, x. auto.
  - destruct R as (R1 & R2). destruct (den coords v w g e1) as [y1|]; [|easy]. destruct (den coords v w g e2) as [y2|]; [|easy].
    intros I. apply in_app_iff in I as [I|I]; [exact (IHe1 _ R1 eq_refl I)|exact (IHe2 _ R2 eq_refl I)].
  - destruct (den coords v w g e) as [y1|]; [|easy]. intros I. exact (IHe _ R eq_refl I).
Qed.

(** Labels for indices *)
Lemma put_index_nored i x e : no_reduction e -> no_reduction (put_index i x e).
Proof. induction e; cbn; tauto. Qed.
Lemma den_put v w g i l e : no_reduction e -> den coords v w g (put_index i (ILab l) e) = den coords v w (set_lab g i (Some l)) e.
Proof.
  induction e; cbn; intros R; auto; try easy.
  - rewrite map_map. replace (map (fun x => idx_lab g (put_idx i (ILab l) x)) ixs) with (map (idx_lab (set_lab g i (Some l))) ixs); auto.
    apply map_ext. intros [s| |]; cbn; auto. unfold set_lab. now destruct (String.eqb_spec s i).
  - destruct R. now rewrite IHe1, IHe2.
  - now rewrite IHe.
Qed.
Lemma label_index_plain l : numeral l = None -> label_index (LStr l) = ILab l.
Proof. intros H. cbn. unfold label_idx. now rewrite H. Qed.
Lemma puts_nored ds e : no_reduction e -> no_reduction (fold_left update_eq_expr ds e).
Proof. revert e. induction ds as [|d ds IH]; cbn; auto. intros e R. apply IH. now apply put_index_nored. Qed.
Lemma den_puts v w ds ls e : Forall (fun l => numeral l = None) ls -> length ds = length ls -> no_reduction e ->
  den coords v w (fun _ => None) (fold_left update_eq_expr (combine ds (map LStr ls)) e) = den coords v w (assign ds ls) e.
Proof.
  revert ls e. induction ds as [|d ds IH]; intros [|l ls] e F L R; try discriminate; cbn [map combine fold_left].
  - now apply den_ext.
  - inversion F; subst. rewrite (IH ls); [|assumption|now injection L|now apply put_index_nored]. unfold update_eq_expr. cbn [fst snd]. rewrite label_index_plain by auto.
    rewrite den_put by auto. apply den_ext; auto.
Qed.
End Den.

(** * The dict of symbols *)
Lemma in_sdset k v d p : In p (sdset k v d) -> p = (k, v) \/ In p d.
Proof.
  induction d as [|(k' & v') d IH]; cbn; [intros [<-|[]]; auto|]. destruct (sexpr_eqb k' k) eqn:E; cbn.
  - apply sexpr_eqb_eq in E. subst. intros [<-|H]; auto.
  - intros [<-|H]; auto. apply IH in H as [->|H]; auto.
Qed.
Lemma sdset_key k v d : exists v', In (k, v') (sdset k v d).
Proof.
  induction d as [|(k' & v') d (x & IH)]; cbn; [exists v; auto|]. destruct (sexpr_eqb k' k) eqn:E; cbn; [|exists x; auto].
  apply sexpr_eqb_eq in E. subst. exists v. auto.
Qed.
Lemma sdset_keeps k v d k0 : (exists v0, In (k0, v0) d) -> exists v0, In (k0, v0) (sdset k v d).
Proof.
  intros (v0 & H). induction d as [|(k' & v') d IH]; cbn in *; [easy|]. destruct (sexpr_eqb k' k) eqn:E; cbn.
  - destruct H as [H|H]; [injection H as <- <-; exists v; auto|exists v0; auto].
  - destruct H as [H|H]; [injection H as <- <-; exists v'; auto|]. destruct (IH H) as (x & X). exists x. auto.
Qed.
Lemma sub_dict_in us p : In p (indexed_variables_to_sub_dict us) -> exists u, In u us /\ p = (to_sympy u, SSym (make_indexed_name u)).
Proof.
  unfold indexed_variables_to_sub_dict, indexed_variable_to_sympy_symbol.
  enough (G : forall d, In p (fold_left (fun d kv => sdset (fst kv) (snd kv) d) (combine (map to_sympy us) (map (fun o => SSym (make_indexed_name o)) us)) d) ->
    In p d \/ exists u, In u us /\ p = (to_sympy u, SSym (make_indexed_name u))) by (intros H; apply G in H as [[]|H]; auto).
  induction us as [|u us IH]; cbn; auto. intros d H. apply IH in H as [H|(u' & H & E)]; [|right; exists u'; auto].
  apply in_sdset in H as [->|H]; auto. right. exists u. auto.
Qed.
Lemma sub_dict_key us u : In u us -> exists n, In (to_sympy u, n) (indexed_variables_to_sub_dict us).
Proof.
  unfold indexed_variables_to_sub_dict, indexed_variable_to_sympy_symbol.
  enough (G : forall d, (In u us \/ exists n, In (to_sympy u, n) d) -> exists n, In (to_sympy u, n) (fold_left (fun d kv => sdset (fst kv) (snd kv) d) (combine (map to_sympy us) (map (fun o => SSym (make_indexed_name o)) us)) d)) by (intros H; apply G; auto).
  induction us as [|u' us IH]; cbn.
  - intros d [[]|H]; auto.
  - intros d [[->|H]|H]; apply IH; auto; right; [apply sdset_key|now apply sdset_keeps].
Qed.

(** * Substituting all symbols *)
Section All.
Context (coords : dict (list string)) (si : sexpr -> list string -> bool).
Lemma subs_value v w d e : (forall p, In p d -> forall g, den coords v w g (fst p) = den coords v w g (snd p)) ->
  forall g, den coords v w g (fold_left (fun e kv => subs1 si (fst kv) (snd kv) e) d e) = den coords v w g e.
Proof.
  revert e. induction d as [|p d IH]; cbn; auto. intros e H g. rewrite IH by auto. apply den_subs1. apply H. auto.
Qed.
Lemma subs_nored d e : (forall p, In p d -> no_reduction (snd p)) -> no_reduction e ->
  no_reduction (fold_left (fun e kv => subs1 si (fst kv) (snd kv) e) d e).
Proof. revert e. induction d as [|p d IH]; cbn; auto. intros e H R. apply IH; auto. apply subs1_nored_gen; auto. Qed.
Lemma subs_leaves d e q : (forall p, In p d -> exists s, snd p = SSym s) -> no_reduction e ->
  In q (indexed_exprs (fold_left (fun e kv => subs1 si (fst kv) (snd kv) e) d e)) ->
  In q (indexed_exprs e) /\ forall p, In p d -> fst p <> SIx (fst q) (snd q).
Proof.
  revert e. induction d as [|p d IH]; cbn; [intros; split; auto; easy|]. intros e H R Q.
  destruct (H p (or_introl eq_refl)) as (s & E). apply IH in Q as (Q1 & Q2); auto.
  - rewrite E in Q1. apply indexed_subs1 in Q1 as (Q1 & Q3); auto. split; auto. intros p' [<-|P]; auto.
  - rewrite E. apply subs1_nored_gen; auto. exact I.
Qed.
End All.

(** * The unpacked objects *)
Lemma product_map {A B} (f : A -> B) (ls : list (list A)) : product (map (map f) ls) = map (map f) (product ls).
Proof.
  induction ls as [|l ls IH]; cbn; auto. induction l as [|a l IHl]; cbn; auto. rewrite map_app, <- IHl, IH. f_equal. now rewrite !map_map.
Qed.
Lemma dget_lab c d : dget d (lab_coords c) = option_map (map LStr) (dget d c).
Proof. induction c as [|(k & v) c IH]; cbn; auto. now destruct (String.eqb d k). Qed.
Lemma dkeys_lab c : dkeys (lab_coords c) = dkeys c.
Proof. unfold dkeys, lab_coords. rewrite map_map. now apply map_ext. Qed.
Lemma labels_str c ds lss : Forall2 (fun d ls => dget d (lab_coords c) = Some ls) ds lss ->
  exists tss, lss = map (map LStr) tss /\ Forall2 (fun d ts => dget d c = Some ts) ds tss.
Proof.
  induction 1 as [|d ls ds lss H F (tss & -> & IH)]; [exists []; auto|]. rewrite dget_lab in H. destruct (dget d c) as [ts|] eqn:E; [|easy].
  injection H as <-. exists (ts :: tss). split; auto.
Qed.

(** One object: exactly one copy per element *)
Definition copy_of (o u : mobj) (ls : list string) : Prop :=
  same_attributes o u /\ o_dim_vals u = combine (o_dims o) (map LStr ls).
Lemma expand_copies order c o us : declared c o -> expand_obj_by_indices order o (lab_coords c) None Ignore = Ok us ->
  (forall u, In u us -> exists ls, element c (o_dims o) ls /\ copy_of o u ls) /\
  (forall ls, element c (o_dims o) ls -> exists u, In u us /\ copy_of o u ls).
Proof.
  intros (N & DV & _ & K) E.
  destruct (labels_of_dims (lab_coords c) (o_dims o)) as (lss & E1 & F1); [intros d D; rewrite dkeys_lab; auto|].
  destruct (@labels_str c _ _ F1) as (tss & -> & F2).
  assert (SH : has_shape (lab_coords c) o (map (@length label) (map (map LStr) tss))).
  { unfold has_shape. clear -F1. induction F1; cbn; constructor; auto. eexists; split; [exact H|reflexivity]. }
  destruct (@expand_general order (lab_coords c) o (o_dims o) None Ignore _ eq_refl (fun d h => h) SH) as (us' & lss' & E' & F' & _ & F1' & _).
  rewrite E in E'. injection E' as <-.
  assert (EL : lss' = map (map LStr) tss).
  { clear -F1 F1'. revert F1'. generalize lss'. induction F1; intros m H'; inversion H'; subst; auto. f_equal; auto. congruence. }
  subst lss'. rewrite product_map in F'.
  assert (EQ : forall ls, In ls (product tss) <-> element c (o_dims o) ls).
  { intros ls. rewrite in_product. unfold element. clear -F2. revert ls. induction F2 as [|d ts ds tss A F2 IH]; intros ls; split; intros H'.
    1-2: inversion H'; constructor.
    - inversion H' as [|x y xs ys X Y]; subst. constructor; [eauto|now apply IH].
    - inversion H' as [|x y xs ys (all & X & Z) Y]; subst. constructor; [congruence|now apply IH]. }
  assert (SL : forall ls u, In ls (product tss) -> set_labels o (o_dims o) (map LStr ls) = Ok u -> copy_of o u ls).
  { intros ls u I H. assert (LL : length (o_dims o) = length (map LStr ls)).
    { rewrite map_length. apply EQ in I. now apply Forall2_length in I. }
    destruct (@set_labels_ok o (o_dims o) (map LStr ls) (fun d h => h) LL) as (o2 & E2 & SA & D2).
    rewrite H in E2. injection E2 as <-. split; auto. rewrite D2, DV. now apply nodup_combine_keys. }
  split.
  - intros u U. clear -F' SL EQ U. revert SL EQ F' U. generalize (product tss) as p. intros p. revert us. induction p as [|ls p IH]; intros us SL EQ F' U; inversion F'; subst; [easy|].
    destruct U as [->|U]. + exists ls. split; [apply EQ; now left|]. apply SL; auto. now left.
    + clear IH. assert (X : exists ls, In ls p /\ set_labels o (o_dims o) (map LStr ls) = Ok u).
      { clear -H3 U. revert U H3. generalize l' as us. induction p as [|a p IH]; intros us U F; inversion F; subst; [easy|]. destruct U as [->|U]; [exists a; split; [now left|auto]|].
        destruct (IH _ U H3) as (b & B & C). exists b. split; auto. now right. }
      destruct X as (b & B & C). exists b. split; [apply EQ; now right|]. apply SL; auto. now right.
  - intros ls L. apply EQ in L. assert (X : exists u, In u us /\ set_labels o (o_dims o) (map LStr ls) = Ok u).
    { clear -F' L. revert us F' L. induction (product tss) as [|a p IH]; intros us F L; [easy|]. inversion F; subst. destruct L as [->|L]; [exists y; split; [now left|auto]|].
      destruct (IH _ H3 L) as (u & U & V). exists u. split; auto. now right. }
    destruct X as (u & U & V). exists u. split; auto.
Qed.

Lemma unpack_copies order c objs us : (forall o, In o objs -> declared c o) -> unpack_objects order objs (lab_coords c) = Ok us ->
  (forall u, In u us -> exists o ls, In o objs /\ element c (o_dims o) ls /\ copy_of o u ls) /\
  (forall o ls, In o objs -> element c (o_dims o) ls -> exists u, In u us /\ copy_of o u ls).
Proof.
  unfold unpack_objects. intros D H. destruct (map_res _ objs) as [uss|] eqn:E; [|easy]. cbn in H. injection H as <-.
  apply map_res_ok_Forall2 in E. induction E as [|o us objs uss Eo F IH]; [split; [easy|intros ? ? []]|].
  destruct IH as (I1 & I2); [intros; apply D; now right|]. destruct (@expand_copies order c o us (D o (or_introl eq_refl)) Eo) as (A & B). cbn [List.concat]. split.
  - intros u U. apply in_app_iff in U as [U|U].
    + destruct (A _ U) as (ls & L & C). exists o, ls. split; [now left|auto].
    + destruct (I1 _ U) as (o' & ls & O & L & C). exists o', ls. split; [now right|auto].
  - intros o' ls [<-|O] L.
    + destruct (B _ L) as (u & U & C). exists u. split; auto. apply in_app_iff. auto.
    + destruct (I2 _ _ O L) as (u & U & C). exists u. split; auto. apply in_app_iff. auto.
Qed.

Lemma element_plain c ds ls : plain_labels c -> element c ds ls -> Forall (fun l => numeral l = None) ls.
Proof.
  intros P E. induction E as [|d l ds ls (all & A & B) E IH]; constructor; auto. destruct (P _ _ A) as (_ & F). now apply (proj1 (Forall_forall _ _) F).
Qed.
Lemma dget_combine_map {B} (f : label -> B) (g : string -> B) ds (ls : list label) : NoDup ds -> length ds = length ls ->
  map (fun d => match dget d (combine ds ls) with Some l => f l | None => g d end) ds = map f ls.
Proof.
  revert ls. induction ds as [|d ds IH]; intros [|l ls] N L; try discriminate; auto. cbn. rewrite String.eqb_refl. f_equal.
  inversion N; subst. rewrite <- (IH ls) at 1; auto. apply map_ext_in. intros d' D. destruct (String.eqb_spec d' d); auto. subst. tauto.
Qed.
(** The key and the name of a copy *)
Lemma copy_key c o u ls : declared c o -> plain_labels c -> element c (o_dims o) ls -> copy_of o u ls ->
  to_sympy u = match o_dims o with [] => SSym (o_name o) | _ => SIx (o_name o) (map ILab ls) end /\
  make_indexed_name u = join "_" (o_name o :: ls).
Proof.
  intros (N & DV & BN & K) P E ((_ & NA & DI & _ & BA & _) & V). assert (L := Forall2_length E). split.
  - unfold to_sympy. rewrite DI, BA, V, BN. destruct (o_dims o) as [|d ds] eqn:EO; auto. rewrite <- EO in *. f_equal.
    rewrite dget_combine_map; auto; [|now rewrite map_length]. rewrite map_map. apply map_ext_in. intros l I. apply label_index_plain.
    assert (F := element_plain P E). now apply (proj1 (Forall_forall _ _) F).
  - unfold make_indexed_name. rewrite NA, V. do 2 f_equal. unfold dvals.
    assert (X : forall (A B : Type) (a : list A) (b : list B), length a = length b -> map snd (combine a b) = b).
    { clear. induction a; intros [|y b] L; cbn in *; try discriminate; auto. f_equal. apply IHa. lia. }
    rewrite X by (now rewrite map_length). rewrite map_map. cbn. apply map_id.
Qed.
