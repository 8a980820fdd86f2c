(** Lemmas for C109: equation texts as sympy reads them. *)
From Coq Require Import Ascii Reals Lra Lia ZArith.
From Verif Require Import Py PyStr NdArray M_Primitives M_PyExpr M_Expand M_SymExpr M_Simplify M_Tensor M_Parse.
From Verif Require Import S_PyExpr S_Meaning S_Production S_Layout S_Tensor S_Reduce S_Simplify S_NumbaModel S_Parse.
From Verif Require Import L_PyExpr L_Simplify L_NumbaModel L_Solved.
Local Open Scope string_scope.
Local Open Scope list_scope.

(** ** Numbers, names, the sign "=" *)
Lemma read_digits_eq s : forall acc, read_digits acc s = digits acc s.
Proof. induction s as [|a s IH]; intros acc; [reflexivity|]. cbn [read_digits digits]. destruct (is_digit a); [apply IH|reflexivity]. Qed.
Lemma whole_number_eq w : whole_number w = S_Meaning.number w.
Proof. unfold whole_number, S_Meaning.number. destruct w; [reflexivity|apply read_digits_eq]. Qed.

Lemma cut_eq_split a b : forall seen, (forall x y, a <> (x ++ "=" ++ y)%string) -> cut_eq seen (a ++ "=" ++ b)%string = Some ((seen ++ a)%string, b).
Proof.
  induction a as [|ch a IH]; intros seen H.
  - cbn. now rewrite sapp_nil_r.
  - change ((String ch a ++ "=" ++ b)%string) with (String ch (a ++ "=" ++ b)%string). cbn [cut_eq]. destruct (Ascii.eqb_spec ch "=").
    + subst ch. exfalso. now apply (H "" a).
    + rewrite IH; [|intros x y E; apply (H (String ch x) y); now rewrite E]. f_equal. f_equal. now rewrite sapp_assoc.
Qed.

(** No keyword argument, no "=" *)
Fixpoint keyword_free (e : pexpr) : bool :=
  match e with
  | EWord _ | ENil | EColon => true
  | EBin _ a b | ECall a b | EIndex a b | ECons a b | EPair a b => keyword_free a && keyword_free b
  | ENeg a | EAttr a _ | ETuple a | EList a | EDict a => keyword_free a
  | EKw _ _ => false
  end.
Lemma G_keyword lvl ts e : G lvl ts e -> keyword_free e = true -> ~ In Equal ts.
Proof.
  induction 1; cbn [keyword_free]; intros K; try (apply andb_prop in K as (K1 & K2)); repeat rewrite in_app_iff; cbn [In]; repeat rewrite in_app_iff; cbn [In];
    repeat rewrite in_app_iff; cbn [In]; try (intuition discriminate).
Qed.
Lemma no_equal_sign s e : is_expr s e -> keyword_free e = true -> forall x y, s <> (x ++ "=" ++ y)%string.
Proof.
  intros H K x y E. apply (G_keyword H K). subst s. rewrite (@tok_head x ("=" ++ y)%string eq_refl). apply in_app_iff. right.
  rewrite (@tok_last "=" y eq_refl). now left.
Qed.

(** ** Changing an index *)
Lemma put_var_den c v w i j e : no_reduction e -> forall g, den c v w g (put_index i (IVar j) e) = den c v w (set_lab g i (g j)) e.
Proof.
  induction e; cbn [no_reduction put_index]; intros R g; try reflexivity; try easy.
  - cbn [den]. rewrite map_map. replace (map (fun x => idx_lab g (put_idx i (IVar j) x)) ixs) with (map (idx_lab (set_lab g i (g j))) ixs); [reflexivity|].
    apply map_ext. intros [s| |]; cbn [put_idx idx_lab]; auto. unfold set_lab. now destruct (String.eqb_spec s i).
  - destruct R as (R1 & R2). cbn [den]. now rewrite IHe1, IHe2.
  - cbn [den]. now rewrite IHe.
Qed.
Lemma put_var_free i j d e : no_reduction e -> (occurs_free d (put_index i (IVar j) e) <-> (occurs_free d e /\ d <> i) \/ (d = j /\ occurs_free i e)).
Proof.
  induction e; cbn [no_reduction put_index]; intros R; try easy.
  - split; [intros H; inversion H|intros [(H & _)|(_ & H)]; inversion H].
  - split; [intros H; inversion H|intros [(H & _)|(_ & H)]; inversion H].
  - split.
    + intros H. inversion H as [b l I| | | |]; subst. apply in_map_iff in I as (x & E & I). destruct x as [s0| |]; cbn [put_idx] in E; try discriminate.
      destruct (String.eqb_spec s0 i) as [Es|Ns]; injection E as E; [right; split; [now symmetry|subst; now constructor]|left; subst; split; [now constructor|assumption]].
    + intros [(H & N)|(-> & H)]; inversion H as [b l I| | | |]; subst; constructor; apply in_map_iff.
      * exists (IVar d). cbn. apply String.eqb_neq in N. rewrite N. auto.
      * exists (IVar i). cbn. rewrite String.eqb_refl. auto.
  - destruct R as (R1 & R2). specialize (IHe1 R1). specialize (IHe2 R2). split.
    + intros H. inversion H; subst; [apply IHe1 in H1|apply IHe2 in H1]; destruct H1 as [(A & B)|(A & B)]; [left|right|left|right]; split; auto; now constructor.
    + intros [(H & N)|(E & H)]; inversion H; subst; [apply OfL, IHe1|apply OfR, IHe2|apply OfL, IHe1|apply OfR, IHe2]; auto.
  - specialize (IHe R). split.
    + intros H. inversion H; subst. apply IHe in H1. destruct H1 as [(A & B)|(A & B)]; [left|right]; split; auto; now constructor.
    + intros [(H & N)|(E & H)]; inversion H; subst; constructor; apply IHe; auto.
Qed.
Lemma put_var_leaves i j e : no_reduction e -> indexed_exprs (put_index i (IVar j) e) = map (fun bl => (fst bl, map (put_idx i (IVar j)) (snd bl))) (indexed_exprs e).
Proof.
  induction e; cbn [no_reduction put_index indexed_exprs]; intros R; try reflexivity; try easy.
  - destruct R as (R1 & R2). now rewrite IHe1, IHe2, map_app.
  - now rewrite IHe.
Qed.
Lemma no_reduction_flat c axes e : no_reduction e -> flat_reductions c axes e.
Proof. induction e; cbn; tauto. Qed.

(** The labels of the axes of the arrays *)
Definition axes_of (c : dict (list string)) (objs : list mobj) (b : string) : list (list string) :=
  match find (fun o => String.eqb (o_name o) b) objs with
  | Some o => map (fun d => match dget d c with Some l => l | None => [] end) (o_dims o)
  | None => []
  end.
Lemma find_name objs o : NoDup (map o_name objs) -> In o objs -> find (fun x => String.eqb (o_name x) (o_name o)) objs = Some o.
Proof.
  induction objs as [|x l IH]; [easy|]. cbn [map find]. intros N I. inversion N as [|? ? Nx Nl]; subst. destruct (String.eqb_spec (o_name x) (o_name o)) as [E|E].
  - destruct I as [->|I]; [reflexivity|]. exfalso. apply Nx. rewrite E. now apply in_map.
  - destruct I as [->|I]; [congruence|]. now apply IH.
Qed.
Lemma name_unique objs o o' : NoDup (map o_name objs) -> In o objs -> In o' objs -> o_name o = o_name o' -> o = o'.
Proof. intros N A B E. pose proof (@find_name objs o N A) as F. rewrite E, (@find_name objs o' N B) in F. congruence. Qed.

Lemma to_sympy_declared c o : declared c o -> to_sympy o = match o_dims o with [] => SSym (o_name o) | ds => SIx (o_name o) (map IVar ds) end.
Proof. intros (_ & V & B & _). unfold to_sympy. rewrite V, B. destruct (o_dims o); [reflexivity|]. reflexivity. Qed.

Lemma rpow_Rpower x y : (0 < x)%R -> rpow x y = Rpower x y.
Proof. intros P. unfold rpow. destruct (Req_EM_T y (IZR (Int_part y))) as [E|E]; [|reflexivity]. rewrite E at 2. now apply powerRZ_Rpower. Qed.
Lemma op_value op x y r : apply_op op x y = Some r -> bin_val (sympy_op op) x y = r.
Proof.
  destruct op; cbn; intros H; try (now injection H).
  - destruct (Req_EM_T y 0); [discriminate|now injection H].
  - destruct (Rlt_dec 0 x) as [P|]; [|discriminate]. injection H as <-. now apply rpow_Rpower.
Qed.

Lemma ro_op objs x op a b : runs_over objs x (EBin op a b) <-> runs_over objs x a \/ runs_over objs x b.
Proof. split; [intros H; inversion H; subst; auto|intros [H|H]; [now apply ro_left|now apply ro_right]]. Qed.
Lemma ro_minus objs x a : runs_over objs x (ENeg a) <-> runs_over objs x a.
Proof. split; [intros H; inversion H; subst; auto|intros H; now apply ro_neg]. Qed.
Lemma ro_change objs x a i j : runs_over objs x (index_changed a i j) <-> (runs_over objs x a /\ x <> i) \/ (x = j /\ runs_over objs i a).
Proof. split; [intros H; inversion H; subst; auto|intros [(H & N)|(-> & H)]; [now apply ro_kept|now apply ro_put]]. Qed.
Lemma ro_total objs x body i lo hi : runs_over objs x (sum_over body i lo hi) <-> runs_over objs x body /\ x <> i.
Proof. split; [intros H; inversion H; subst; auto|intros (H & N); now apply ro_sum]. Qed.
Lemma occ_bin x o a b : occurs_free x (SBin o a b) <-> occurs_free x a \/ occurs_free x b.
Proof. split; [intros H; inversion H; subst; auto|intros [H|H]; [now apply OfL|now apply OfR]]. Qed.

Section Translate.
Variables (other : pexpr -> res sexpr) (c : dict (list string)) (vars params : list mobj) (d : dict (arr R)) (v : elements) (w : scalars).
Let objs := vars ++ params.
Hypothesis (ND : NoDup (map o_name objs)) (DE : forall o, In o objs -> declared c o).

Lemma local_dict_eq : local_dict vars params = map (fun o => (o_name o, to_sympy o)) objs.
Proof.
  unfold local_dict, objs. unfold objs in ND. rewrite map_app in ND.
  assert (K : forall l : list mobj, map fst (map (fun o => (o_name o, to_sympy o)) l) = map o_name l) by (intros l; rewrite map_map; reflexivity).
  assert (N1 : NoDup (map o_name vars)) by (clear - ND; induction (map o_name vars) as [|a l IH]; [constructor|]; cbn in ND; inversion ND; subst; constructor; [rewrite in_app_iff in *; tauto|auto]).
  assert (N2 : NoDup (map o_name params)) by (clear - ND; induction (map o_name vars) as [|a l IH]; [exact ND|]; cbn in ND; inversion ND; auto).
  rewrite !dict_of_list_NoDup by (now rewrite K). rewrite dupdate_disjoint.
  - now rewrite map_app.
  - unfold dkeys. rewrite map_app, !K. exact ND.
Qed.
Lemma local_object o : In o objs -> dget (o_name o) (local_dict vars params) = Some (to_sympy o).
Proof.
  intros I. rewrite local_dict_eq. apply dget_In_NoDup; [unfold dkeys; rewrite map_map; exact ND|]. apply in_map_iff. now exists o.
Qed.
Lemma local_none n : ~ In n (map o_name objs) -> dmem n (local_dict vars params) = false.
Proof. intros H. unfold dmem. rewrite mem_str_nIn, local_dict_eq. unfold dkeys. now rewrite map_map. Qed.

Definition leaves_fit (t : sexpr) : Prop := forall b l, In (b, l) (indexed_exprs t) ->
  Forall2 (fun i labs => exists s, i = IVar s /\ dget s c = Some labs) l (axes_of c objs b).
Definition read_as (e : pexpr) (t : sexpr) : Prop := forall ix g r, (forall x, occurs_free x t -> g x = label_at c x (ix x)) ->
  eval (array_values objs d) ix e = Some r -> den c v w g t = Some r.

Hypothesis (HD : forall o, In o objs -> exists a, dget (o_name o) d = Some a /\ fits (lab_coords c) o a) (DA : data_of c objs d v w).

Lemma all_labels dims idx ls (g : assignment) : labels_of c dims idx ls -> (forall x k, In (x, k) (combine dims idx) -> g x = label_at c x k) -> all_some (map g dims) = Some ls.
Proof.
  intros (L & F). revert idx ls L F. induction dims as [|x dims IH]; intros [|k idx] ls L F H; try discriminate; cbn in F; inversion F as [|? l ? ls' (all & A & B) F']; subst; [reflexivity|].
  cbn [map all_some]. rewrite (H x k) by now left. unfold label_at. cbn in A, B. rewrite A, B. rewrite (IH idx ls'); [reflexivity|now injection L|exact F'|]. intros y m I. apply H. now right.
Qed.
Lemma in_combine_map (ix : string -> nat) dims x k : In (x, k) (combine dims (map ix dims)) -> In x dims /\ k = ix x.
Proof. induction dims as [|y dims IH]; [easy|]. cbn. intros [E|I]; [injection E as -> ->; auto|]. apply IH in I. tauto. Qed.

Lemma object_read o : In o objs -> S_Meaning.number (o_name o) = None -> read_as (EWord (o_name o)) (to_sympy o).
Proof.
  intros I N ix g r H E. cbn [eval] in E. rewrite N in E. unfold array_values in E. rewrite (@find_name objs o ND I) in E.
  destruct (HD o I) as (a & Ea & W & Sh). rewrite Ea in E. destruct (aget a (map ix (o_dims o))) as [r'|] eqn:Er; [|discriminate]. injection E as ->.
  rewrite (@to_sympy_declared c o (DE o I)) in *. destruct DA as (D1 & D2). destruct (o_dims o) as [|d0 ds] eqn:Ed.
  - cbn [den]. apply D2. exists o, a. auto.
  - assert (IR : in_range (ashape a) (map ix (d0 :: ds))).
    { unfold aget in Er. destruct (in_rangeb (ashape a) (map ix (d0 :: ds))) eqn:B; [now apply in_rangeb_spec|discriminate]. }
    unfold has_shape in Sh. rewrite Ed in Sh. apply shape_lab in Sh. destruct (@labels_exist c (d0 :: ds) (ashape a) _ Sh IR) as (ls & L).
    assert (AL : all_some (map (idx_lab g) (map IVar (d0 :: ds))) = Some ls).
    { rewrite map_map. apply (@all_labels (d0 :: ds) _ ls g L). intros x k Ik. apply in_combine_map in Ik as (Ix & ->). apply H. constructor. now apply in_map. }
    cbn [den]. rewrite AL. apply D1. exists o, a, (map ix (d0 :: ds)). rewrite Ed. repeat split; auto; try discriminate; apply L.
Qed.

Lemma sum_value l r : fold_right (lift2 (fun x y => Some (x + y)%R)) (Some 0%R) l = Some r -> exists xs, all_some l = Some xs /\ fold_right Rplus 0%R xs = r.
Proof.
  revert r. induction l as [|a l IH]; cbn [fold_right all_some]; intros r E.
  - injection E as <-. now exists [].
  - destruct a as [x|]; [|discriminate]. destruct (fold_right _ (Some 0%R) l) as [y|] eqn:F; [|discriminate]. cbn in E. injection E as <-.
    destruct (IH y eq_refl) as (xs & A & B). exists (x :: xs). rewrite A. cbn. now rewrite B.
Qed.
Lemma all_some_map {A} (f g : A -> option R) l : (forall x r, In x l -> f x = Some r -> g x = Some r) -> forall xs, all_some (map f l) = Some xs -> all_some (map g l) = Some xs.
Proof.
  induction l as [|a l IH]; cbn [map all_some]; intros H xs E; [exact E|]. destruct (f a) as [x|] eqn:Fa; [|discriminate]. destruct (all_some (map f l)) as [ys|] eqn:Fl; [|discriminate].
  injection E as <-. rewrite (H a x (or_introl eq_refl) Fa). rewrite (IH (fun x r I => H x r (or_intror I)) ys eq_refl). reflexivity.
Qed.

Lemma translate sums e : index_notation c objs sums e -> exists t, sympy_of other (local_dict vars params) (dkeys c) e = Ok t /\
  flat_reductions c (axes_of c objs) t /\ (sums = false -> no_reduction t /\ leaves_fit t) /\ (forall x, occurs_free x t <-> runs_over objs x e) /\ read_as e t.
Proof.
  induction 1 as [sums wd n N|sums o I N K|sums op a b Ha (ta & Ea & Fa & Ra & Oa & Va) Hb (tb & Eb & Fb & Rb & Ob & Vb)|sums a Ha (ta & Ea & Fa & Ra & Oa & Va)
    |sums a i j Ha (ta & Ea & Fa & Ra & Oa & Va) Ii Ij L|body i lo hi m n labels Ha (ta & Ea & Fa & Ra & Oa & Va) NS L Lo Hi Le Lt].
  - exists (SNum (Z.of_nat n)). cbn [sympy_of]. rewrite whole_number_eq, N. split; [reflexivity|]. split; [exact Logic.I|]. split; [intros _; split; [exact Logic.I|intros b l []]|]. split.
    + intros x. split; intros H; inversion H; subst; congruence.
    + intros ix g r _ E. cbn [eval] in E. rewrite N in E. injection E as <-. reflexivity.
  - exists (to_sympy o). cbn [sympy_of]. rewrite whole_number_eq, N. rewrite (proj2 (mem_str_nIn _ _) K), (@local_object o I).
    pose proof (@to_sympy_declared c o (DE o I)) as T. split; [reflexivity|]. split; [rewrite T; destruct (o_dims o); exact Logic.I|]. split; [|split].
    + intros _. rewrite T. split; [destruct (o_dims o); exact Logic.I|]. intros b l Hl. unfold axes_of. destruct (o_dims o) as [|d0 ds] eqn:Ed; [easy|].
      cbn in Hl. destruct Hl as [El|[]]. injection El as <- <-. rewrite (@find_name objs o ND I), Ed.
      assert (Q : forall dl, (forall x, In x dl -> In x (dkeys c)) -> Forall2 (fun i labs => exists s, i = IVar s /\ dget s c = Some labs) (map IVar dl) (map (fun x => match dget x c with Some y => y | None => [] end) dl)).
      { clear. induction dl as [|x dl IH]; intros H; [constructor|]. cbn [map]. constructor; [|apply IH; intros y Iy; apply H; now right].
        exists x. split; [reflexivity|]. destruct (proj1 (dget_Some_key x c) (H x (or_introl eq_refl))) as (y & ->). reflexivity. }
      apply (Q (d0 :: ds)). rewrite <- Ed. apply (DE o I).
    + intros x. rewrite T. split.
      * intros H. apply ro_word; auto. destruct (o_dims o) as [|d0 ds] eqn:Ed; [inversion H|]. inversion H as [b l Hl| | | |]; subst. apply (@in_map_iff _ _ IVar (d0 :: ds)) in Hl as (y & Ey & Iy). injection Ey as Ey. now rewrite <- Ey.
      * intros H. inversion H as [o' I' N' D' En| | | | | |]; subst. rewrite (@name_unique objs o' o ND I' I En) in D'. destruct (o_dims o) as [|d0 ds] eqn:Ed; [easy|]. constructor. now apply in_map.
    + now apply object_read.
  - exists (SBin (sympy_op op) ta tb). cbn [sympy_of]. rewrite Ea, Eb. split; [reflexivity|]. split; [split; assumption|]. split; [|split].
    + intros Es. destruct (Ra Es) as (A1 & A2), (Rb Es) as (B1 & B2). split; [split; assumption|]. intros x l H. cbn in H. apply in_app_iff in H as [H|H]; [now apply A2|now apply B2].
    + intros x. rewrite occ_bin, ro_op, Oa, Ob. reflexivity.
    + intros ix g r H E. cbn [eval] in E. destruct (eval (array_values objs d) ix a) as [x|] eqn:Xa; [|discriminate]. destruct (eval (array_values objs d) ix b) as [y|] eqn:Xb; [|discriminate].
      cbn [lift2] in E. cbn [den]. rewrite (Va ix g x), (Vb ix g y); auto; [cbn [opt2]; now rewrite (@op_value op x y r E)| |]; intros z Hz; apply H; rewrite occ_bin; auto.
  - exists (SBin OMul (SNum (-1)) ta). cbn [sympy_of]. rewrite Ea. split; [reflexivity|]. split; [split; [exact Logic.I|assumption]|]. split; [|split].
    + intros Es. destruct (Ra Es) as (A1 & A2). split; [split; [exact Logic.I|assumption]|]. intros x l H. cbn in H. now apply A2.
    + intros x. rewrite occ_bin, ro_minus, <- Oa. split; [intros [H|H]; [inversion H|exact H]|auto].
    + intros ix g r H E. cbn [eval] in E. destruct (eval (array_values objs d) ix a) as [x|] eqn:Xa; [|discriminate]. cbn in E. injection E as <-.
      cbn [den]. rewrite (Va ix g x); auto; [cbn [opt2 bin_val]; f_equal; lra|]. intros z Hz. apply H. rewrite occ_bin. auto.
  - destruct (Ra eq_refl) as (A1 & A2). exists (put_index i (IVar j) ta). unfold index_changed. cbn [sympy_of String.eqb Ascii.eqb Bool.eqb andb].
    rewrite (proj2 (mem_str_In _ _) Ii), (proj2 (mem_str_In _ _) Ij), Ea. split; [reflexivity|].
    pose proof (@put_index_nored i (IVar j) ta A1) as P. split; [now apply no_reduction_flat|]. split; [|split].
    + intros _. split; [exact P|]. intros b l Hl. rewrite put_var_leaves in Hl by exact A1. apply in_map_iff in Hl as ((b' & l') & El & Hl). cbn in El. injection El as <- <-.
      specialize (A2 b' l' Hl). clear Hl. induction A2 as [|x labs l ax (s & -> & Ds) F IH]; [constructor|]. cbn [map put_idx]. constructor; [|exact IH].
      destruct (String.eqb_spec s i) as [->|Ns]; [exists j; split; [reflexivity|congruence]|exists s; auto].
    + intros x. rewrite put_var_free by exact A1. fold (index_changed a i j). rewrite ro_change, !Oa. reflexivity.
    + intros ix g r H E. rewrite put_var_den by exact A1. cbn [eval String.eqb Ascii.eqb Bool.eqb] in E. apply (Va (upd ix i (ix j))); [|exact E].
      intros x Hx. unfold set_lab, upd. rewrite (String.eqb_sym i x). destruct (String.eqb_spec x i) as [->|Nx].
      * rewrite (H j) by (rewrite put_var_free by exact A1; auto). unfold label_at. now rewrite L.
      * apply H. rewrite put_var_free by exact A1. auto.
  - destruct (Ra eq_refl) as (A1 & A2). exists (SRed RSum ta [(i, (m, n))]). unfold sum_over. cbn [sympy_of].
    rewrite (proj2 (mem_str_nIn "Sum" (dkeys c))) by (intros Q; apply NS, in_app_iff; now right). rewrite (@local_none "Sum") by (intros Q; apply NS, in_app_iff; now left).
    cbn [orb reduction String.eqb Ascii.eqb Bool.eqb]. cbn [limits_of]. rewrite (proj2 (mem_str_In i (dkeys c))) by (apply dget_Some_key; eauto).
    rewrite (whole_number_eq lo), Lo, (whole_number_eq hi), Hi. cbv iota. rewrite Ea. split; [reflexivity|]. split.
    { cbn [flat_reductions]. split; [exact A1|]. split; [exact A2|]. intros i' lo' hi' [Q|[]]. injection Q as <- <- <-. split; [exact Le|]. now exists labels. }
    split; [discriminate|]. split.
    + intros x. fold (sum_over body i lo hi). rewrite ro_total, <- Oa. split.
      * intros H. inversion H as [| | | |? ? ? H1 H2]; subst. cbn in H2. split; [exact H1|]. intros ->. apply H2. now left.
      * intros (H & Nx). apply OfRed; [exact H|]. cbn. intros [->|[]]. now apply Nx.
    + intros ix g r H E. cbn [eval String.eqb Ascii.eqb Bool.eqb] in E. rewrite Lo, Hi in E. cbn [den over]. apply sum_value in E as (xs & E & <-).
      assert (Q : all_some (map (fun k => match label_at c i k with Some l => den c v w (set_lab g i (Some l)) ta | None => None end) (seq m (S n - m))) = Some xs).
      { revert E. apply all_some_map. intros k r Ik Er. apply in_seq in Ik. unfold label_at. rewrite L. destruct (nth_error labels k) as [lab|] eqn:El; [|apply nth_error_None in El; lia].
        apply (Va (upd ix i k)); [|exact Er]. intros x Hx. unfold set_lab, upd. rewrite (String.eqb_sym i x). destruct (String.eqb_spec x i) as [->|Nx].
        - unfold label_at. now rewrite L, El.
        - apply H. apply OfRed; [exact Hx|]. cbn. intros [->|[]]. now apply Nx. }
      rewrite Q. reflexivity.
Qed.

Lemma notation_keyword sums e : index_notation c objs sums e -> keyword_free e = true.
Proof. induction 1; cbn [keyword_free index_changed sum_over] in *; auto; try (rewrite IHindex_notation1, IHindex_notation2; reflexivity); unfold index_changed, sum_over; cbn [keyword_free]; now rewrite IHindex_notation. Qed.

(** The sides of an equation *)
Lemma sides_of s el er : indexed_equation c objs s el er -> exists lr, sympy_sides other c vars params s = Ok lr /\
  flat_reductions c (axes_of c objs) (written lr) /\ (forall x, occurs_free x (written lr) <-> runs_over objs x (EBin Sub el er)) /\ read_as (EBin Sub el er) (written lr).
Proof.
  intros (lhs & rhs & -> & Hl & Hr & Nl & Nr). destruct (@translate true el Nl) as (tl & El & Fl & _ & Ol & Vl). destruct (@translate true er Nr) as (tr & Er & Fr & _ & Or & Vr).
  exists (tl, tr). unfold sympy_sides. rewrite (@cut_eq_split lhs rhs "" (@no_equal_sign lhs el Hl (@notation_keyword true el Nl))). cbn [append].
  rewrite (@parse_complete lhs el Hl), (@parse_complete rhs er Hr), El, Er. cbn. split; [reflexivity|]. split; [split; assumption|]. split.
  - intros x. unfold written. cbn [fst snd]. rewrite occ_bin, ro_op, Ol, Or. reflexivity.
  - intros ix g r H E. cbn [eval] in E. unfold written in *. cbn [fst snd] in *. destruct (eval (array_values objs d) ix el) as [x|] eqn:Xa; [|discriminate]. destruct (eval (array_values objs d) ix er) as [y|] eqn:Xb; [|discriminate].
    cbn in E. injection E as <-. cbn [den]. rewrite (Vl ix g x), (Vr ix g y); auto; intros z Hz; apply H; rewrite occ_bin; auto.
Qed.
End Translate.
