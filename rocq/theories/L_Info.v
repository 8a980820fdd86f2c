(** Proofs for descriptions of variables (C99). *)
From Verif Require Import Py PyStr M_Indices M_Info S_Info.
Local Open Scope string_scope.
Local Open Scope list_scope.

(** ** Characters *)
Lemma word_b w : w <> "" -> forallb (fun c => existsb (Ascii.eqb c) (list_ascii_of_string "abcdefghijklmnopqrstuvwxyzABCDEFGHIJKLMNOPQRSTUVWXYZ0123456789")) (list_ascii_of_string w) = true -> word w.
Proof.
  intros N H. split; [exact N|]. intros c Hc. rewrite forallb_forall in H. specialize (H c Hc). apply existsb_exists in H as (x & Hx & E). apply Ascii.eqb_eq in E as ->. exact Hx.
Qed.
Lemma not_alnum_b c : existsb (Ascii.eqb c) (list_ascii_of_string "abcdefghijklmnopqrstuvwxyzABCDEFGHIJKLMNOPQRSTUVWXYZ0123456789") = false -> ~ alnum c.
Proof. intros E H. assert (X : existsb (Ascii.eqb c) (list_ascii_of_string "abcdefghijklmnopqrstuvwxyzABCDEFGHIJKLMNOPQRSTUVWXYZ0123456789") = true) by (apply existsb_exists; exists c; split; [exact H|apply Ascii.eqb_refl]). congruence. Qed.
Lemma word_cons c w : word (String c w) -> alnum c.
Proof. intros (_ & H). apply H. now left. Qed.
Lemma word_head w : word w -> exists c w', w = String c w' /\ alnum c.
Proof. intros H. destruct w as [|c w]; [destruct H; congruence|]. exists c, w. split; [reflexivity|eapply word_cons; eauto]. Qed.

Definition alnums (w : string) : Prop := forall c, In c (list_ascii_of_string w) -> alnum c.
Lemma alnums_tail c w : alnums (String c w) -> alnums w.
Proof. intros H x Hx. apply H. now right. Qed.
Lemma alnums_head c w : alnums (String c w) -> alnum c.
Proof. intros H. apply H. now left. Qed.

Lemma opens_spec c : opens c = true <-> In c (list_ascii_of_string "^_,{").
Proof.
  unfold opens. rewrite !orb_true_iff, !Ascii.eqb_eq. cbn. intuition congruence.
Qed.
Lemma alnum_opens c : alnum c -> opens c = false.
Proof.
  intros H. destruct (opens c) eqn:E; [|reflexivity]. apply opens_spec in E. cbn in E.
  decompose [or] E; try contradiction; subst; cbn in H; repeat (destruct H as [H|H]; [discriminate H|]); destruct H.
Qed.
Lemma not_alnum_close : ~ alnum "}".
Proof. intros H. cbn in H. repeat (destruct H as [H|H]; [discriminate H|]). destruct H. Qed.

(** The rest of a text after a word begins with no letter. *)
Definition begins_other (s : string) : Prop := match s with "" => True | String c _ => ~ alnum c end.
Lemma rest_other w ts : text (Word w :: ts) -> begins_other (written ts).
Proof. intros (_ & H & T). destruct ts as [|[w'|c] ts]; cbn; [exact I|destruct H|exact (proj1 T)]. Qed.

Lemma alnums_prefix i : forall w r s, alnums i -> begins_other s -> (w ++ s)%string = (i ++ r)%string -> exists t, w = (i ++ t)%string.
Proof.
  induction i as [|c i IH]; intros w r s Hi Hs E; [exists w; reflexivity|].
  destruct w as [|d w]; cbn in E.
  - subst s. cbn in Hs. exfalso. apply Hs. eapply alnums_head; eauto.
  - injection E as -> E. destruct (IH w r s) as (t & ->); eauto using alnums_tail. exists t. reflexivity.
Qed.
Lemma alnums_split i : forall w c r s, alnums i -> alnums w -> ~ alnum c -> begins_other s -> (w ++ s)%string = (i ++ String c r)%string -> w = i /\ s = String c r.
Proof.
  induction i as [|d i IH]; intros w c r s Hi Hw Hc Hs E; destruct w as [|e w]; cbn in E.
  - auto.
  - injection E as -> E. exfalso. apply Hc. eapply alnums_head; eauto.
  - subst s. cbn in Hs. exfalso. apply Hs. eapply alnums_head; eauto.
  - injection E as -> E. destruct (IH w c r s) as (-> & ->); eauto using alnums_tail.
Qed.

(** ** The two substitutions on tokens *)
Section One.
Variables i v : string.
Definition f1 (w : string) : string := if String.eqb i w then v else w.
Definition closing_b (ts : list token) : bool := match ts with Sign c :: _ => Ascii.eqb c "}" | _ => false end.
Fixpoint opened_fn (b : bool) (ts : list token) : list token :=
  match ts with
  | [] => []
  | Sign c :: ts' => Sign c :: opened_fn (opens c) ts'
  | Word w :: ts' => Word (if b then f1 w else w) :: opened_fn false ts'
  end.
Fixpoint closed_fn (ts : list token) : list token :=
  match ts with
  | [] => []
  | Sign c :: ts' => Sign c :: closed_fn ts'
  | Word w :: ts' => Word (if closing_b ts' then f1 w else w) :: closed_fn ts'
  end.
Fixpoint sep_open (b : bool) (ts : list token) : Prop :=
  match ts with
  | [] => True
  | Sign c :: ts' => sep_open (opens c) ts'
  | Word w :: ts' => (b = true -> forall t, w = (i ++ t)%string -> w = i) /\ sep_open false ts'
  end.
Fixpoint sep_close (ts : list token) : Prop :=
  match ts with
  | [] => True
  | Sign c :: ts' => sep_close ts'
  | Word w :: ts' => (closing_b ts' = true -> forall t, w = (t ++ i)%string -> w = i) /\ sep_close ts'
  end.
Hypothesis Wi : word i.
Hypothesis Wv : word v.

Lemma sub_opened_skip a : forall s, sub_opened i v (slen a) (a ++ s) = sub_opened i v 0 s.
Proof. induction a as [|c a IH]; intros s; cbn; [reflexivity|apply IH]. Qed.
Lemma sub_opened_word w : forall s, alnums w -> sub_opened i v 0 (w ++ s) = (w ++ sub_opened i v 0 s)%string.
Proof.
  induction w as [|c w IH]; intros s Hw; cbn [append]; [reflexivity|]. cbn [sub_opened].
  rewrite (alnum_opens (alnums_head Hw)). cbn [andb]. rewrite IH; eauto using alnums_tail.
Qed.

Lemma opened_ok : forall n ts, length ts <= n -> text ts -> sep_open false ts -> sub_opened i v 0 (written ts) = written (opened_fn false ts).
Proof.
  induction n as [|n IH]; intros ts L T S; [destruct ts; [reflexivity|cbn in L; lia]|].
  destruct ts as [|[w|c] ts]; [reflexivity| |].
  - cbn [written opened_fn]. destruct T as (Hw & _ & T). destruct S as (_ & S).
    rewrite sub_opened_word by exact (proj2 Hw). rewrite IH; auto. cbn in L. lia.
  - cbn [written opened_fn sub_opened]. destruct T as (Hc & T). cbn in S. cbn in L.
    destruct (opens c) eqn:O; cbn [andb].
    + destruct (String.prefix i (written ts)) eqn:P.
      * apply prefix_true in P as (r & P). destruct ts as [|[w|d] ts].
        -- destruct (word_head Wi) as (x & i' & -> & _). discriminate P.
        -- assert (B := rest_other T). cbn [written] in P.
           destruct (@alnums_prefix i w r _ (proj2 Wi) B P) as (t & E). destruct S as (S & S2).
           pose proof (S eq_refl t E) as ->. cbn [opened_fn written]. unfold f1. rewrite String.eqb_refl. f_equal. f_equal.
           rewrite sub_opened_skip. apply IH; [cbn in L; lia|apply T|exact S2].
        -- exfalso. cbn [written] in P. destruct (word_head Wi) as (x & i' & -> & X). cbn in P. injection P as -> P. exact (proj1 T X).
      * f_equal. destruct ts as [|[w|d] ts]; [reflexivity| |].
        -- cbn [written opened_fn]. destruct T as (Hw & _ & T). destruct S as (_ & S).
           rewrite sub_opened_word by exact (proj2 Hw). unfold f1.
           destruct (String.eqb_spec i w) as [->|]; [cbn [written] in P; rewrite prefix_app in P; discriminate|].
           rewrite IH; auto. cbn in L. lia.
        -- specialize (IH (Sign d :: ts) ltac:(lia) T S). exact IH.
    + f_equal. apply IH; [lia|exact T|exact S].
Qed.

Lemma closed_ok ts : text ts -> sep_close ts -> sub_closed i v (written ts) = written (closed_fn ts).
Proof.
  unfold sub_closed. induction ts as [|[w|c] ts IH]; intros T S; [reflexivity| |].
  - cbn [written closed_fn]. assert (B := rest_other T). destruct T as (Hw & Hn & T). destruct S as (S & S2).
    assert (Cl : closing_b ts = true -> exists ts', ts = Sign "}" :: ts').
    { destruct ts as [|[?|c] ts']; cbn; try discriminate. intros E. apply Ascii.eqb_eq in E as ->. eauto. }
    destruct (closing_b ts && String.eqb i w)%bool eqn:M.
    + apply andb_prop in M as (M & E). apply String.eqb_eq in E as <-. rewrite M. unfold f1. rewrite String.eqb_refl.
      destruct (Cl M) as (ts' & ->). specialize (IH T S2). cbn [written closed_fn] in *.
      change (i ++ String "}" (written ts'))%string with (i ++ "}" ++ written ts')%string. rewrite <- sapp_assoc.
      rewrite str_replace_match by (destruct i; discriminate). rewrite sapp_assoc. cbn [append]. f_equal. f_equal.
      rewrite str_replace_nomatch in IH; [now injection IH|].
      destruct (word_head Wi) as (x & i' & -> & X). cbn. destruct (ascii_dec x "}") as [->|]; [|reflexivity]. exfalso. exact (not_alnum_close X).
    + assert (Fw : (if closing_b ts then f1 w else w) = w).
      { destruct (closing_b ts); [|reflexivity]. cbn in M. unfold f1. now rewrite M. }
      rewrite Fw, <- IH by auto. clear IH Fw.
      assert (G : forall u t, w = (t ++ u)%string -> str_replace (i ++ "}") (v ++ "}") (u ++ written ts) = (u ++ str_replace (i ++ "}") (v ++ "}") (written ts))%string).
      { induction u as [|c u IHu]; intros t E; [reflexivity|]. cbn [append].
        rewrite str_replace_nomatch.
        - f_equal. apply (IHu (t ++ String c "")%string). rewrite sapp_assoc. exact E.
        - destruct (String.prefix (i ++ "}") (String c (u ++ written ts))) eqn:P; [|reflexivity]. exfalso.
          apply prefix_true in P as (r & P). rewrite sapp_assoc in P.
          change (String c (u ++ written ts))%string with (String c u ++ written ts)%string in P.
          assert (Au : alnums (String c u)).
          { intros x Hx. apply (proj2 Hw). rewrite E. clear -Hx. induction t; cbn [append]; [exact Hx|right; exact IHt]. }
          destruct (@alnums_split i (String c u) "}" r _ (proj2 Wi) Au not_alnum_close B P) as (E1 & E2).
          assert (C : closing_b ts = true). { destruct ts as [|[w'|d] ts']; cbn in E2; [discriminate|destruct Hn|]. injection E2 as -> _. reflexivity. }
          rewrite E1 in E. pose proof (S C t E) as W. rewrite C in M. cbn in M. rewrite W, String.eqb_refl in M. discriminate. }
      exact (G w "" eq_refl).
  - cbn [written closed_fn]. destruct T as (Hc & T). rewrite str_replace_nomatch; [now rewrite IH|].
    destruct (word_head Wi) as (x & i' & -> & X). cbn. destruct (ascii_dec x c) as [->|]; [|reflexivity]. exfalso. exact (Hc X).
Qed.
End One.

(** ** Simultaneous substitution as a function *)
Fixpoint subst_fn (f : string -> string) (b : bool) (ts : list token) : list token :=
  match ts with
  | [] => []
  | Sign c :: ts' => Sign c :: subst_fn f (opens c) ts'
  | Word w :: ts' => Word (if b || closing_b ts' then f w else w) :: subst_fn f false ts'
  end.
Lemma closing_subst f b ts : closing_b (subst_fn f b ts) = closing_b ts.
Proof. destruct ts as [|[w|c] ts]; reflexivity. Qed.
Lemma closing_opened i v b ts : closing_b (opened_fn i v b ts) = closing_b ts.
Proof. destruct ts as [|[w|c] ts]; reflexivity. Qed.
Lemma subst_comp f g ts : forall b, subst_fn g b (subst_fn f b ts) = subst_fn (fun w => g (f w)) b ts.
Proof.
  induction ts as [|[w|c] ts IH]; intros b; cbn [subst_fn]; [reflexivity| |now rewrite IH].
  rewrite closing_subst, IH. now destruct (b || closing_b ts)%bool.
Qed.
Lemma subst_ext f g ts : (forall w, f w = g w) -> forall b, subst_fn f b ts = subst_fn g b ts.
Proof. intros E. induction ts as [|[w|c] ts IH]; intros b; cbn [subst_fn]; [reflexivity| |now rewrite IH]. now rewrite IH, E. Qed.
Lemma subst_id ts : forall b, subst_fn (fun w => w) b ts = ts.
Proof. induction ts as [|[w|c] ts IH]; intros b; cbn [subst_fn]; [reflexivity| |now rewrite IH]. rewrite IH. now destruct (b || closing_b ts)%bool. Qed.

Lemma opening_b b : opening b <-> (match b with Some (Sign c) => opens c | _ => false end) = true.
Proof. destruct b as [[w|c]|]; cbn [opening]; try (split; [intros []|discriminate]). symmetry. apply opens_spec. Qed.
Lemma closing_b_spec ts : closing ts <-> closing_b ts = true.
Proof. destruct ts as [|[w|c] ts]; cbn; try (split; [intros []|discriminate]). symmetry. apply Ascii.eqb_eq. Qed.

Lemma subst_indexed f ts : forall b ts', indexed f b ts ts' <-> ts' = subst_fn f (match b with Some (Sign c) => opens c | _ => false end) ts.
Proof.
  induction ts as [|[w|c] ts IH]; intros b ts'; cbn [subst_fn].
  - split; [intros H; now inversion H|intros ->; constructor].
  - set (o := match b with Some (Sign c) => opens c | _ => false end).
    assert (D : (opening b \/ closing ts) <-> (o || closing_b ts)%bool = true) by (rewrite orb_true_iff, opening_b, closing_b_spec; reflexivity).
    split.
    + intros H. inversion H as [| |? ? ? ts2 O H' E1 E2 E3|? ? ? ts2 O H' E1 E2 E3]; subst; apply IH in H'; rewrite H'.
      * apply D in O. now rewrite O.
      * destruct (o || closing_b ts)%bool eqn:E; [exfalso; tauto|reflexivity].
    + intros ->. destruct (o || closing_b ts)%bool eqn:E; [apply indexed_index|apply indexed_word]; try (apply IH; reflexivity); [tauto|]. intros X. apply D in X. discriminate.
  - split; [intros H; inversion H as [|? ? ? ts2 H' E1 E2 E3| |]; subst; apply IH in H'; now rewrite H'|intros ->; constructor; now apply IH].
Qed.

(** ** One pair of the dictionary *)
Lemma put_one i v w : put [(i, v)] w = f1 i v w.
Proof. unfold put, f1. cbn. destruct (String.eqb i w); reflexivity. Qed.

Fixpoint sep_b (keys : list string) (b : bool) (ts : list token) : Prop :=
  match ts with
  | [] => True
  | Sign c :: ts' => sep_b keys (opens c) ts'
  | Word w :: ts' =>
      (forall i t, In i keys -> b = true -> w = (i ++ t)%string -> w = i) /\
      (forall i t, In i keys -> closing_b ts' = true -> w = (t ++ i)%string -> w = i) /\
      sep_b keys false ts'
  end.
Lemma separated_sep keys ts : forall b, separated keys b ts -> sep_b keys (match b with Some (Sign c) => opens c | _ => false end) ts.
Proof.
  induction ts as [|[w|c] ts IH]; intros b H; cbn [sep_b separated] in *; [exact I| |exact (IH _ H)].
  destruct H as (H1 & H2 & H3). split; [|split; [|exact (IH _ H3)]].
  - intros i t Hi Hb. apply H1; auto. now apply opening_b.
  - intros i t Hi Hb. apply H2; auto. now apply closing_b_spec.
Qed.

Lemma text_opened i v ts : word v -> forall b, text ts -> text (opened_fn i v b ts).
Proof.
  intros Wv. induction ts as [|[w|c] ts IH]; intros b T; cbn [opened_fn text] in *; [exact I| |split; [apply T|apply IH, T]].
  destruct T as (Hw & Hn & T). split; [|split; [destruct ts as [|[?|?] ?]; auto|auto]]. unfold f1. destruct b; [|exact Hw]. now destruct (String.eqb i w).
Qed.
Lemma text_subst f ts : (forall w, word w -> word (f w)) -> forall b, text ts -> text (subst_fn f b ts).
Proof.
  intros Wf. induction ts as [|[w|c] ts IH]; intros b T; cbn [subst_fn text] in *; [exact I| |split; [apply T|apply IH, T]].
  destruct T as (Hw & Hn & T). split; [|split; [destruct ts as [|[?|?] ?]; auto|auto]]. destruct (b || closing_b ts)%bool; auto.
Qed.

Lemma sep_b_open keys i ts : In i keys -> forall b, sep_b keys b ts -> sep_open i b ts.
Proof.
  intros Hi. induction ts as [|[w|c] ts IH]; intros b H; cbn [sep_b sep_open] in *; [exact I| |auto].
  destruct H as (H1 & _ & H3). split; [|auto]. intros Hb t. now apply H1.
Qed.
Lemma sep_b_close keys i v ts : In i keys -> (forall t, v <> (t ++ i)%string) -> forall b, sep_b keys b ts -> sep_close i (opened_fn i v b ts).
Proof.
  intros Hi Hv. induction ts as [|[w|c] ts IH]; intros b H; cbn [sep_b sep_close opened_fn] in *; [exact I| |auto].
  destruct H as (_ & H2 & H3). split; [|auto]. rewrite closing_opened. intros Hc t E.
  destruct b; [|now apply (H2 i t)]. unfold f1 in *. destruct (String.eqb i w); [exfalso; exact (Hv t E)|]. now apply (H2 i t).
Qed.
Lemma closed_opened i v ts : i <> v -> forall b, closed_fn i v (opened_fn i v b ts) = subst_fn (f1 i v) b ts.
Proof.
  intros N. induction ts as [|[w|c] ts IH]; intros b; cbn [opened_fn closed_fn subst_fn]; [reflexivity| |now rewrite IH].
  rewrite IH, closing_opened. f_equal. f_equal. unfold f1.
  destruct b, (closing_b ts); cbn [orb]; try reflexivity. destruct (String.eqb i w) eqn:E; [|now rewrite E].
  destruct (String.eqb_spec i v); [contradiction|reflexivity].
Qed.
Lemma step_ok keys i v ts : In i keys -> word i -> word v -> (forall t, v <> (i ++ t)%string /\ v <> (t ++ i)%string) -> text ts -> sep_b keys false ts ->
  sub_closed i v (sub_opened i v 0 (written ts)) = written (subst_fn (f1 i v) false ts).
Proof.
  intros Hi Wi Wv Hv T S.
  rewrite (@opened_ok i v Wi (length ts) ts (le_n _) T (@sep_b_open keys i ts Hi false S)).
  rewrite (@closed_ok i v Wi (opened_fn i v false ts) (@text_opened i v ts Wv false T)).
  - f_equal. apply closed_opened. intros ->. apply (proj1 (Hv "")). now rewrite sapp_nil_r.
  - apply (@sep_b_close keys); auto. intros t. apply Hv.
Qed.
Lemma sep_step keys i v ts : (forall j t, In j keys -> v <> (j ++ t)%string /\ v <> (t ++ j)%string) ->
  forall b, sep_b keys b ts -> sep_b keys b (subst_fn (f1 i v) b ts).
Proof.
  intros Hv. induction ts as [|[w|c] ts IH]; intros b H; cbn [sep_b subst_fn] in *; [exact I| |auto].
  destruct H as (H1 & H2 & H3). rewrite closing_subst.
  split; [|split; [|auto]]; intros j t Hj Hb E.
  - subst b. cbn [orb] in *. unfold f1 in *. destruct (String.eqb i w); [exfalso; exact (proj1 (Hv j t Hj) E)|eauto].
  - rewrite Hb, orb_true_r in *. unfold f1 in *. destruct (String.eqb i w); [exfalso; exact (proj2 (Hv j t Hj) E)|eauto].
Qed.
Lemma sep_weaken keys keys' ts : incl keys' keys -> forall b, sep_b keys b ts -> sep_b keys' b ts.
Proof.
  intros I. induction ts as [|[w|c] ts IH]; intros b H; cbn [sep_b] in *; auto. destruct H as (H1 & H2 & H3).
  split; [|split; [|auto]]; intros j t Hj; [apply H1|apply H2]; auto.
Qed.

Lemma put_fresh d v : (forall i, In i (map fst d) -> v <> i) -> put d v = v.
Proof.
  intros H. unfold put. destruct (find _ d) as [iv|] eqn:E; [|reflexivity]. apply find_some in E as (E1 & E2). apply String.eqb_eq in E2.
  exfalso. apply (H (fst iv)); [now apply in_map|congruence].
Qed.
Lemma put_cons i v d w : put ((i, v) :: d) w = if String.eqb i w then v else put d w.
Proof. unfold put. cbn [find fst snd]. now destruct (String.eqb i w). Qed.
Lemma fresh_tail iv d : fresh_values (iv :: d) -> fresh_values d.
Proof. intros H v Hv. destruct (H v (or_intror Hv)) as (W & F). split; [exact W|]. intros i t Hi. apply F. now right. Qed.

Lemma sub_latex_ok d : forall ts, Forall word (map fst d) -> fresh_values d -> text ts -> sep_b (map fst d) false ts ->
  sub_latex d (written ts) = written (subst_fn (put d) false ts).
Proof.
  induction d as [|(i, v) d IH]; intros ts Wk F T S; cbn [sub_latex fold_left].
  - rewrite (@subst_ext _ (fun w => w)) by reflexivity. now rewrite subst_id.
  - fold (sub_latex d (sub_closed i v (sub_opened i v 0 (written ts)))). cbn [fst snd].
    inversion Wk as [|? ? Wi Wk']; subst. cbn [map fst] in *. destruct (F v (or_introl eq_refl)) as (Wv & Fv). cbn [map fst] in Fv.
    rewrite (@step_ok (i :: map fst d) i v ts (or_introl eq_refl) Wi Wv (fun t => Fv i t (or_introl eq_refl)) T S).
    rewrite IH; auto.
    + rewrite subst_comp. f_equal. apply subst_ext. intros w. rewrite put_cons. unfold f1. destruct (String.eqb i w) eqn:E.
      * apply put_fresh. intros j Hj ->. apply (proj1 (Fv j "" (or_intror Hj))). now rewrite sapp_nil_r.
      * reflexivity.
    + eapply fresh_tail; eauto.
    + apply text_subst; auto. intros w Hw. unfold f1. now destruct (String.eqb i w).
    + apply (@sep_weaken (i :: map fst d)); [now apply incl_tl, incl_refl|]. apply sep_step; auto.
Qed.

Lemma c99_latex__p :
  forall d ts, Forall word (map fst d) -> fresh_values d -> text ts -> separated (map fst d) None ts ->
    exists ts', indexed (put d) None ts ts' /\ sub_latex d (written ts) = written ts' /\
      forall ts2, indexed (put d) None ts ts2 -> ts2 = ts'.
Proof.
  intros d ts Wk F T S. exists (subst_fn (put d) false ts). split; [now apply subst_indexed|]. split.
  - apply sub_latex_ok; auto. exact (separated_sep _ _ _ S).
  - intros ts2 H. now apply subst_indexed in H.
Qed.

(** ** Descriptions *)
Fixpoint tail (l : list string) : string := match l with [] => "" | w :: l' => (" " ++ w ++ tail l')%string end.
Lemma join_tail w l : join " " (w :: l) = (w ++ tail l)%string.
Proof.
  revert w. induction l as [|x l IH]; intros w; cbn [tail]; [unfold join; cbn; now rewrite sapp_nil_r|].
  unfold join in *. change (String.concat " " (w :: x :: l)) with (w ++ " " ++ String.concat " " (x :: l))%string. now rewrite IH.
Qed.
Lemma plain_tail c w : plain (String c w) -> plain w /\ c <> " "%char /\ c <> "010"%char.
Proof.
  intros (H1 & H2). cbn [contains_char] in H1, H2. apply orb_false_iff in H1 as (A1 & B1), H2 as (A2 & B2). split; [split; auto|].
  apply Ascii.eqb_neq in A1, A2. split; congruence.
Qed.
Lemma sub_last_word i v w : forall s, plain w -> sub_last i v (w ++ s) = (w ++ sub_last i v s)%string.
Proof.
  induction w as [|c w IH]; intros s Hw; cbn [append]; [reflexivity|]. apply plain_tail in Hw as (Hw & N & _).
  cbn [sub_last append]. destruct (String.eqb_spec (String c (w ++ s)) (String " " i)) as [E|_]; [injection E as E _; congruence|].
  destruct (String.eqb_spec (String c (w ++ s)) (String " " (i ++ String "010" ""))) as [E|_]; [injection E as E _; congruence|]. now rewrite IH.
Qed.
Lemma plain_tail_nil i : forall w l, plain i -> plain w -> (w ++ tail l)%string = i -> w = i /\ l = [].
Proof.
  induction i as [|c i IH]; intros w l Hi Hw E; destruct w as [|d w]; cbn [append] in E; try discriminate E.
  - destruct l; [auto|discriminate].
  - destruct l as [|x l]; [discriminate|]. cbn in E. injection E as <- _. apply plain_tail in Hi. tauto.
  - injection E as -> E. apply plain_tail in Hi as (Hi & _), Hw as (Hw & _). destruct (IH w l Hi Hw E) as (-> & ->). auto.
Qed.
Lemma no_newline l : Forall plain l -> forall w s, plain w -> (w ++ tail l)%string <> (s ++ String "010" "")%string.
Proof.
  assert (C : forall s, contains_char "010" (s ++ String "010" "") = true) by (intros s; rewrite contains_char_app; cbn; apply orb_true_r).
  assert (D : forall l, Forall plain l -> contains_char "010" (tail l) = false).
  { induction 1 as [|w l' Hw _ IH]; [reflexivity|]. cbn [tail]. rewrite !contains_char_app, IH. cbn. rewrite orb_false_r. apply Hw. }
  intros Hl w s Hw E. assert (X := C s). rewrite <- E, contains_char_app, D, orb_false_r in X by auto. destruct Hw. congruence.
Qed.
Fixpoint last_fn (i v : string) (l : list string) : list string :=
  match l with [] => [] | w :: l' => (if String.eqb i w then match l' with [] => v | _ => w end else w) :: last_fn i v l' end.
Lemma sub_last_tail i v l : plain i -> Forall plain l -> sub_last i v (tail l) = tail (last_fn i v l).
Proof.
  intros Hi. induction 1 as [|w l Hw Hl IH]; [reflexivity|]. cbn [tail append last_fn].
  cbn [sub_last append]. destruct (String.eqb_spec (String " " (w ++ tail l)) (String " " i)) as [E|N].
  - injection E as E. destruct (@plain_tail_nil i w l Hi Hw E) as (-> & ->). rewrite String.eqb_refl. cbn. now rewrite sapp_nil_r.
  - destruct (String.eqb_spec (String " " (w ++ tail l)) (String " " (i ++ String "010" ""))) as [E|_].
    { injection E as E. exfalso. exact (@no_newline l Hl w i Hw E). }
    rewrite sub_last_word, IH by auto. destruct (String.eqb_spec i w) as [->|]; [|reflexivity].
    destruct l; [|reflexivity]. cbn [tail] in N. rewrite sapp_nil_r in N. congruence.
Qed.
Definition no_repeat (i : string) (l : list string) : Prop := forall a b, l <> a ++ i :: i :: b.
Lemma no_repeat_tail i w l : no_repeat i (w :: l) -> no_repeat i l.
Proof. intros H a b ->. apply (H (w :: a) b). reflexivity. Qed.
Lemma between_word i v w : forall s, plain w -> sub_between i v (w ++ s) = (w ++ sub_between i v s)%string.
Proof.
  unfold sub_between. intros s (H & _). cbn [append]. now rewrite str_replace_lit.
Qed.
Lemma last_fn_head i v w l : exists l', last_fn i v (w :: l) = (if String.eqb i w then match l with [] => v | _ => w end else w) :: l' /\ (l = [] -> l' = []) /\ (l <> [] -> l' <> []).
Proof. eexists. split; [reflexivity|]. destruct l; split; congruence. Qed.
Lemma between_tail i v : plain i -> plain v -> i <> v -> forall n l, length l <= n -> Forall plain l -> no_repeat i l ->
  sub_between i v (tail (last_fn i v l)) = tail (map (f1 i v) l).
Proof.
  intros Hi Hv N n. induction n as [|n IH]; intros l L Hl R; [destruct l; [reflexivity|cbn in L; lia]|].
  destruct l as [|w l]; [reflexivity|]. inversion Hl as [|? ? Hw Hl']; subst. cbn [length] in L.
  assert (R' := no_repeat_tail R). cbn [last_fn map]. unfold f1 at 1.
  assert (Skip : forall x, plain x -> (x = i -> l = []) -> sub_between i v (tail (x :: last_fn i v l)) = tail (x :: map (f1 i v) l)).
  { intros x Hx Hxi. cbn [tail append]. rewrite <- (IH l) by (auto; lia). unfold sub_between at 1. rewrite str_replace_nomatch.
    - f_equal. fold (sub_between i v (x ++ tail (last_fn i v l))). now apply between_word.
    - destruct (String.prefix (" " ++ i ++ " ") (String " " (x ++ tail (last_fn i v l)))) eqn:P; [|reflexivity]. exfalso.
      apply prefix_true in P as (r & P). cbn [append] in P. injection P as P. rewrite sapp_assoc in P. change (" " ++ r)%string with (String " " r) in P.
      destruct (last_fn i v l) as [|y l'] eqn:El.
      + cbn [tail] in P. rewrite sapp_nil_r in P. destruct Hx as (Hx & _). rewrite P, contains_char_app in Hx. cbn in Hx. rewrite orb_true_r in Hx. discriminate.
      + cbn [tail append] in P. destruct (@prefix_delim x i " " _ _ (proj1 Hx) (proj1 Hi) P) as (-> & _). rewrite (Hxi eq_refl) in El. discriminate. }
  destruct (String.eqb_spec i w) as [<-|Nw].
  - destruct l as [|w2 l].
    + apply Skip; auto.
    + assert (N2 : i <> w2) by (intros <-; apply (R [] l); reflexivity).
      inversion Hl' as [|? ? Hw2 Hl2]; subst. cbn [last_fn map]. unfold f1 at 1. destruct (String.eqb_spec i w2); [contradiction|].
      cbn [tail append]. cbn [length] in L.
      replace (String " " (i ++ String " " (w2 ++ tail (last_fn i v l)))) with ((" " ++ i ++ " ") ++ (w2 ++ tail (last_fn i v l)))%string
        by (cbn [append]; now rewrite sapp_assoc).
      unfold sub_between. rewrite str_replace_match by discriminate. fold (sub_between i v (w2 ++ tail (last_fn i v l))).
      rewrite between_word by auto. rewrite (IH l ltac:(lia) Hl2 (no_repeat_tail R')). cbn [append]. now rewrite !sapp_assoc.
  - apply Skip; auto. congruence.
Qed.

Definition values_plain (d : list (string * string)) : Prop := forall v, In v (map snd d) -> plain v /\ ~ In v (map fst d).
Lemma sub_description_ok d : forall w l, Forall plain (map fst d) -> values_plain d -> plain w -> Forall plain l ->
  (forall i, In i (map fst d) -> no_repeat i l) ->
  sub_description d (w ++ tail l) = (w ++ tail (map (put d) l))%string.
Proof.
  induction d as [|(i, v) d IH]; intros w l Hk Hd Hw Hl R; cbn [sub_description fold_left].
  - rewrite (map_ext (put []) (fun x => x)) by reflexivity. now rewrite map_id.
  - cbn [fst snd]. fold (sub_description d (sub_between i v (sub_last i v (w ++ tail l)))).
    inversion Hk as [|? ? Hi Hk']; subst. destruct (Hd v (or_introl eq_refl)) as (Hv & Nv). cbn [map fst] in *.
    rewrite sub_last_word, sub_last_tail, between_word by auto.
    assert (Niv : i <> v) by (intros ->; apply Nv; now left).
    rewrite (@between_tail i v Hi Hv Niv (length l) l (le_n _) Hl (R i (or_introl eq_refl))).
    rewrite IH; auto.
    + rewrite map_map. f_equal. f_equal. apply map_ext. intros x. rewrite put_cons. unfold f1. destruct (String.eqb i x) eqn:E; [|reflexivity].
      apply put_fresh. intros j Hj ->. apply Nv. now right.
    + intros u Hu. destruct (Hd u (or_intror Hu)) as (A & B). split; [exact A|]. intros X. apply B. now right.
    + apply Forall_forall. intros x Hx. apply in_map_iff in Hx as (y & <- & Hy). unfold f1. destruct (String.eqb i y); [exact Hv|].
      rewrite Forall_forall in Hl. auto.
    + intros j Hj a b E. apply map_eq_app in E as (a' & b' & -> & <- & E). destruct b' as [|x [|y b']]; try discriminate E.
      cbn [map] in E. injection E as E1 E2 E3. assert (J : forall x, f1 i v x = j -> x = j).
      { intros z. unfold f1. destruct (String.eqb_spec i z) as [->|]; [|auto]. intros ->. exfalso. apply Nv. now right. }
      apply J in E1, E2. subst. exact (R j (or_intror Hj) a' b' eq_refl).
Qed.
Lemma c99_description__p :
  forall d w l, Forall plain (map fst d) -> (forall v, In v (map snd d) -> plain v /\ ~ In v (map fst d)) -> Forall plain (w :: l) ->
    (forall i a b, In i (map fst d) -> l <> a ++ i :: i :: b) ->
    sub_description d (join " " (w :: l)) = join " " (w :: map (put d) l).
Proof.
  intros d w l Hk Hd Hl R. inversion Hl; subst. rewrite !join_tail. apply sub_description_ok; auto. intros i Hi a b. now apply R.
Qed.
Lemma c99_dicts__p :
  forall subs infos d k x, nth_error infos k = Some x ->
    exists y, nth_error (sub_info_dicts subs infos d) k = Some y /\ i_name y = i_name x /\
      (forall l, i_index x = Some l -> i_index y = Some (map subs l)) /\ (i_index x = None -> i_index y = Some nil) /\
      i_latex y = sub_latex d (i_latex x) /\ i_description y = sub_description d (i_description x) /\
      length (sub_info_dicts subs infos d) = length infos.
Proof.
  intros subs infos d k x H. unfold sub_info_dicts. rewrite (map_nth_error _ _ _ H). eexists. split; [reflexivity|]. cbn.
  split; [reflexivity|]. split; [intros l ->; reflexivity|]. split; [intros ->; reflexivity|]. split; [reflexivity|]. split; [reflexivity|]. apply map_length.
Qed.

(** ** What goes wrong *)
Lemma closed_end i v t : word i -> alnums t -> sub_closed i v (t ++ i ++ "}") = (t ++ v ++ "}")%string.
Proof.
  intros Wi. unfold sub_closed.
  assert (M : str_replace (i ++ "}") (v ++ "}") (i ++ "}") = (v ++ "}")%string).
  { rewrite <- (sapp_nil_r (i ++ "}")) at 2. rewrite str_replace_match by (destruct i; discriminate). cbn. now rewrite sapp_nil_r. }
  induction t as [|c t IH]; intros Ht; cbn [append]; [exact M|].
  rewrite str_replace_nomatch; [f_equal; apply IH; eauto using alnums_tail|].
  destruct (String.prefix (i ++ "}") (String c (t ++ i ++ "}"))) eqn:P; [|reflexivity]. exfalso.
  apply prefix_true in P as (r & P). rewrite sapp_assoc in P.
  change (String c (t ++ i ++ "}"))%string with (String c t ++ (i ++ "}"))%string in P. rewrite <- sapp_assoc in P.
  assert (A : alnums (String c t ++ i)).
  { intros x Hx. assert (G : forall a b, In x (list_ascii_of_string (a ++ b)) -> In x (list_ascii_of_string a) \/ In x (list_ascii_of_string b)).
    { clear. induction a as [|c a IH]; intros b H; [now right|]. cbn in H. destruct H as [H|H]; [left; now left|]. destruct (IH b H); [left; now right|now right]. }
    apply G in Hx as [Hx|Hx]; [now apply Ht|now apply (proj2 Wi)]. }
  destruct (@alnums_split i (String c t ++ i) "}" r "}" (proj2 Wi) A not_alnum_close) as (E & _); [cbn; apply not_alnum_close|exact P|].
  apply (f_equal slen) in E. rewrite slen_app in E. cbn [String.length slen] in E. lia.
Qed.
Lemma opened_plain i v s : alnums s -> sub_opened i v 0 (s ++ "}") = (s ++ "}")%string.
Proof. intros H. rewrite sub_opened_word by auto. cbn. reflexivity. Qed.
Lemma alnums_app a b : alnums a -> alnums b -> alnums (a ++ b).
Proof. intros A B. induction a as [|c a IH]; [exact B|]. intros x [<-|Hx]; [exact (alnums_head A)|]. apply IH; auto. eapply alnums_tail; eauto. Qed.

Lemma c99_ending_refuted__p :
  forall t i v, word t -> word i -> sub_latex ((i, v) :: nil) (t ++ i ++ "}")%string = (t ++ v ++ "}")%string.
Proof.
  intros t i v Wt Wi. unfold sub_latex. cbn [fold_left fst snd]. rewrite <- sapp_assoc, opened_plain, sapp_assoc.
  - apply closed_end; [exact Wi|exact (proj2 Wt)].
  - apply alnums_app; [exact (proj2 Wt)|exact (proj2 Wi)].
Qed.
Lemma c99_doubled_refuted__p :
  forall t i, word t -> word i ->
    sub_latex ((i, t ++ i)%string :: nil) ("_{" ++ i ++ "}")%string = ("_{" ++ t ++ t ++ i ++ "}")%string.
Proof.
  intros t i Wt Wi. unfold sub_latex. cbn [fold_left fst snd].
  assert (E : sub_opened i (t ++ i) 0 ("_{" ++ i ++ "}") = ("_{" ++ t ++ i ++ "}")%string).
  { assert (B : String.prefix i (String "{" (i ++ "}")) = false).
    { destruct (word_head Wi) as (x & i' & -> & X). cbn. destruct (ascii_dec x "{") as [->|]; [|reflexivity]. exfalso.
      apply alnum_opens in X. discriminate. }
    cbn [append sub_opened opens]. cbn [Ascii.eqb Bool.eqb orb andb]. rewrite B, prefix_app. rewrite sub_opened_skip. cbn [sub_opened opens Ascii.eqb Bool.eqb orb andb].
    now rewrite sapp_assoc. }
  rewrite E. unfold sub_closed. cbn [append].
  assert (N : forall c s, ~ alnum c -> str_replace (i ++ "}") ((t ++ i) ++ "}") (String c s) = String c (str_replace (i ++ "}") ((t ++ i) ++ "}") s)).
  { intros c s Hc. apply str_replace_nomatch. destruct (word_head Wi) as (x & i' & -> & X). cbn. destruct (ascii_dec x c) as [->|]; [contradiction|reflexivity]. }
  rewrite !N; [|intros X; apply alnum_opens in X; discriminate|intros X; apply alnum_opens in X; discriminate].
  f_equal. f_equal. pose proof (@closed_end i (t ++ i) t Wi (proj2 Wt)) as C. unfold sub_closed in C. rewrite C. now rewrite !sapp_assoc.
Qed.
Lemma word_no_close t : word t -> contains_char "}" t = false.
Proof.
  intros Wt. destruct (contains_char "}" t) eqn:T; [|reflexivity]. exfalso.
  assert (G : forall t, contains_char "}" t = true -> In "}"%char (list_ascii_of_string t)).
  { clear. induction t as [|c t IH]; cbn; [discriminate|]. intros H. apply orb_prop in H as [H|H]; [left; now apply Ascii.eqb_eq in H|right; auto]. }
  exact (not_alnum_close (proj2 Wt _ (G t T))).
Qed.
Lemma c99_beginning_refuted__p :
  forall t i v, word t -> word i -> word v -> sub_latex ((i, v) :: nil) ("_" ++ i ++ t)%string = ("_" ++ v ++ t)%string.
Proof.
  intros t i v Wt Wi Wv. unfold sub_latex. cbn [fold_left fst snd].
  assert (E : sub_opened i v 0 ("_" ++ i ++ t) = ("_" ++ v ++ t)%string).
  { cbn [append sub_opened opens]. cbn [Ascii.eqb Bool.eqb orb andb]. rewrite prefix_app, sub_opened_skip.
    rewrite <- (sapp_nil_r t) at 1. rewrite sub_opened_word by exact (proj2 Wt). cbn [sub_opened]. now rewrite sapp_nil_r. }
  rewrite E. unfold sub_closed.
  assert (C : contains_char "}" ("_" ++ v ++ t) = false).
  { rewrite !contains_char_app, (word_no_close Wv), (word_no_close Wt). reflexivity. }
  revert C. generalize ("_" ++ v ++ t)%string. intros s C. unfold str_replace.
  assert (G : forall s, contains_char "}" s = false -> String.prefix (i ++ "}") s = false).
  { clear. intros s C. destruct (String.prefix (i ++ "}") s) eqn:P; [|reflexivity]. apply prefix_true in P as (r & ->).
    rewrite !contains_char_app in C. cbn in C. rewrite orb_true_r in C. discriminate. }
  induction s as [|c s IH]; [reflexivity|]. cbn [replace_go]. rewrite (G _ C). f_equal. apply IH. cbn in C. now apply orb_false_iff in C.
Qed.
Lemma c99_chain_refuted__p :
  exists d, NoDup (map fst d) /\ Forall word (map fst d ++ map snd d) /\ sub_latex d "x_{i,j}" = "x_{k,k}"%string /\ put d "i" = "j"%string.
Proof.
  exists [("i", "j"); ("j", "k")]. split; [repeat constructor; cbn; intuition discriminate|]. split; [|split; reflexivity].
  cbn [map app fst snd]. repeat (apply Forall_cons; [apply word_b; [discriminate|vm_compute; reflexivity]|]). apply Forall_nil.
Qed.
Lemma c99_description_refuted__p :
  sub_description (("i", "food") :: nil) "i sold" = "i sold"%string /\
  sub_description (("i", "food") :: nil) "trade i i goods" = "trade food i goods"%string /\
  sub_description (("i", "food") :: nil) "price of i, in kg" = "price of i, in kg"%string.
Proof. repeat split; vm_compute; reflexivity. Qed.

(** ** Values by symbol *)
Lemma symbol_inj name s t : symbol name [s] = symbol name [t] -> s = t.
Proof. unfold symbol, join. cbn. intros H. apply sapp_inv_head in H. now injection H. Qed.
Lemma c99_get_info__p :
  forall (V : Type) name (x y : V) sectors s,
    get_info name (symbols name (Some x) sectors None ++ ((name, nil), Some y) :: nil) (s :: nil) = Some x <-> In s sectors \/ x = y.
Proof.
  intros V name x y sectors s.
  assert (N : forall s, symbol name [s] <> name).
  { intros u H. unfold symbol, join in H. cbn in H. apply (f_equal slen) in H. rewrite slen_app in H. cbn in H. lia. }
  assert (A : In s sectors -> sym_get (symbol name [s], []) (symbols name (Some x) sectors None ++ [((name, []), Some y)]) = Some (Some x)).
  { induction sectors as [|u l IH]; [intros []|]. cbn [symbols map app sym_get]. intros [->|H].
    - destruct (sym_eq_dec _ _); [reflexivity|congruence].
    - destruct (sym_eq_dec _ _); [reflexivity|]. apply IH, H. }
  assert (B : ~ In s sectors -> sym_get (symbol name [s], []) (symbols name (Some x) sectors None ++ [((name, []), Some y)]) = None).
  { induction sectors as [|u l IH]; cbn [symbols map app sym_get]; intros H.
    - destruct (sym_eq_dec _ _) as [E|]; [|reflexivity]. injection E as E. exfalso. exact (N s E).
    - destruct (sym_eq_dec _ _) as [E|]; [|apply IH; firstorder]. injection E as E. apply symbol_inj in E. exfalso. apply H. now left. }
  assert (C : sym_get (symbol name [], []) (symbols name (Some x) sectors None ++ [((name, []), Some y)]) = Some (Some y)).
  { clear A B. induction sectors as [|u l IH]; cbn [symbols map app sym_get].
    - destruct (sym_eq_dec _ _) as [E|E]; [reflexivity|exfalso; apply E; reflexivity].
    - destruct (sym_eq_dec _ _) as [E|E]; [|exact IH]. injection E as E. exfalso. exact (N u (eq_sym E)). }
  unfold get_info. destruct (in_dec string_dec s sectors) as [H|H].
  - rewrite (A H). tauto.
  - rewrite (B H), C. split; [intros E; right; congruence|intros [E|E]; [contradiction|congruence]].
Qed.
Lemma c99_assumptions_refuted__p :
  forall (V : Type) name (x : V) sectors a s, a <> nil -> get_info name (symbols name (Some x) sectors (Some a)) (s :: nil) = None.
Proof.
  intros V name x sectors a s Ha.
  assert (G : forall n, sym_get (n, []) (symbols name (Some x) sectors (Some a)) = None).
  { intros n. induction sectors as [|u l IH]; cbn [symbols map sym_get]; [reflexivity|]. destruct (sym_eq_dec _ _) as [E|]; [|exact IH].
    injection E as _ E. congruence. }
  unfold get_info. now rewrite !G.
Qed.
Lemma c99_shared_refuted__p :
  forall (V : Type) name s t (x : V), get_info name (symbols (name ++ "_" ++ s)%string (Some x) (t :: nil) None) (s :: t :: nil) = Some x.
Proof.
  intros V name s t x. unfold get_info, symbols. cbn [map sym_get]. destruct (sym_eq_dec _ _) as [E|E]; [reflexivity|].
  exfalso. apply E. f_equal. unfold symbol, join. cbn. rewrite !sapp_assoc. reflexivity.
Qed.
