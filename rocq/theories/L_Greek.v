(** Proofs of C90. *)
From Verif Require Import Py PyStr M_Greek S_Greek.
Local Open Scope string_scope.

Lemma app_assoc_s a b c : ((a ++ b) ++ c = a ++ (b ++ c))%string.
Proof. induction a; cbn; congruence. Qed.
Lemma app_nil_s a : (a ++ "" = a)%string.
Proof. induction a; cbn; congruence. Qed.

(** [boundary] as seen from the text before. *)
Definition at_boundary (p : string) : Prop := p = "" \/ exists q, p = (q ++ "_")%string \/ p = (q ++ "^")%string.

Lemma last_char_inj p c q d : (p ++ String c "" = q ++ String d "")%string -> p = q /\ c = d.
Proof.
  revert q. induction p as [|a p IH]; intros [|b q] H; cbn in H.
  - injection H as ->. auto.
  - injection H as -> H. destruct q; discriminate.
  - injection H as -> H. destruct p; discriminate.
  - injection H as -> H. destruct (IH _ H). subst. auto.
Qed.

Lemma boundary_snoc p c : at_boundary (p ++ String c "") <-> is_mark c = true.
Proof.
  unfold at_boundary, is_mark. rewrite orb_true_iff, !Ascii.eqb_eq. split.
  - intros [H|(q & [H|H])].
    + destruct p; discriminate.
    + apply last_char_inj in H as [_ ->]. auto.
    + apply last_char_inj in H as [_ ->]. auto.
  - intros [->| ->]; right; exists p; auto.
Qed.

Lemma find_letter letters s :
  match find (fun w => String.prefix w s) letters with
  | Some w => In w letters /\ exists u, s = (w ++ u)%string
  | None => forall w u, In w letters -> s <> (w ++ u)%string
  end.
Proof.
  destruct (find _ _) as [w|] eqn:E.
  - apply find_some in E as [H E]. apply prefix_true in E. auto.
  - intros w u H ->. apply (find_none _ _ E) in H. rewrite prefix_app in H. discriminate.
Qed.

Lemma escape_spec letters :
  Forall letter_name letters ->
  forall s p boundary skip,
    (boundary = true <-> at_boundary p) ->
    (skip = 0 \/ (boundary = false /\ exists q w u, In w letters /\ (w = q ++ u)%string /\ String.length u = skip /\ exists t, s = (u ++ t)%string)) ->
    escaped letters p s (escape_letters letters boundary skip s).
Proof.
  intros L. induction s as [|c s IH]; intros p boundary skip B K; cbn [escape_letters]; [constructor|].
  assert (NB : forall p c, is_mark c = true <-> at_boundary (p ++ String c "")) by (intros; symmetry; apply boundary_snoc).
  destruct K as [->|(Bf & q & w & u & Hw & Ew & Lu & t & Es)].
  - destruct boundary.
    + pose proof (find_letter letters (String c s)) as F.
      destruct (find _ letters) as [w|].
      * destruct F as (Hw & u & Eu). apply escaped_letter.
        { split; [now apply B|]. eauto. }
        apply IH; [apply NB|]. rewrite Forall_forall in L. destruct (L w Hw) as (W0 & W1).
        destruct w as [|c' w]; [tauto|]. cbn in Eu. injection Eu as <- Eu. cbn [String.length]. rewrite Nat.sub_succ, Nat.sub_0_r.
        destruct w as [|c2 w]; [now left|]. right. split.
        { destruct (W1 "" c (String c2 w) eq_refl) as (N1 & N2 & _). unfold is_mark. apply orb_false_iff.
          split; now apply Ascii.eqb_neq. }
        exists (String c ""), (String c (String c2 w)), (String c2 w). split; auto. split; [reflexivity|]. split; [reflexivity|]. eauto.
      * apply escaped_other; [|apply IH; [apply NB|now left]].
        intros (_ & w & u & Hw & Eu). exact (F w u Hw Eu).
    + apply escaped_other; [|apply IH; [apply NB|now left]].
      intros (H & _). apply B in H. discriminate.
  - destruct skip as [|k].
    + destruct boundary; [discriminate|]. apply escaped_other; [|apply IH; [apply NB|now left]].
      intros (H & _). apply B in H. discriminate.
    + apply escaped_other; [intros (H & _); apply B in H; congruence|].
      destruct u as [|c' u]; [discriminate|]. cbn in Es. injection Es as <- Es. cbn in Lu. injection Lu as Lu.
      apply IH; [apply NB|]. destruct k as [|k]; [now left|]. right. split.
      * rewrite Forall_forall in L. destruct (L w Hw) as (_ & W1). destruct (W1 q c u Ew) as (N1 & N2 & _).
        unfold is_mark. apply orb_false_iff. split; now apply Ascii.eqb_neq.
      * exists (q ++ String c "")%string, w, u. split; auto. split; [|eauto]. rewrite app_assoc_s. exact Ew.
Qed.

Lemma escaped_fun letters p s a : escaped letters p s a -> forall b, escaped letters p s b -> a = b.
Proof. induction 1; intros b H'; inversion H'; subst; try tauto; f_equal; auto. f_equal; auto. Qed.

Lemma c90_escaped__p :
  forall letters name latex_name, Forall letter_name letters ->
    escaped letters ""%string (match latex_name with Some s => s | None => name end) (initialize_latex_name letters name latex_name) /\
    forall printed, escaped letters ""%string (match latex_name with Some s => s | None => name end) printed ->
      printed = initialize_latex_name letters name latex_name.
Proof.
  intros letters name latex_name L. assert (E : escaped letters "" (match latex_name with Some s => s | None => name end) (initialize_latex_name letters name latex_name)).
  { apply escape_spec; auto. split; [intros _; now left|auto]. }
  split; auto. intros printed H. exact (escaped_fun H E).
Qed.

(** A backslash ends a boundary. *)
Lemma not_letter_backslash letters s w u : Forall letter_name letters -> In w letters -> String "\" s <> (w ++ u)%string.
Proof.
  intros L Hw E. rewrite Forall_forall in L. destruct (L w Hw) as (W0 & W1). destruct w as [|c w]; [tauto|].
  cbn in E. injection E as <- _. destruct (W1 "" "\"%char w eq_refl) as (_ & _ & N). congruence.
Qed.

Lemma escaped_prefix letters p s a :
  escaped letters p s a -> forall v u, a = (v ++ u)%string -> (forall q c t, v = (q ++ String c t)%string -> c <> "\"%char) ->
  exists u', s = (v ++ u')%string.
Proof.
  induction 1; intros v u E N.
  - destruct v; [now exists ""|discriminate].
  - destruct v as [|d v]; [eexists; reflexivity|]. cbn in E. injection E as <- _. exfalso. exact (N "" "\"%char v eq_refl eq_refl).
  - destruct v as [|d v]; [eexists; reflexivity|]. cbn in E. injection E as <- E.
    destruct (IHescaped v u E) as (u' & ->); [|now exists u'].
    intros q d t ->. exact (N (String c q) d t eq_refl).
Qed.

Lemma escaped_again letters s a p :
  Forall letter_name letters -> escaped letters p s a ->
  forall p', (at_boundary p' -> at_boundary p) -> escaped letters p' a a.
Proof.
  intros L. induction 1; intros p' B.
  - constructor.
  - apply escaped_other.
    + intros (_ & w & u & Hw & E). exact (@not_letter_backslash letters _ w u L Hw E).
    + apply escaped_other.
      * intros (K & _). apply boundary_snoc in K. discriminate.
      * apply IHescaped. intros K. apply boundary_snoc in K. now apply boundary_snoc.
  - apply escaped_other.
    + intros (K & w & u & Hw & E). apply H. split; [now apply B|].
      destruct (@escaped_prefix letters p (String c s) (String c s') (escaped_other H H0) w u E) as (u' & E').
      * intros q d t Eq. rewrite Forall_forall in L. destruct (L w Hw) as (_ & W1). apply (W1 q d t Eq).
      * exists w, u'. auto.
    + apply IHescaped. intros K. apply boundary_snoc in K. now apply boundary_snoc.
Qed.

Lemma c90_idempotent__p :
  forall letters name latex_name, Forall letter_name letters ->
    initialize_latex_name letters name (Some (initialize_latex_name letters name latex_name)) = initialize_latex_name letters name latex_name.
Proof.
  intros letters name latex_name L. destruct (c90_escaped__p name latex_name L) as (E & _).
  pose proof (@escaped_again letters _ _ ""%string L E ""%string (fun H => H)) as A.
  destruct (c90_escaped__p name (Some (initialize_latex_name letters name latex_name)) L) as (E' & _).
  exact (escaped_fun E' A).
Qed.

(** A longer word that begins like a letter is escaped too. *)
Lemma c90_longer_word_refuted__p :
  forall letters w c t, Forall letter_name letters -> In w letters ->
    exists rest, initialize_latex_name letters (w ++ String c t)%string None = String "\" rest.
Proof.
  intros letters w c t L Hw. destruct (c90_escaped__p (w ++ String c t)%string None L) as (E & _).
  rewrite Forall_forall in L. destruct (L w Hw) as (W0 & _). destruct w as [|d w]; [tauto|].
  cbn [append] in *. inversion E as [|? ? ? s' S E' E1 E2 E3|? ? ? s' S E' E1 E2 E3]; subst.
  - eexists. reflexivity.
  - exfalso. apply S. split; [now left|]. exists (String d w), (String c t). split; auto.
Qed.

(** A text in which no letter name starts is kept. *)
Lemma c90_unchanged__p :
  forall letters name, Forall letter_name letters -> (forall p t, name = (p ++ t)%string -> ~ starts letters p t) ->
    initialize_latex_name letters name None = name.
Proof.
  intros letters name L H. destruct (c90_escaped__p name None L) as (_ & U). symmetry. apply U. clear U.
  assert (G : forall s p, (forall q t, s = (q ++ t)%string -> ~ starts letters (p ++ q) t) -> escaped letters p s s).
  { induction s as [|c s IH]; intros p N; [constructor|]. apply escaped_other.
    - specialize (N "" (String c s) eq_refl). now rewrite app_nil_s in N.
    - apply IH. intros q t ->. rewrite app_assoc_s. apply N. reflexivity. }
  apply G. intros q t E. cbn [append]. now apply H.
Qed.

Definition no_mark (s : string) : Prop := forall q c u, s = (q ++ String c u)%string -> c <> "_"%char /\ c <> "^"%char.
Lemma no_mark_tail c s : no_mark (String c s) -> no_mark s.
Proof. intros H q d u ->. exact (H (String c q) d u eq_refl). Qed.

Lemma cut_at_mark a b q m t :
  no_mark a -> no_mark b -> (m = "_"%char \/ m = "^"%char) ->
  (q ++ String m t = a ++ String "_" b)%string -> q = a /\ t = b.
Proof.
  intros Na Nb M. revert q. induction a as [|c a IH]; intros q E; cbn in E.
  - destruct q as [|d q]; cbn in E.
    + injection E as _ ->. auto.
    + injection E as _ E. exfalso. destruct (Nb q m t (eq_sym E)). destruct M; congruence.
  - destruct q as [|d q]; cbn in E.
    + injection E as -> E. destruct (Na "" c a eq_refl). destruct M; congruence.
    + injection E as -> E. destruct (IH (no_mark_tail Na) q E) as [-> ->]. auto.
Qed.

Lemma prefix_before_mark v u a b : no_mark v -> (v ++ u = a ++ String "_" b)%string -> exists u', a = (v ++ u')%string.
Proof.
  revert a. induction v as [|c v IH]; intros a N E; [eexists; reflexivity|].
  destruct a as [|d a]; cbn in E.
  - injection E as -> _. destruct (N "" "_"%char v eq_refl) as [K _]. congruence.
  - injection E as -> E. destruct (IH a (no_mark_tail N) E) as (u' & ->). now exists u'.
Qed.

(** A letter in braces is not escaped. *)
Lemma c90_braces_refuted__p :
  forall letters base w, Forall letter_name letters -> In w letters ->
    (forall q c u, base = (q ++ String c u)%string -> c <> "_"%char /\ c <> "^"%char) ->
    (forall v u, In v letters -> base <> (v ++ u)%string /\ v <> String "{" u) ->
    initialize_latex_name letters (base ++ "_{" ++ w ++ "}")%string None = (base ++ "_{" ++ w ++ "}")%string.
Proof.
  intros letters base w L Hw Nb Ns. apply c90_unchanged__p; auto.
  assert (Lw : forall v, In v letters -> no_mark v).
  { intros v Hv q c u E. rewrite Forall_forall in L. destruct (L v Hv) as (_ & W). destruct (W q c u E) as (A & B & _). auto. }
  assert (NB : no_mark (String "{" (w ++ "}"))).
  { pose proof (Lw w Hw) as N. intros q c u E. destruct q as [|d q]; cbn in E.
    - injection E as <- _. split; discriminate.
    - injection E as <- E. clear - N E. revert q E. induction w as [|a w IH]; intros q E; cbn in E.
      + destruct q as [|e q]; cbn in E; [injection E as <- _; split; discriminate|injection E as _ E; destruct q; discriminate].
      + destruct q as [|e q]; cbn in E; [injection E as -> _; exact (N "" c w eq_refl)|].
        injection E as -> E. exact (IH (no_mark_tail N) q E). }
  intros p t E (B & v & u & Hv & ->).
  change ("_{" ++ w ++ "}")%string with (String "_" (String "{" (w ++ "}")))%string in E.
  destruct B as [->|(q & B)].
  - cbn in E. symmetry in E. destruct (@prefix_before_mark v u base _ (Lw v Hv) E) as (u' & E').
    now destruct (Ns v u' Hv).
  - assert (X : exists m, (m = "_"%char \/ m = "^"%char) /\ p = (q ++ String m "")%string) by (destruct B as [->| ->]; eauto).
    destruct X as (m & M & ->). rewrite app_assoc_s in E. cbn [append] in E. symmetry in E.
    destruct (@cut_at_mark base _ q m _ Nb NB M E) as (_ & E').
    rewrite Forall_forall in L. destruct (L v Hv) as (V0 & _). destruct v as [|d v]; [tauto|].
    cbn in E'. injection E' as -> _. now destruct (Ns _ v Hv).
Qed.

Lemma title_capital c C w : capital c C -> title (String c w) = String C w.
Proof.
  intros (i & H1 & H2). unfold title. f_equal.
  do 26 (destruct i as [|i]; [injection H1 as <-; injection H2 as <-; reflexivity|]). destruct i; discriminate H1.
Qed.
(** A name that begins with the capital of a letter is escaped too. *)
Lemma c90_capitals__p :
  forall letters c C w t, Forall letter_name (with_titles letters) -> In (String c w) letters -> capital c C ->
    (exists rest, initialize_latex_name (with_titles letters) (String c w ++ t)%string None = String "\" (String c rest)) /\
    (exists rest, initialize_latex_name (with_titles letters) (String C w ++ t)%string None = String "\" (String C rest)).
Proof.
  intros letters c C w t L Hw HC.
  assert (G : forall d, In (String d w) (with_titles letters) -> exists rest, initialize_latex_name (with_titles letters) (String d w ++ t)%string None = String "\" (String d rest)).
  { intros d Hd. destruct (c90_escaped__p (String d w ++ t)%string None L) as (E & _). cbn [append] in *.
    inversion E as [|? ? ? s' S E' E1 E2 E3|? ? ? s' S E' E1 E2 E3]; subst; [eexists; reflexivity|].
    exfalso. apply S. split; [now left|]. exists (String d w), t. split; auto. }
  split; apply G; unfold with_titles; apply in_or_app; [now left|right].
  rewrite <- (@title_capital c C w HC). now apply in_map.
Qed.
