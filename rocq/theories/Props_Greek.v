(** C90: Greek letters in printed names. *)
From Verif Require Import Py PyStr M_Greek S_Greek L_Greek.
Local Open Scope string_scope.
Local Open Scope list_scope.

Definition gk_letters : list string := with_titles ["alpha"; "beta"; "pi"; "psi"].

Lemma gk_ok : Forall letter_name gk_letters.
Proof.
  apply Forall_forall. intros w Hw. split.
  - intros ->. cbn in Hw. intuition discriminate.
  - assert (G : forall w, forallb (fun c => negb (Ascii.eqb c "_" || Ascii.eqb c "^" || Ascii.eqb c "\")) (list_ascii_of_string w) = true ->
      forall p c t, w = (p ++ String c t)%string -> c <> "_"%char /\ c <> "^"%char /\ c <> "\"%char).
    { clear. intros w H p c t ->. induction p as [|d p IH]; cbn in H.
      - apply andb_prop in H as [H _]. apply negb_true_iff in H. apply orb_false_iff in H as [H H3]. apply orb_false_iff in H as [H1 H2].
        apply Ascii.eqb_neq in H1, H2, H3. auto.
      - apply andb_prop in H as [_ H]. auto. }
    apply G. cbn in Hw. repeat (destruct Hw as [<-|Hw]; [reflexivity|]). destruct Hw.
Qed.

Theorem c90_escaped :
  forall letters name latex_name, Forall letter_name letters ->
    escaped letters ""%string (match latex_name with Some s => s | None => name end) (initialize_latex_name letters name latex_name) /\
    forall printed, escaped letters ""%string (match latex_name with Some s => s | None => name end) printed ->
      printed = initialize_latex_name letters name latex_name.
Proof. exact @c90_escaped__p. Qed.
Print Assumptions c90_escaped.
(** At the start and in scripts; not inside a word. *)
Example c90_escaped_ex : initialize_latex_name gk_letters "alpha_Pi^xbeta" None = "\alpha_\Pi^xbeta" /\
  escaped gk_letters "" "alpha_Pi^xbeta" "\alpha_\Pi^xbeta" /\ initialize_latex_name gk_letters "x" (Some "x_psi") = "x_\psi".
Proof.
  split; [reflexivity|]. split; [|reflexivity]. apply (proj1 (@c90_escaped gk_letters "alpha_Pi^xbeta" None gk_ok)).
Qed.

Theorem c90_idempotent :
  forall letters name latex_name, Forall letter_name letters ->
    initialize_latex_name letters name (Some (initialize_latex_name letters name latex_name)) = initialize_latex_name letters name latex_name.
Proof. exact @c90_idempotent__p. Qed.
Print Assumptions c90_idempotent.
Example c90_idempotent_ex : initialize_latex_name gk_letters "x" (Some "\alpha_\Pi") = "\alpha_\Pi".
Proof. apply (@c90_idempotent gk_letters "x" (Some "alpha_Pi") gk_ok). Qed.

Theorem c90_unchanged :
  forall letters name, Forall letter_name letters -> (forall p t, name = (p ++ t)%string -> ~ starts letters p t) ->
    initialize_latex_name letters name None = name.
Proof. exact @c90_unchanged__p. Qed.
Print Assumptions c90_unchanged.
Example c90_unchanged_ex : initialize_latex_name gk_letters "Price" None = "Price".
Proof.
  apply (@c90_unchanged gk_letters "Price" gk_ok). intros p t E (B & w & u & Hw & ->).
  do 6 (try destruct p as [|? p]); cbn in E; try discriminate E;
    try (injection E as <- E); repeat (injection E as <- E);
    cbn in Hw; repeat (destruct Hw as [<-|Hw]; [discriminate|]); try destruct Hw.
  all: destruct B as [B|(q & [B|B])]; [discriminate| |]; do 6 (try destruct q as [|? q]); cbn in B; discriminate.
Qed.

Theorem c90_longer_word_refuted :
  forall letters w c t, Forall letter_name letters -> In w letters ->
    exists rest, initialize_latex_name letters (w ++ String c t)%string None = String "\" rest.
Proof. exact @c90_longer_word_refuted__p. Qed.
Print Assumptions c90_longer_word_refuted.
(** A name that happens to begin with pi becomes an undefined macro. *)
Example c90_longer_word_refuted_ex : initialize_latex_name gk_letters "Piped_water" None = "\Piped_water" /\
  exists rest, initialize_latex_name gk_letters "Piped_water" None = String "\" rest.
Proof.
  split; [reflexivity|]. apply (@c90_longer_word_refuted gk_letters "Pi" "p" "ed_water" gk_ok). apply mem_str_In. reflexivity.
Qed.

Theorem c90_braces_refuted :
  forall letters base w, Forall letter_name letters -> In w letters ->
    (forall q c u, base = (q ++ String c u)%string -> c <> "_"%char /\ c <> "^"%char) ->
    (forall v u, In v letters -> base <> (v ++ u)%string /\ v <> String "{" u) ->
    initialize_latex_name letters (base ++ "_{" ++ w ++ "}")%string None = (base ++ "_{" ++ w ++ "}")%string.
Proof. exact @c90_braces_refuted__p. Qed.
Print Assumptions c90_braces_refuted.
Example c90_braces_refuted_ex : initialize_latex_name gk_letters "x_{beta}" None = "x_{beta}".
Proof.
  apply (@c90_braces_refuted gk_letters "x" "beta" gk_ok).
  - apply mem_str_In. reflexivity.
  - intros q c u E. destruct q as [|d q]; cbn in E; [injection E as <- _; split; discriminate|injection E as _ E; destruct q; discriminate].
  - intros v u Hv. cbn in Hv. repeat (destruct Hv as [<-|Hv]; [split; discriminate|]). destruct Hv.
Qed.

Theorem c90_capitals :
  forall letters c C w t, Forall letter_name (with_titles letters) -> In (String c w) letters -> capital c C ->
    (exists rest, initialize_latex_name (with_titles letters) (String c w ++ t)%string None = String "\" (String c rest)) /\
    (exists rest, initialize_latex_name (with_titles letters) (String C w ++ t)%string None = String "\" (String C rest)).
Proof. exact @c90_capitals__p. Qed.
Print Assumptions c90_capitals.
Example c90_capitals_ex : initialize_latex_name gk_letters "Beta_h" None = "\Beta_h" /\
  exists rest, initialize_latex_name gk_letters "Beta_h" None = String "\" (String "B" rest).
Proof.
  split; [reflexivity|]. refine (proj2 (@c90_capitals ["alpha"; "beta"; "pi"; "psi"] "b" "B" "eta" "_h" gk_ok _ _)).
  - apply mem_str_In. reflexivity.
  - exists 1. split; reflexivity.
Qed.
