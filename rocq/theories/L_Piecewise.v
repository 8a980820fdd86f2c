(** Lemmas for C96. *)
From Coq Require Import ZArith Lia.
From Verif Require Import Py PyStr M_Piecewise S_Piecewise.
Local Open Scope string_scope.
Local Open Scope list_scope.

Lemma depth_app a b : depth (a ++ b) = (depth a + depth b)%Z.
Proof. induction a as [|c a IH]; cbn [append depth]; [lia | rewrite IH; lia]. Qed.

Lemma after_depth c d s :
  (0 <= Z.of_nat d + depth (String c ""))%Z -> (Z.of_nat (after c d) + depth s = Z.of_nat d + depth (String c s))%Z.
Proof.
  unfold after. cbn [depth].
  destruct (Ascii.eqb c "("); [lia|]. destruct (Ascii.eqb c ")"); lia.
Qed.

(** ** Splitting *)

Lemma split_word_app kw b a : forall d,
  kw <> "" ->
  (Z.of_nat d + depth a = 0)%Z ->
  (forall p q, a = (p ++ q)%string -> (0 <= Z.of_nat d + depth p)%Z) ->
  (forall p c q r, a = (p ++ String c q)%string -> (a ++ kw ++ b)%string = (p ++ kw ++ r)%string -> (0 < Z.of_nat d + depth p)%Z) ->
  split_word kw d (a ++ kw ++ b) = Some (a, b).
Proof.
  induction a as [|c a IH]; intros d K E B N.
  - cbn [depth] in E. assert (D : d = 0) by lia. subst d. cbn [append].
    destruct kw as [|k kw]; [contradiction|].
    pose proof (prefix_app (String k kw) b) as P. pose proof (drop_app (String k kw) b) as Q.
    cbn [append split_word Nat.eqb andb] in *. rewrite P, Q. reflexivity.
  - cbn [append split_word].
    assert (H : Nat.eqb d 0 && String.prefix kw (String c (a ++ kw ++ b)) = false).
    { destruct (Nat.eqb_spec d 0) as [->|]; [|reflexivity].
      destruct (String.prefix kw (String c (a ++ kw ++ b))) eqn:P; [|reflexivity].
      apply prefix_true in P. destruct P as (t & P).
      specialize (N "" c a t eq_refl). cbn [append depth] in N. specialize (N P). lia. }
    rewrite H. rewrite IH; [reflexivity | exact K | | |].
    + rewrite after_depth; [exact E | exact (B (String c "") a eq_refl)].
    + intros p q Ep. rewrite after_depth; [|exact (B (String c "") a eq_refl)].
      apply (B (String c p) q). cbn [append]. now rewrite Ep.
    + intros p c' q r Ep Er. rewrite after_depth; [|exact (B (String c "") a eq_refl)].
      apply (N (String c p) c' q r); cbn [append]; [now rewrite Ep | now rewrite Er].
Qed.

Lemma append_split p : forall x q a, (p ++ x = a ++ q)%string -> slen p <= slen a ->
  exists m, a = (p ++ m)%string /\ x = (m ++ q)%string.
Proof.
  induction p as [|c p IH]; intros x q a E L.
  - exists a. cbn [append] in *. auto.
  - destruct a as [|c' a]; [cbn in L; lia|]. cbn [append] in E. injection E as -> E.
    destruct (IH x q a E) as (m & -> & ->); [cbn in L; lia|]. exists m. auto.
Qed.

(** An occurrence of a word that begins inside [a] lies inside [a], but for its
    last character *)
Lemma if_inside p c q r b : (((p ++ String c q) ++ " if " ++ b) = p ++ " if " ++ r)%string ->
  exists t, (p ++ String c q = p ++ " if" ++ t)%string.
Proof.
  rewrite sapp_assoc. intros E. apply sapp_inv_head in E. cbn [append] in E. injection E as -> E.
  destruct q as [|c1 q]; cbn [append] in E; [discriminate|]. injection E as -> E.
  destruct q as [|c2 q]; cbn [append] in E; [discriminate|]. injection E as -> E.
  exists q. reflexivity.
Qed.
Lemma else_inside p c q r b : (((p ++ String c q) ++ " else " ++ b) = p ++ " else " ++ r)%string ->
  exists t, (p ++ String c q = p ++ " else" ++ t)%string.
Proof.
  rewrite sapp_assoc. intros E. apply sapp_inv_head in E. cbn [append] in E. injection E as -> E.
  do 4 (destruct q as [|? q]; cbn [append] in E; [discriminate|]; injection E as -> E).
  exists q. reflexivity.
Qed.

Lemma split_if a b : operand a -> split_word " if " 0 (a ++ " if " ++ b) = Some (a, b).
Proof.
  intros ((E & B) & I & _). apply split_word_app; [discriminate | cbn; lia | intros p q H; specialize (B p q H); lia |].
  intros p c q r Ep Er. rewrite Ep in Er. apply if_inside in Er. destruct Er as (t & Er).
  rewrite <- Ep in Er. specialize (I p t Er). lia.
Qed.
Lemma split_else a b : operand a -> split_word " else " 0 (a ++ " else " ++ b) = Some (a, b).
Proof.
  intros ((E & B) & _ & I). apply split_word_app; [discriminate | cbn; lia | intros p q H; specialize (B p q H); lia |].
  intros p c q r Ep Er. rewrite Ep in Er. apply else_inside in Er. destruct Er as (t & Er).
  rewrite <- Ep in Er. specialize (I p t Er). lia.
Qed.

(** No word outside of brackets, no split *)
Lemma split_word_none kw a : forall d,
  (forall p q, a = (p ++ q)%string -> (0 <= Z.of_nat d + depth p)%Z) ->
  (forall p q, a = (p ++ kw ++ q)%string -> (0 < Z.of_nat d + depth p)%Z) ->
  split_word kw d a = None.
Proof.
  induction a as [|c a IH]; intros d B N; [reflexivity|]. cbn [split_word].
  assert (H : Nat.eqb d 0 && String.prefix kw (String c a) = false).
  { destruct (Nat.eqb_spec d 0) as [->|]; [|reflexivity].
    destruct (String.prefix kw (String c a)) eqn:P; [|reflexivity].
    apply prefix_true in P. destruct P as (t & P). specialize (N "" t P). cbn [depth] in N. lia. }
  rewrite H, IH; [reflexivity | |].
  - intros p q Ep. rewrite after_depth; [|exact (B (String c "") a eq_refl)].
    apply (B (String c p) q). cbn [append]. now rewrite Ep.
  - intros p q Ep. rewrite after_depth; [|exact (B (String c "") a eq_refl)].
    apply (N (String c p) q). cbn [append]. now rewrite Ep.
Qed.

(** ** Brackets *)

Lemma inner_closed t : forall d,
  (Z.of_nat d + depth t = 0)%Z ->
  (forall p q, t = (p ++ q)%string -> (0 <= Z.of_nat d + depth p)%Z) ->
  inner d (t ++ ")") = Some t.
Proof.
  induction t as [|c t IH]; intros d E B.
  - cbn [depth] in E. assert (d = 0) by lia. subst d. reflexivity.
  - cbn [append inner].
    pose proof (B (String c "") t eq_refl) as B1.
    assert (H : Ascii.eqb c ")" && Nat.eqb d 0 = false).
    { destruct (Nat.eqb_spec d 0) as [->|]; [|apply Bool.andb_false_r].
      cbn [depth] in B1. destruct (Ascii.eqb c ")") eqn:Ec; [|reflexivity].
      apply Ascii.eqb_eq in Ec. subst c. cbn in B1. lia. }
    rewrite H, IH; [reflexivity | |].
    + rewrite after_depth; [exact E | exact B1].
    + intros p q Ep. rewrite after_depth; [|exact B1].
      apply (B (String c p) q). cbn [append]. now rewrite Ep.
Qed.

Lemma enclosed_brackets t : balanced t -> enclosed ("(" ++ t ++ ")") = Some t.
Proof. intros (E & B). cbn [append enclosed]. rewrite Ascii.eqb_refl. apply inner_closed; [lia | intros p q H; specialize (B p q H); lia]. Qed.

(** Everything in a pair of brackets is inside of brackets *)
Lemma prefix_of_brackets t p q : balanced t -> ("(" ++ t ++ ")" = p ++ q)%string ->
  p = "" \/ q = "" \/ (0 < depth p)%Z.
Proof.
  intros (_ & B) E. destruct p as [|c p]; [now left|]. cbn [append] in E. injection E as <- E.
  right. destruct (le_lt_dec (slen p) (slen t)) as [L|L].
  - right. symmetry in E. destruct (@append_split p q ")" t E L) as (m & -> & _).
    specialize (B p m eq_refl). cbn [depth]. rewrite Ascii.eqb_refl. lia.
  - left. apply (f_equal slen) in E. rewrite !slen_app in E. cbn [slen] in E. destruct q; [reflexivity|]. cbn in E, L. lia.
Qed.

Lemma brackets_operand t : balanced t -> operand ("(" ++ t ++ ")").
Proof.
  intros H. pose proof (fun p q => @prefix_of_brackets t p q H) as P. split; [|split].
  - split.
    + destruct H as (E & _). cbn [append depth]. rewrite depth_app, E. reflexivity.
    + intros p q E. destruct (P p q E) as [-> | [-> | D]]; [cbn; lia | | lia].
      rewrite sapp_nil_r in E. subst p. destruct H as (E & _). cbn [append depth]. rewrite depth_app, E. cbn. lia.
  - intros p q E. destruct (P p _ E) as [-> | [X | D]]; [discriminate E | discriminate X | exact D].
  - intros p q E. destruct (P p _ E) as [-> | [X | D]]; [discriminate E | discriminate X | exact D].
Qed.

Lemma operand_no_if a : operand a -> split_word " if " 0 a = None.
Proof.
  intros ((_ & B) & I & _). apply split_word_none.
  - intros p q H. specialize (B p q H). lia.
  - intros p q H. change (" if " ++ q)%string with (" if" ++ (" " ++ q))%string in H. specialize (I p _ H). lia.
Qed.

(** ** Fuel *)

Lemma split_word_len kw : forall s d a b, kw <> "" -> split_word kw d s = Some (a, b) -> slen a < slen s /\ slen b < slen s.
Proof.
  induction s as [|c s IH]; intros d a b K E; [discriminate|]. cbn [split_word] in E.
  destruct (Nat.eqb d 0 && String.prefix kw (String c s)) eqn:P.
  - injection E as <- <-. destruct kw as [|k kw]; [contradiction|]. cbn [slen drop]. split; [lia|].
    assert (L : forall n t, slen (drop n t) <= slen t).
    { induction n as [|n IHn]; intros [|x t]; cbn; try lia. specialize (IHn t). lia. }
    specialize (L (slen kw) s). lia.
  - destruct (split_word kw (after c d) s) as [(a', b')|] eqn:E'; [|discriminate]. injection E as <- <-.
    destruct (IH _ _ _ K E') as (L1 & L2). cbn [slen]. lia.
Qed.
Lemma inner_len : forall s d t, inner d s = Some t -> slen t < slen s.
Proof.
  induction s as [|c s IH]; intros d t E; [discriminate|]. cbn [inner] in E.
  destruct (Ascii.eqb c ")" && Nat.eqb d 0).
  - destruct s; [|discriminate]. injection E as <-. cbn. lia.
  - destruct (inner (after c d) s) as [t'|] eqn:E'; [|discriminate]. injection E as <-. specialize (IH _ _ E'). cbn. lia.
Qed.
Lemma enclosed_len s t : enclosed s = Some t -> slen t < slen s.
Proof. destruct s as [|c s]; [discriminate|]. cbn [enclosed]. destruct (Ascii.eqb c "("); [|discriminate]. intros E. apply inner_len in E. cbn. lia. Qed.

Lemma parse_fuel : forall n m s, slen s < n -> slen s < m -> parse n s = parse m s.
Proof.
  induction n as [|n IH]; intros m s Ln Lm; [lia|]. destruct m as [|m]; [lia|]. cbn [parse].
  destruct (split_word " if " 0 s) as [(a, rest)|] eqn:E1.
  - apply split_word_len in E1; [|discriminate].
    destruct (split_word " else " 0 rest) as [(c, b)|] eqn:E2; [|reflexivity].
    apply split_word_len in E2; [|discriminate].
    rewrite (IH m a), (IH m c), (IH m b) by lia. reflexivity.
  - destruct (enclosed s) as [t|] eqn:E3; [|reflexivity]. apply enclosed_len in E3. apply IH; lia.
Qed.

Section Values.
Variable V : Type.
Variable atom : string -> option V.
Variable truth : V -> bool.
Notation value := (python_value atom truth).

Lemma value_parse s v : value s = Some v -> forall n, slen s < n -> exists e, parse n s = Some e /\ ceval atom truth e = Some v.
Proof.
  unfold python_value. intros H n L. destruct (parse (S (slen s)) s) as [e|] eqn:E; [|discriminate].
  exists e. split; [|exact H]. rewrite <- E. apply parse_fuel; lia.
Qed.

Lemma value_brackets t v : balanced t -> value t = Some v -> value ("(" ++ t ++ ")") = Some v.
Proof.
  intros B H. unfold python_value. set (s := ("(" ++ t ++ ")")%string).
  assert (L : slen t < slen s) by (unfold s; rewrite !slen_app; cbn; lia).
  cbn [parse]. rewrite (@operand_no_if s) by (now apply brackets_operand).
  unfold s at 1. rewrite enclosed_brackets by exact B.
  destruct (@value_parse t v H (slen s) L) as (e & -> & Ee). exact Ee.
Qed.

Lemma value_if a c b va vc vb : operand a -> operand c -> value a = Some va -> value c = Some vc -> value b = Some vb ->
  value (a ++ " if " ++ c ++ " else " ++ b) = Some (if truth vc then va else vb).
Proof.
  intros Oa Oc Ha Hc Hb. unfold python_value. set (s := (a ++ " if " ++ c ++ " else " ++ b)%string).
  assert (La : slen a < slen s /\ slen c < slen s /\ slen b < slen s) by (unfold s; rewrite !slen_app; cbn; lia).
  destruct La as (La & Lc & Lb). cbn [parse]. unfold s at 1.
  rewrite split_if by exact Oa. rewrite split_else by exact Oc.
  destruct (@value_parse a va Ha (slen s) La) as (ea & -> & Ea).
  destruct (@value_parse c vc Hc (slen s) Lc) as (ec & -> & Ec).
  destruct (@value_parse b vb Hb (slen s) Lb) as (eb & -> & Eb).
  cbn [ceval]. rewrite Ec. destruct (truth vc); assumption.
Qed.
End Values.

(** ** The printed text *)

(** The text after the opening bracket, for cases followed by the rest [r] *)
Fixpoint chain (cases : list (string * string)) (r : string) : string :=
  match cases with
  | [] => r
  | (t, c) :: l => ("(" ++ t ++ ")") ++ " if " ++ c ++ " else " ++ chain l r
  end.

Lemma balanced_app a b : balanced a -> balanced b -> balanced (a ++ b).
Proof.
  intros (Ea & Ba) (Eb & Bb). split; [rewrite depth_app; lia|].
  intros p q E. destruct (le_lt_dec (slen p) (slen a)) as [L|L].
  - symmetry in E. destruct (@append_split p q b a E L) as (m & -> & _). exact (Ba p m eq_refl).
  - destruct (@append_split a b q p E) as (m & -> & ->); [lia|]. rewrite depth_app. specialize (Bb m q eq_refl). lia.
Qed.
Lemma balanced_plain s : contains_char "(" s = false -> contains_char ")" s = false -> balanced s.
Proof.
  intros O C.
  assert (D : forall s, contains_char "(" s = false -> contains_char ")" s = false -> depth s = 0%Z).
  { clear. induction s as [|c s IH]; [reflexivity|]. cbn [contains_char depth]. intros O C.
    apply Bool.orb_false_iff in O, C. destruct O as (O1 & O2), C as (C1 & C2). rewrite (IH O2 C2).
    rewrite Ascii.eqb_sym in O1, C1. rewrite ?O1, ?C1. rewrite Ascii.eqb_sym in O1, C1. rewrite ?O1, ?C1. reflexivity. }
  split; [apply D; assumption|]. intros p q E. subst s. rewrite contains_char_app in O, C.
  apply Bool.orb_false_iff in O, C. rewrite D; [lia | apply O | apply C].
Qed.

Lemma chain_balanced cases r : (forall t c, In (t, c) cases -> balanced t /\ balanced c) -> balanced r -> balanced (chain cases r).
Proof.
  intros H R. induction cases as [|(t, c) l IH]; [exact R|]. cbn [chain].
  destruct (H t c (or_introl eq_refl)) as (Bt & Bc).
  apply balanced_app; [apply brackets_operand, Bt|]. apply balanced_app; [apply balanced_plain; reflexivity|].
  apply balanced_app; [exact Bc|]. apply balanced_app; [apply balanced_plain; reflexivity|].
  apply IH. intros t' c' I. apply H. right. exact I.
Qed.

Lemma chain_value V (atom : string -> option V) truth cases r vr (vs : list (V * V)) :
  Forall2 (fun tc vw => balanced (fst tc) /\ operand (snd tc) /\
                        python_value atom truth (fst tc) = Some (fst vw) /\ python_value atom truth (snd tc) = Some (snd vw)) cases vs ->
  python_value atom truth r = Some vr ->
  python_value atom truth (chain cases r) = Some (first_case (map (fun vw => (fst vw, truth (snd vw))) vs) vr).
Proof.
  intros F R. induction F as [|(t, c) (v, w) cases vs (Bt & Oc & Ht & Hc) F IH]; [exact R|].
  cbn [chain map first_case fst snd] in *.
  rewrite (@value_if V atom truth ("(" ++ t ++ ")") c (chain cases r) v w (first_case (map (fun vw => (fst vw, truth (snd vw))) vs) vr));
    [now destruct (truth w) | now apply brackets_operand | exact Oc | now apply value_brackets | exact Hc | exact IH].
Qed.

(** ** The pieces *)

Section Print.
Variables N C : Type.
Variable print_float : N -> string.
Variable print_cond : C -> string.

Definition texts (cases : list (N * C)) : list (string * string) := map (fun nc => (print_float (fst nc), print_cond (snd nc))) cases.
Definition numbers (cases : list (N * C)) : list (branch N * C) := map (fun nc => (Number (fst nc), snd nc)) cases.
Definition case_pieces (tc : string * string) : list string := ["("; fst tc; ")"; " if "; snd tc; " else "].

Lemma pieces_numbers cases : forall i, pieces print_float print_cond (S i) (numbers cases) = Ok (flat_map case_pieces (texts cases)).
Proof.
  induction cases as [|(n, c) l IH]; intros i; [reflexivity|].
  cbn [numbers texts map pieces float_text bind fst snd]. fold (numbers l). rewrite IH. reflexivity.
Qed.
Lemma pieces_start nc cases :
  pieces print_float print_cond 0 (numbers (nc :: cases)) = Ok ("(" :: flat_map case_pieces (texts (nc :: cases))).
Proof.
  destruct nc as (n, c). cbn [numbers texts map pieces float_text bind fst snd]. fold (numbers cases). rewrite pieces_numbers. reflexivity.
Qed.
Lemma pieces_symbolic cases c rest : forall i,
  pieces print_float print_cond i (numbers cases ++ (Symbolic, c) :: rest) = Err TypeError.
Proof.
  induction cases as [|(n, c') l IH]; intros i; [reflexivity|].
  cbn [numbers map app pieces float_text bind fst snd]. fold (numbers l). rewrite IH. reflexivity.
Qed.

Lemma concat_cons a l : String.concat "" (a :: l) = (a ++ String.concat "" l)%string.
Proof. destruct l as [|b l]; cbn; [now rewrite sapp_nil_r | reflexivity]. Qed.
Lemma concat_chain cases l : String.concat "" (flat_map case_pieces cases ++ l) = chain cases (String.concat "" l).
Proof.
  induction cases as [|(t, c) cases IH]; [reflexivity|].
  cbn [flat_map case_pieces app chain fst snd]. rewrite !concat_cons, IH, !sapp_assoc. reflexivity.
Qed.

(** The text printed when the last condition is True, and when it is not *)
Lemma print_default cases n c :
  print_cond c = "True" ->
  print_piecewise print_float print_cond (numbers (cases ++ [(n, c)])) =
  Ok ("(" ++ chain (texts cases) ("(" ++ print_float n ++ ")") ++ ")")%string.
Proof.
  intros T. unfold print_piecewise.
  assert (P : pieces print_float print_cond 0 (numbers (cases ++ [(n, c)])) =
              Ok ("(" :: flat_map case_pieces (texts cases) ++ case_pieces (print_float n, print_cond c))).
  { destruct cases as [|nc l]; [reflexivity|]. cbn [app]. rewrite pieces_start. f_equal. f_equal.
    unfold texts. rewrite app_comm_cons, map_app, flat_map_app. reflexivity. }
  rewrite P, T. unfold bind.
  change ("(" :: flat_map case_pieces (texts cases) ++ case_pieces (print_float n, "True"))
    with (("(" :: flat_map case_pieces (texts cases)) ++ ["("; print_float n; ")"; " if "; "True"; " else "]).
  set (F := "(" :: flat_map case_pieces (texts cases)).
  rewrite removelast_app by discriminate. cbn [removelast].
  destruct (F ++ ["("; print_float n; ")"; " if "; "True"]) as [|x l] eqn:E; [discriminate|]. rewrite <- E. clear E x l.
  rewrite (last_last) || idtac.
  assert (La : last (F ++ ["("; print_float n; ")"; " if "; "True"]) "" = "True").
  { change (F ++ ["("; print_float n; ")"; " if "; "True"]) with (F ++ (["("; print_float n; ")"; " if "] ++ ["True"])).
    rewrite app_assoc. apply last_last. }
  rewrite La. change (String.eqb "True" "True") with true. cbv iota.
  rewrite !removelast_app by discriminate. cbn [removelast].
  f_equal.
  unfold F. rewrite <- app_assoc. cbn [app]. rewrite concat_cons, concat_chain, !concat_cons. cbn [String.concat].
  f_equal. clear. induction cases as [|(n', c') l IH]; cbn [texts map chain]; [now rewrite !sapp_assoc, ?sapp_nil_r|].
  fold (texts l). rewrite IH. rewrite !sapp_assoc. reflexivity.
Qed.

Lemma print_no_default nc cases :
  print_cond (snd (last (nc :: cases) nc)) <> "True" ->
  print_piecewise print_float print_cond (numbers (nc :: cases)) =
  Ok ("(" ++ chain (texts (nc :: cases)) "None" ++ ")")%string.
Proof.
  intros T. unfold print_piecewise. rewrite pieces_start. cbn [bind].
  assert (X : nc :: cases <> []) by discriminate.
  destruct (exists_last X) as (l & m & E). rewrite E in *. rewrite last_last in T.
  unfold texts. rewrite map_app, flat_map_app. fold (texts l). cbn [map flat_map].
  rewrite app_nil_r.
  change ("(" :: flat_map case_pieces (texts l) ++ case_pieces (print_float (fst m), print_cond (snd m)))
    with (("(" :: flat_map case_pieces (texts l)) ++ ["("; print_float (fst m); ")"; " if "; print_cond (snd m); " else "]).
  set (F := "(" :: flat_map case_pieces (texts l)).
  rewrite removelast_app by discriminate. cbn [removelast].
  destruct (F ++ ["("; print_float (fst m); ")"; " if "; print_cond (snd m)]) as [|x l'] eqn:E'; [discriminate|]. rewrite <- E'. clear E' x l'.
  assert (La : last (F ++ ["("; print_float (fst m); ")"; " if "; print_cond (snd m)]) "" = print_cond (snd m)).
  { change (F ++ ["("; print_float (fst m); ")"; " if "; print_cond (snd m)]) with (F ++ (["("; print_float (fst m); ")"; " if "] ++ [print_cond (snd m)])).
    rewrite app_assoc. apply last_last. }
  rewrite La. apply String.eqb_neq in T. rewrite T. f_equal.
  unfold F. rewrite <- app_assoc. cbn [app]. rewrite concat_cons, concat_chain, !concat_cons. cbn [String.concat].
  f_equal. clear. induction l as [|(n', c') l IH]; cbn [texts map chain app].
  - rewrite !sapp_assoc. reflexivity.
  - fold (texts l). rewrite IH. unfold texts. rewrite !sapp_assoc. reflexivity.
Qed.
End Print.

(** ** C96 *)

Lemma readable_values {N C V} (print_float : N -> string) (print_cond : C -> string) (atom : string -> option V) truth value holds cases :
  (forall n c, In (n, c) cases -> readable print_float print_cond atom truth value holds n c) ->
  exists vs, Forall2 (fun tc vw => balanced (fst tc) /\ operand (snd tc) /\
                        python_value atom truth (fst tc) = Some (fst vw) /\ python_value atom truth (snd tc) = Some (snd vw))
                     (@texts N C print_float print_cond cases) vs /\
             map (fun vw => (fst vw, truth (snd vw))) vs = map (fun nc => (value (fst nc), holds (snd nc))) cases.
Proof.
  induction cases as [|(n, c) l IH]; intros H.
  - exists []. split; [constructor | reflexivity].
  - destruct IH as (vs & F & M); [intros n' c' I; apply H; now right|].
    destruct (H n c (or_introl eq_refl)) as (Bn & Vn & Oc & w & Vc & Tw).
    exists ((value n, w) :: vs). split; [constructor; cbn [fst snd]; auto|]. cbn [map fst snd]. now rewrite M, Tw.
Qed.

Lemma texts_balanced {N C V} (print_float : N -> string) (print_cond : C -> string) (atom : string -> option V) truth value holds cases :
  (forall n c, In (n, c) cases -> readable print_float print_cond atom truth value holds n c) ->
  forall t c, In (t, c) (@texts N C print_float print_cond cases) -> balanced t /\ balanced c.
Proof.
  intros H t c I. apply in_map_iff in I. destruct I as ((n, c0) & E & I). injection E as <- <-.
  destruct (H n c0 I) as (Bn & _ & Oc & _). split; [exact Bn | apply Oc].
Qed.

Lemma c96_value__p :
  forall (N C V : Type) (print_float : N -> string) (print_cond : C -> string) (atom : string -> option V) (truth : V -> bool)
         (value : N -> V) (holds : C -> bool) (cases : list (N * C)) (n : N) (c : C),
    (forall n c, In (n, c) cases -> readable print_float print_cond atom truth value holds n c) ->
    balanced (print_float n) -> python_value atom truth (print_float n) = Some (value n) -> print_cond c = "True"%string ->
    exists text,
      print_piecewise print_float print_cond (map (fun nc => (Number (fst nc), snd nc)) (cases ++ [(n, c)])) = Ok ("(" ++ text ++ ")")%string /\
      balanced text /\
      python_value atom truth ("(" ++ text ++ ")")%string = Some (first_case (map (fun nc => (value (fst nc), holds (snd nc))) cases) (value n)).
Proof.
  intros N C V pf pc atom truth value holds cases n c H Bn Vn T.
  pose proof (@print_default N C pf pc cases n c T) as P. unfold numbers in P.
  exists (chain (@texts N C pf pc cases) ("(" ++ pf n ++ ")")). split; [exact P|].
  assert (B : balanced (chain (@texts N C pf pc cases) ("(" ++ pf n ++ ")"))).
  { apply chain_balanced; [eapply texts_balanced, H | apply brackets_operand, Bn]. }
  split; [exact B|]. apply value_brackets; [exact B|].
  destruct (@readable_values _ _ _ pf pc atom truth value holds cases H) as (vs & F & M). rewrite <- M.
  eapply chain_value; [exact F | now apply value_brackets].
Qed.

Lemma c96_no_default__p :
  forall (N C V : Type) (print_float : N -> string) (print_cond : C -> string) (atom : string -> option V) (truth : V -> bool)
         (value : N -> V) (holds : C -> bool) (case : N * C) (cases : list (N * C)) (none : V),
    (forall n c, In (n, c) (case :: cases) -> readable print_float print_cond atom truth value holds n c) ->
    print_cond (snd (last (case :: cases) case)) <> "True"%string ->
    atom "None"%string = Some none ->
    exists text,
      print_piecewise print_float print_cond (map (fun nc => (Number (fst nc), snd nc)) (case :: cases)) = Ok ("(" ++ text ++ ")")%string /\
      balanced text /\
      python_value atom truth ("(" ++ text ++ ")")%string = Some (first_case (map (fun nc => (value (fst nc), holds (snd nc))) (case :: cases)) none).
Proof.
  intros N C V pf pc atom truth value holds case cases none H T A.
  pose proof (@print_no_default N C pf pc case cases T) as P. unfold numbers in P.
  exists (chain (@texts N C pf pc (case :: cases)) "None"). split; [exact P|].
  assert (B : balanced (chain (@texts N C pf pc (case :: cases)) "None")).
  { apply chain_balanced; [eapply texts_balanced, H | apply balanced_plain; reflexivity]. }
  split; [exact B|]. apply value_brackets; [exact B|].
  destruct (@readable_values _ _ _ pf pc atom truth value holds (case :: cases) H) as (vs & F & M). rewrite <- M.
  eapply chain_value; [exact F | exact A].
Qed.

Lemma c96_symbolic_refuted__p :
  forall (N C : Type) (print_float : N -> string) (print_cond : C -> string) (cases : list (N * C)) (c : C) (rest : list (branch N * C)),
    print_piecewise print_float print_cond (map (fun nc => (Number (fst nc), snd nc)) cases ++ (Symbolic, c) :: rest) = Err TypeError.
Proof.
  intros N C pf pc cases c rest. unfold print_piecewise.
  pose proof (@pieces_symbolic N C pf pc cases c rest 0) as P. unfold numbers in P. rewrite P. reflexivity.
Qed.
