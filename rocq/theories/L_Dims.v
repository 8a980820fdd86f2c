(** Lemmas for C17: reading of dims and latex subscripts. *)
From Verif Require Import Py PyStr M_Primitives.
Local Open Scope string_scope.

Lemma all_space_no_comma a : all_space a -> contains_char "," a = false.
Proof.
  induction a as [|x a IH]; intros H; auto. apply all_space_tail in H as (Hx & Ha).
  cbn [contains_char]. rewrite IH by auto. rewrite orb_false_r.
  destruct (Ascii.eqb_spec x ","); auto. subst. discriminate.
Qed.

Lemma join_cons2 sep a b l : join sep (a :: b :: l) = a ++ sep ++ join sep (b :: l).
Proof. reflexivity. Qed.

Lemma split_join l :
  l <> [] -> (forall s, In s l -> contains_char "," s = false) -> split_on "," (join "," l) = l.
Proof.
  induction l as [|a l IH]; intros Hne H; [congruence|]. destruct l as [|b l].
  - simpl. apply split_on_lit. apply H; simpl; auto.
  - rewrite join_cons2. change ("," ++ join "," (b :: l)) with (String "," (join "," (b :: l))).
    rewrite split_on_app by (apply H; simpl; auto). f_equal. apply IH; [discriminate|].
    intros; apply H; simpl in *; tauto.
Qed.

(** C17: any spacing around the commas. *)
Lemma c17_dims_string__p :
  forall (dims padded : list string),
  dims <> [] ->
  Forall2 (fun d p => exists a b, all_space a /\ all_space b /\ p = a ++ d ++ b) dims padded ->
  (forall d, In d dims -> contains_char "," d = false /\ stripped d) ->
  initialize_index (DStr (join "," padded)) = Ok dims.
Proof.
  intros dims padded Hne HF Hd. simpl. f_equal. rewrite split_join.
  - clear Hne. induction HF as [|d p dims padded (a & b & Ha & Hb & ->) HF IH]; auto. simpl.
    rewrite strip_pad by (auto; apply Hd; simpl; auto). rewrite IH; auto. intros; apply Hd; simpl; auto.
  - destruct HF; [congruence|discriminate].
  - clear Hne. induction HF as [|d p dims padded (a & b & Ha & Hb & ->) HF IH]; simpl; [tauto|].
    intros s [<-|Hs]; [|apply IH; auto; intros; apply Hd; simpl; auto].
    rewrite !contains_char_app, (all_space_no_comma Ha), (all_space_no_comma Hb).
    destruct (Hd d) as (-> & _); simpl; auto.
Qed.

Lemma c17_other_forms__p :
  forall (dims : list string),
  initialize_index DNone = Ok [] /\
  initialize_index (DSeq (map Some dims)) = Ok dims /\
  initialize_index DOther = Err ValueError /\
  (forall l, In None l -> initialize_index (DSeq l) = Err ValueError).
Proof.
  intros dims. split; auto. split; [|split; auto].
  - simpl. induction dims; simpl; auto. now rewrite IHdims.
  - intros l. simpl. induction l as [|[s|] l IH]; simpl; intros H; try tauto.
    + destruct H as [H|H]; [discriminate|]. now rewrite (IH H).
Qed.

(** The empty list of dims is not readable as a string: "" is one dim with an
    empty name. *)
Lemma c17_empty_string_refuted__p :
  initialize_index (DStr (join "," [])) = Ok [""].
Proof. reflexivity. Qed.

(** Latex subscripts *)
Definition latex_token (dv : dict label) (d : string) : string :=
  match dget d dv with None => d | Some v => d ++ "=\text{" ++ str_label v ++ "}" end.

Lemma split_join2 l :
  l <> [] -> (forall s, In s l -> contains_char "," s = false /\ stripped s) ->
  map strip (split_on "," (join ", " l)) = l.
Proof.
  intros Hne H.
  assert (G : forall pre, all_space pre -> map strip (split_on "," (pre ++ join ", " l)) = l).
  { induction l as [|a l IH]; intros pre Hp; [congruence|]. destruct (H a (or_introl eq_refl)) as (Ha & Hs). destruct l as [|b l].
    - simpl join. rewrite split_on_lit.
      + simpl. f_equal. rewrite <- (sapp_nil_r a) at 1. apply strip_pad; auto. reflexivity.
      + now rewrite contains_char_app, (all_space_no_comma Hp).
    - rewrite join_cons2. rewrite <- sapp_assoc.
      change (", " ++ join ", " (b :: l)) with (String "," (" " ++ join ", " (b :: l))).
      rewrite split_on_app by (now rewrite contains_char_app, (all_space_no_comma Hp)).
      cbn [map]. f_equal.
      + rewrite <- (sapp_nil_r a) at 1. apply strip_pad; auto. reflexivity.
      + apply IH; [discriminate| |reflexivity]. intros; apply H; simpl in *; tauto. }
  exact (G "" eq_refl).
Qed.

Lemma stripped_head x s : stripped (String x s) -> is_space x = false.
Proof.
  intros H. apply stripped_lstrip in H. simpl in H. destruct (is_space x) eqn:E; auto.
  exfalso. apply (f_equal slen) in H. assert (B := lstrip_len s). simpl in H. lia.
Qed.

Lemma rstrip_brace s : rstrip (s ++ "}") = s ++ "}".
Proof.
  induction s as [|x s IH]; auto. simpl. rewrite IH. destruct (s ++ "}") eqn:E; auto.
  apply sapp_eq_nil in E as (_ & E). discriminate.
Qed.

Lemma stripped_token dv d :
  d <> "" -> contains_char "," d = false -> stripped d ->
  (forall l, dget d dv = Some l -> contains_char "," (str_label l) = false) ->
  contains_char "," (latex_token dv d) = false /\ stripped (latex_token dv d).
Proof.
  intros Hne Hc Hs Hl. unfold latex_token. destruct (dget d dv) as [l|]; [|auto]. split.
  - rewrite !contains_char_app, Hc, (Hl l eq_refl). reflexivity.
  - destruct d as [|x d]; [congruence|]. apply stripped_head in Hs.
    unfold stripped, strip. simpl. rewrite Hs.
    match goal with |- rstrip (String x (d ++ ?r)) = _ =>
      change (String x (d ++ r)) with (String x d ++ "=\text{" ++ str_label l ++ "}") end.
    rewrite <- !sapp_assoc. apply rstrip_brace.
Qed.

Lemma c17_latex_tokens__p :
  forall (dims : list string) (dv : dict label),
  (forall d, In d dims -> d <> "" /\ contains_char "," d = false /\ stripped d) ->
  (forall d l, dget d dv = Some l -> contains_char "," (str_label l) = false) ->
  tokenize_latex_subscript (make_latex_subscript dims dv) =
  map (fun d => match dget d dv with None => d | Some v => d ++ "=\text{" ++ str_label v ++ "}" end) dims.
Proof.
  intros dims dv Hd Hl. unfold make_latex_subscript. fold (latex_token dv).
  change (map _ dims) with (map (latex_token dv) dims).
  destruct dims as [|d dims]; [reflexivity|].
  set (ts := map (latex_token dv) (d :: dims)).
  assert (Hts : forall s, In s ts -> contains_char "," s = false /\ stripped s).
  { intros s Hs. apply in_map_iff in Hs as (x & <- & Hx). destruct (Hd x Hx) as (A & B & C).
    apply stripped_token; auto. intros l. apply Hl. }
  assert (Hne : ts <> []) by discriminate.
  replace (match ts with [] => "" | _ :: _ => "_{" ++ join ", " ts ++ "}" end) with ("_{" ++ join ", " ts ++ "}") by reflexivity.
  unfold tokenize_latex_subscript.
  assert (S : starts_with "_{" ("_{" ++ join ", " ts ++ "}") = true) by apply prefix_app.
  rewrite S. replace (drop 2 ("_{" ++ join ", " ts ++ "}")) with (join ", " ts ++ "}") by reflexivity.
  rewrite ends_with_app. rewrite slen_app. replace (slen (join ", " ts) + slen "}" - 1) with (slen (join ", " ts)) by (simpl; lia).
  rewrite take_app. rewrite split_join2 by auto.
  unfold ts. simpl. destruct (latex_token dv d) eqn:E; [|reflexivity].
  exfalso. destruct (Hd d (or_introl eq_refl)) as (A & _). unfold latex_token in E.
  destruct (dget d dv); [|contradiction]. apply sapp_eq_nil in E as (E & _). contradiction.
Qed.

(** A comma inside a label splits it. *)
Lemma c17_comma_label_refuted__p :
  exists (dims : list string) (dv : dict label),
    dims = ["i"] /\ length (tokenize_latex_subscript (make_latex_subscript dims dv)) = 2.
Proof. exists ["i"], [("i", LStr "food, drink")]. split; reflexivity. Qed.
