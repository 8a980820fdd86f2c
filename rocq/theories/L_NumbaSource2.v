(** C71: the whole post-processing. *)
From Coq Require Import QArith Reals.
From Verif Require Import Py PyStr M_NumbaSource S_NumbaSource L_NumbaSource.
Local Open Scope nat_scope.
Local Open Scope list_scope.
Local Open Scope char_scope.

(** * Literals *)
Lemma split_dot_digits d : Forall (fun c => is_digit c = true) d -> split_dot d = (d, None).
Proof. induction 1 as [|c d E F IH]; auto. cbn. destruct (Ascii.eqb_spec c "."); [subst; discriminate|]. now rewrite IH. Qed.
Lemma split_dot_float d b : Forall (fun c => is_digit c = true) d -> split_dot (d ++ "." :: b) = (d, Some b).
Proof. induction 1 as [|c d E F IH]; auto. cbn. destruct (Ascii.eqb_spec c "."); [subst; discriminate|]. now rewrite IH. Qed.
Lemma digits_value_some d : Forall (fun c => is_digit c = true) d -> forall acc, exists z, digits_value acc d = Some z.
Proof. induction 1 as [|c d E F IH]; intros acc; cbn; eauto. rewrite E. apply IH. Qed.
Lemma literal_float d : d <> [] -> Forall (fun c => is_digit c = true) d ->
  exists p q, literal (d ++ ["."; "0"]) = Some p /\ literal d = Some q /\ (p == q)%Q.
Proof.
  intros N F. destruct (digits_value_some F 0%Z) as (z & V). exists (inject_Z z + inject_Z 0 / inject_Z (10 ^ 1))%Q, (inject_Z z).
  unfold literal. rewrite split_dot_float, split_dot_digits by auto. rewrite V. destruct d as [|c d]; [tauto|]. cbn [app]. split; [reflexivity|]. split; [reflexivity|].
  unfold Qeq. cbn. lia.
Qed.

Definition chain (a d : item) : Prop := exists b c, ren_item a b /\ zero_item b c /\ index_item c d.
Lemma no_n d : Forall (fun c => is_digit c = true) d -> ~ In "n" (d ++ ["."; "0"]).
Proof. intros F I. apply in_app_iff in I as [I|[I|[I|[]]]]; try discriminate. rewrite Forall_forall in F. now apply F in I. Qed.
Lemma chain_same a d : chain a d -> same_item a d.
Proof.
  intros (b & c & R & Z & I). inversion R as [x|x y RN NN]; subst.
  - inversion Z; subst. inversion I; subst. constructor.
  - inversion Z as [i|]; subst.
    + inversion I as [i|d0 N F]; subst; [now constructor|].
      destruct NN as [E|NN]; [|exfalso; eapply no_n; eauto]. subst.
      destruct (literal_float N F) as (p & q & P & Q & E). eapply same_literal; eauto.
    + destruct NN as [E|[NN|[]]]; [|discriminate]. subst x. inversion I as [i|d0 N F E]; subst.
      * eapply same_literal; [reflexivity|reflexivity|reflexivity].
      * assert (Q : d0 = ["0"]). { destruct d0 as [|a0 [|b0 [|c0 d0]]]; cbn in E; try discriminate. - injection E as ->. reflexivity. - destruct d0; discriminate. }
        subst. eapply same_literal; [reflexivity|reflexivity|reflexivity].
Qed.
Lemma Forall2_chain {A} (R1 R2 R3 : A -> A -> Prop) : forall l1 l2 l3 l4, Forall2 R1 l1 l2 -> Forall2 R2 l2 l3 -> Forall2 R3 l3 l4 ->
  Forall2 (fun a d => exists b c, R1 a b /\ R2 b c /\ R3 c d) l1 l4.
Proof.
  intros l1 l2 l3 l4 H. revert l3 l4. induction H as [|a b l1 l2 H F IH]; intros l3 l4 H2 H3; inversion H2; subst; inversion H3; subst; constructor; eauto 6.
Qed.
Lemma c71_items__p :
  forall code, Forall2 same_item (items code) (items (post_process code)).
Proof.
  intros code. rewrite <- (items_layout code). assert (H1 := items_replace (layout code)). assert (H2 := @items_zero (replace_np (layout code)) [] None (fun _ => eq_refl)).
  assert (H3 := items_index (zero_sub None (replace_np (layout code))) []). assert (H := Forall2_chain H1 H2 H3).
  unfold post_process, items, float_index_sub. cbn [rev app] in H. clear - H. revert H. unfold items.
  match goal with |- Forall2 _ ?a ?b -> Forall2 _ ?c ?d => change c with a; change d with b; generalize a, b end.
  intros l1 l2 H. induction H as [|a d l l' H F IH]; constructor; auto. now apply chain_same.
Qed.

(** * Subscripts *)
Definition opens (s : text) : Prop := exists d rest, d <> [] /\ Forall (fun x => is_digit x = true) d /\ s = d ++ "]" :: rest.
Definition opens_float (s : text) : Prop := opens s \/ exists d rest, d <> [] /\ Forall (fun x => is_digit x = true) d /\ s = d ++ "." :: "0" :: "]" :: rest.
Fixpoint subs_ok (Q : text -> Prop) (pw : bool) (s : text) : Prop :=
  match s with
  | [] => True
  | c :: s' => (pw = true -> c = "[" -> Q s') /\ subs_ok Q (is_word c) s'
  end.
Lemma subs_iff s : integer_subscripts s <-> subs_ok opens false s.
Proof.
  unfold integer_subscripts. split.
  - intros H. assert (G : forall pre p, s = pre ++ p -> subs_ok opens (match rev pre with c :: _ => is_word c | [] => false end) p).
    { intros pre p. revert pre. induction p as [|c p IH]; intros pre E; cbn; auto. split.
      - intros W ->. destruct (rev pre) as [|x l] eqn:R; [discriminate|]. assert (pre = rev l ++ [x]) by (rewrite <- (rev_involutive pre), R; reflexivity). subst pre.
        rewrite <- app_assoc in E. cbn in E. apply (H _ _ _ E W).
      - specialize (IH (pre ++ [c])). rewrite rev_app_distr in IH. cbn in IH. apply IH. now rewrite <- app_assoc. }
    apply (G [] s eq_refl).
  - intros H before c after E W. subst s. assert (G : forall pw, subs_ok opens pw (before ++ c :: "[" :: after) -> opens after).
    { clear H. induction before as [|x before IH]; intros pw; cbn.
      - intros (_ & H & _). auto.
      - intros (_ & H). now apply IH in H. }
    apply (G _ H).
Qed.
(** a character that is neither a digit nor a closing bracket ends the search *)
Definition stops (c : ascii) : Prop := is_digit c = false /\ c <> "]".
Lemma opens_app x y : opens x -> opens (x ++ y).
Proof. intros (d & r & N & F & ->). exists d, (r ++ y). split; auto. split; auto. now rewrite <- app_assoc. Qed.
Lemma opens_cut x c y : stops c -> opens (x ++ c :: y) -> opens x.
Proof.
  intros (S1 & S2) (d & r & N & F & E). revert x E. assert (G : forall d x, Forall (fun x => is_digit x = true) d -> x ++ c :: y = d ++ "]" :: r -> exists r', x = d ++ "]" :: r').
  { clear d N F. induction d as [|a d IH]; intros x F E.
    - destruct x as [|b x]; cbn in E; injection E as E1 E2; [congruence|]. subst. exists x. reflexivity.
    - inversion F; subst. destruct x as [|b x]; cbn in E; injection E as E1 E2; [congruence|]. destruct (IH x H2 E2) as (r' & ->). subst. exists r'. reflexivity. }
  intros x E. destruct (G d x F E) as (r' & ->). exists d, r'. auto.
Qed.
Lemma subs_app a : forall pw c b, c <> "[" -> subs_ok opens pw a -> subs_ok opens (is_word c) b -> subs_ok opens pw (a ++ c :: b).
Proof.
  induction a as [|x a IH]; intros pw c b N A B; cbn [app subs_ok] in *; [split; auto; congruence|].
  destruct A as (A1 & A2). split; [intros; apply opens_app; auto|]. apply IH; auto.
Qed.
Lemma subs_cut a : forall pw c b, stops c -> subs_ok opens pw (a ++ c :: b) -> subs_ok opens pw a /\ subs_ok opens (is_word c) b.
Proof.
  induction a as [|x a IH]; intros pw c b St; cbn [app subs_ok]; [tauto|]. intros (A1 & A2). destruct (IH _ _ _ St A2). split; auto. split; auto.
  intros; eapply opens_cut; eauto.
Qed.
Lemma space_stops c : is_space c = true -> stops c. Proof. split; [|intros ->; discriminate]. revert H. all_chars c. Qed.
Lemma subs_spaces sp x : Forall (fun c => is_space c = true) sp -> subs_ok opens false (sp ++ x) <-> subs_ok opens false x.
Proof.
  induction 1 as [|c sp E F IH]; [tauto|]. cbn [app subs_ok]. rewrite (space_word _ E), IH. split; [tauto|]. intros H; split; auto; discriminate.
Qed.
Lemma subs_trail pw sp x : Forall (fun c => is_space c = true) sp -> subs_ok opens pw (x ++ sp) -> subs_ok opens pw x.
Proof.
  intros F. destruct sp as [|c sp]; [now rewrite app_nil_r|]. inversion F; subst. intros H. apply subs_cut in H; [tauto|now apply space_stops].
Qed.
Lemma subs_strip x : subs_ok opens false x -> subs_ok opens false (strip x).
Proof.
  destruct (strip_split x) as (a & b & E & Fa & Fb). rewrite E at 1. rewrite subs_spaces by auto. now apply subs_trail.
Qed.
Lemma comma_stops : stops ",". Proof. split; [reflexivity|discriminate]. Qed.
Lemma subs_layout s : subs_ok opens false s -> subs_ok opens false (layout s).
Proof.
  unfold layout. rewrite <- (split_commas s) at 1. generalize (split_comma s) as l. induction l as [|p [|q l] IH]; intros H; auto.
  - cbn [map join_lines commas] in *. apply subs_spaces; [apply indent_spaces|]. now apply subs_strip.
  - change (commas (p :: q :: l)) with (p ++ "," :: commas (q :: l)) in H. apply subs_cut in H as (H1 & H2); [|apply comma_stops].
    change (join_lines (map (fun eq => indent ++ strip eq) (p :: q :: l))) with ((indent ++ strip p) ++ "," :: newline :: join_lines (map (fun eq => indent ++ strip eq) (q :: l))).
    apply subs_app; [discriminate| |].
    + apply subs_spaces; [apply indent_spaces|]. now apply subs_strip.
    + cbn [subs_ok]. split; [discriminate|]. apply IH. exact H2.
Qed.

Lemma replace_skip d r : Forall (fun x => is_digit x = true) d -> replace_np (d ++ "]" :: r) = d ++ "]" :: replace_np r.
Proof.
  induction 1 as [|c d E F IH]; cbn [app]; (rewrite replace_miss; [|intros r' Q; change (numpy_dot ++ r') with ("n" :: (["u"; "m"; "p"; "y"; "."] ++ r')) in Q]); [reflexivity|discriminate| |].
  - now rewrite IH.
  - assert (c = "n") by congruence. subst. discriminate.
Qed.
Lemma subs_replace s : forall pw, subs_ok opens pw s -> subs_ok opens pw (replace_np s).
Proof.
  induction s as [s IH] using text_ind. intros pw H. destruct (replace_cases s) as [->|[(r & -> & ->)|(c & s' & -> & _ & ->)]]; auto.
  - cbn in H. cbn. repeat split; auto; try discriminate. apply IH; [cbn; lia|]. tauto.
  - cbn [subs_ok] in *. destruct H as (H1 & H2). split; [|apply IH; auto]. intros P Q. destruct (H1 P Q) as (d & r & N & F & ->). exists d, (replace_np r). split; auto. split; auto. now apply replace_skip.
Qed.

Lemma zero_digits d : forall prev r, Forall (fun x => is_digit x = true) d -> (match prev with Some c => is_digit c = true | None => False end) -> zero_sub prev (d ++ "]" :: r) = d ++ zero_sub (match rev d with c :: _ => Some c | [] => prev end) ("]" :: r).
Proof.
  induction d as [|c d IH]; intros prev r F P; [reflexivity|]. inversion F; subst. cbn [app].
  assert (B : blocks prev = true) by (rewrite blocks_run; destruct prev; [now apply word_run, digit_word|tauto]).
  assert (E : zero_sub prev (c :: d ++ "]" :: r) = c :: zero_sub (Some c) (d ++ "]" :: r)).
  { destruct (d ++ "]" :: r) as [|x y] eqn:Q; [destruct d; discriminate|]. rewrite zero_step. rewrite B. cbn [negb]. rewrite andb_false_r. reflexivity. }
  rewrite E, IH by auto. cbn [rev]. destruct (rev d) as [|x l] eqn:Q; reflexivity.
Qed.
Lemma zero_bracket prev r : exists t, zero_sub prev ("]" :: r) = "]" :: t.
Proof. destruct r as [|d r]; cbn; eauto. Qed.
Lemma opens_zero s : opens s -> opens_float (zero_sub (Some "[") s).
Proof.
  intros (d & r & N & F & ->). destruct d as [|c d]; [tauto|]. inversion F; subst. destruct d as [|c2 d].
  - cbn [app]. rewrite zero_step. destruct (Ascii.eqb_spec c "0"); cbn [andb negb blocks follows].
    + right. subst. exists ["0"], (zero_sub (Some "]") r). split; [discriminate|]. split; auto.
    + left. destruct (zero_bracket (Some c) r) as (t & ->). exists [c], t. split; [discriminate|]. split; auto.
  - left. cbn [app]. rewrite zero_step. assert (Q : follows c2 = false) by (inversion H2; subst; revert H3; all_chars c2). rewrite Q, andb_false_r.
    change (c2 :: d ++ "]" :: r) with ((c2 :: d) ++ "]" :: r). rewrite zero_digits by auto. destruct (zero_bracket (match rev (c2 :: d) with x :: _ => Some x | [] => Some c end) r) as (t & ->).
    exists (c :: c2 :: d), t. split; [discriminate|]. split; auto.
Qed.
Lemma subs_zero s : forall prev, subs_ok opens (match prev with Some c => is_word c | None => false end) s ->
  subs_ok opens_float (match prev with Some c => is_word c | None => false end) (zero_sub prev s).
Proof.
  induction s as [s IH] using text_ind. intros prev H. destruct s as [|c [|d s]]; auto.
  - cbn in *. split; [|tauto]. intros P Q. destruct H as (H & _). specialize (H P Q). left. exact H.
  - rewrite zero_step. cbn [subs_ok] in H. destruct H as (H1 & H2 & H3). destruct (Ascii.eqb c "0" && negb (blocks prev) && follows d)%bool eqn:T.
    + apply andb_prop in T as (T & Fd). cbn [subs_ok]. repeat split; try discriminate; try congruence.
      * intros _ ->. discriminate.
      * apply (IH s) with (prev := Some d); [cbn; lia|exact H3].
    + cbn [subs_ok]. split.
      * intros P ->. apply opens_zero. now apply H1.
      * apply (IH (d :: s)) with (prev := Some c); [cbn; lia|]. cbn [subs_ok]. auto.
Qed.

Lemma word_not_bracket c : is_word c = true -> c <> "[". Proof. intros W ->. discriminate. Qed.
Lemma subs_word_app Q w : forall pw s, Forall (fun c => is_word c = true) w -> w <> [] -> subs_ok Q pw (w ++ s) <-> subs_ok Q true s.
Proof.
  induction w as [|c w IH]; intros pw s F N; [tauto|]. inversion F; subst. cbn [app subs_ok]. rewrite H1. destruct w as [|c2 w].
  - cbn [app]. split; [tauto|]. intros H. split; auto. intros _ E. now apply word_not_bracket in H1.
  - rewrite IH by (auto; discriminate). split; [tauto|]. intros H. split; auto. intros _ E. now apply word_not_bracket in H1.
Qed.
Lemma match_hit w d r : w <> [] -> d <> [] -> Forall (fun c => is_word c = true) w -> Forall (fun c => is_digit c = true) d ->
  match_float_index (w ++ "[" :: d ++ "." :: "0" :: "]" :: r) <> None.
Proof.
  intros W D Fw Fd. unfold match_float_index. rewrite span_app by (auto; reflexivity). rewrite span_app by (auto; reflexivity). destruct w; [tauto|]. destruct d; [tauto|]. discriminate.
Qed.
Lemma index_skip d r : Forall (fun x => is_digit x = true) d -> float_index_sub (d ++ "]" :: r) = d ++ "]" :: float_index_sub r.
Proof.
  assert (M : forall d, Forall (fun x => is_digit x = true) d -> match_float_index (d ++ "]" :: r) = None).
  { intros e F. unfold match_float_index. rewrite span_app; [|eapply Forall_impl; [|exact F]; intros; now apply digit_word|reflexivity]. destruct e; reflexivity. }
  induction 1 as [|c d E F IH]; cbn [app].
  - destruct (index_cases ("]" :: r)) as [Q|[(w & d & r' & W & _ & Fw & _ & Q & _)|(c & s' & Q & _ & ->)]]; [discriminate| |congruence].
    destruct w as [|w0 w]; [tauto|]. cbn in Q. inversion Fw; subst. injection Q as <- _. discriminate.
  - destruct (index_cases (c :: d ++ "]" :: r)) as [Q|[(w & d' & r' & W & D' & Fw & Fd' & Q & _)|(c' & s' & Q & _ & ->)]]; [discriminate| |].
    + exfalso. apply (@match_hit w d' r' W D' Fw Fd'). rewrite <- Q. apply (M (c :: d)). now constructor.
    + injection Q as -> <-. now rewrite IH.
Qed.
Lemma subs_index (s : text) : forall (prev : option ascii), (match prev with Some l => is_word l = true -> match_float_index (l :: s) = None | None => True end) ->
  subs_ok opens_float (match prev with Some c => is_word c | None => false end) s ->
  subs_ok opens (match prev with Some c => is_word c | None => false end) (float_index_sub s).
Proof.
  induction s as [s IH] using text_ind. intros prev P H.
  destruct (index_cases s) as [->|[(w & d & r & W & D & Fw & Fd & E & ->)|(c & s' & E & M & ->)]]; auto.
  - rewrite E in H. rewrite subs_word_app in H |- * by auto. cbn [subs_ok] in *. destruct H as (_ & H). split.
    + intros _ _. exists d, (float_index_sub r). auto.
    + change (is_word "[") with false in *.
      assert (Wd : Forall (fun c => is_word c = true) d) by (eapply Forall_impl; [|exact Fd]; intros; now apply digit_word).
      rewrite subs_word_app in H |- * by auto. cbn [subs_ok] in *. split; [discriminate|]. apply (IH r) with (prev := Some "]"); [rewrite E, app_length; cbn; rewrite app_length; cbn; lia|discriminate|]. tauto.
  - rewrite E in H. cbn [subs_ok] in *. destruct H as (H1 & H2). split.
    + intros Pw ->. destruct (H1 Pw eq_refl) as [(d & r & N & F & ->)|(d & r & N & F & ->)].
      * rewrite index_skip by auto. exists d, (float_index_sub r). auto.
      * exfalso. destruct prev as [l|]; [|discriminate]. rewrite E in P. apply (@match_hit [l] d r); auto; try discriminate.
    + apply (IH s') with (prev := Some c); [rewrite E; cbn; lia| |exact H2]. intros _. now rewrite <- E.
Qed.
Lemma c71_indices__p :
  forall code, integer_subscripts code -> integer_subscripts (post_process code).
Proof.
  intros code H. apply subs_iff in H. apply subs_iff. unfold post_process.
  apply (@subs_index (zero_sub None (replace_np (layout code))) None I). apply (@subs_zero (replace_np (layout code)) None). apply subs_replace. now apply subs_layout.
Qed.

(** Two integers in one subscript *)
Lemma c71_two_indices_refuted__p :
  exists code, (forall before c after, code = before ++ c :: "[" :: after -> is_word c = true ->
       exists i j rest, i <> [] /\ j <> [] /\ Forall (fun x => is_digit x = true) (i ++ j) /\ after = i ++ "," :: " " :: j ++ "]" :: rest) /\
    exists before after, post_process code = before ++ txt "X[0.0," ++ after.
Proof.
  exists (txt "X[0, 1]"). split.
  - intros before c after E W. cbn in E. destruct before as [|b0 [|b1 before]]; cbn in E.
    + injection E as E1 E2. subst. exists ["0"], ["1"], []. split; [discriminate|]. split; [discriminate|]. split; [repeat constructor|reflexivity].
    + injection E as _ E1 E2. subst. discriminate.
    + exfalso. injection E as _ _ E. assert (I : In "[" ["0"; ","; " "; "1"; "]"]). { rewrite E. apply in_app_iff. right. right. now left. }
      cbn in I. intuition discriminate.
  - exists indent. eexists. reflexivity.
Qed.

(** * Max *)
Lemma c71_max_partial__p :
  forall args, length args = 2 ->
    exists m, eval_call (print_max args) = Some m /\ greatest m args.
Proof.
  intros [|a [|b [|c l]]] H; try discriminate. exists (Rmax a b). split; [reflexivity|]. split.
  - unfold Rmax. destruct (Rle_dec a b); cbn; auto.
  - intros x [<-|[<-|[]]]; [apply Rmax_l|apply Rmax_r].
Qed.
Lemma c71_max_refuted__p :
  forall args, 3 <= length args -> eval_call (print_max args) = None /\ exists m, greatest m args.
Proof.
  intros [|a [|b [|c l]]] H; cbn in H; try lia. split; [reflexivity|]. generalize a, (b :: c :: l) as k. clear.
  intros a k. revert a. induction k as [|b k IH]; intros a.
  - exists a. split; cbn; auto. intros x [<-|[]]. apply Rle_refl.
  - destruct (IH b) as (m & I & G). exists (Rmax a m). split.
    + unfold Rmax. destruct (Rle_dec a m); [now right|now left].
    + intros x [<-|X]; [apply Rmax_l|]. eapply Rle_trans; [apply G, X|apply Rmax_r].
Qed.
