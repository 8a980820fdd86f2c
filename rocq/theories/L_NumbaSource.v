(** C71. *)
From Coq Require Import QArith.
From Verif Require Import Py PyStr M_NumbaSource S_NumbaSource.
Local Open Scope nat_scope.
Local Open Scope list_scope.
Local Open Scope char_scope.

Ltac all_chars c := destruct c as [[] [] [] [] [] [] [] []]; try reflexivity; try discriminate.
Lemma space_run c : is_space c = true -> is_run c = false. Proof. all_chars c. Qed.
Lemma space_word c : is_space c = true -> is_word c = false. Proof. all_chars c. Qed.
Lemma digit_word c : is_digit c = true -> is_word c = true. Proof. all_chars c. Qed.
Lemma word_run c : is_word c = true -> is_run c = true. Proof. unfold is_run. intros ->. reflexivity. Qed.
Lemma follows_run c : follows c = true -> is_run c = false. Proof. all_chars c. Qed.

(** * Items *)
Lemma items_run x : forall cur s, Forall (fun c => is_run c = true) x -> items_from cur (x ++ s) = items_from (cur ++ x) s.
Proof.
  induction x as [|c x IH]; intros cur s F; cbn [app]; [now rewrite app_nil_r|]. inversion F; subst. cbn [items_from]. rewrite H1. rewrite IH by auto.
  now rewrite <- app_assoc.
Qed.
Definition other (c : ascii) : list item := if is_space c then [] else [Other c].
Lemma items_stop cur c s : is_run c = false -> items_from cur (c :: s) = flush cur ++ other c ++ items_from [] s.
Proof. intros E. cbn. now rewrite E. Qed.
Lemma items_app a : forall cur c b, is_run c = false -> items_from cur (a ++ c :: b) = items_from cur a ++ other c ++ items_from [] b.
Proof.
  induction a as [|x a IH]; intros cur c b E; cbn [app].
  - now rewrite items_stop.
  - cbn [items_from]. destruct (is_run x); [now apply IH|]. rewrite IH by auto. now rewrite !app_assoc.
Qed.

(** * Layout *)
Fixpoint commas (l : list text) : text := match l with [] => [] | [p] => p | p :: l' => p ++ "," :: commas l' end.
Lemma split_nonempty s : split_comma s <> [].
Proof. induction s as [|c s IH]; cbn; [discriminate|]. destruct (Ascii.eqb c ","); [discriminate|]. destruct (split_comma s); discriminate. Qed.
Lemma split_commas s : commas (split_comma s) = s.
Proof.
  induction s as [|c s IH]; auto. cbn. assert (N := split_nonempty s). destruct (Ascii.eqb_spec c ",").
  - subst. cbn [commas]. destruct (split_comma s); [tauto|]. cbn [app]. now rewrite IH.
  - destruct (split_comma s) as [|p ps]; [tauto|]. rewrite <- IH. destruct ps; reflexivity.
Qed.
Lemma items_spaces sp : forall s, Forall (fun c => is_space c = true) sp -> items_from [] (sp ++ s) = items_from [] s.
Proof. induction sp as [|c sp IH]; intros s F; auto. inversion F; subst. cbn [app]. rewrite items_stop by now apply space_run. unfold other. rewrite H1. cbn. auto. Qed.
Lemma items_trail sp : forall x cur, Forall (fun c => is_space c = true) sp -> items_from cur (x ++ sp) = items_from cur x.
Proof.
  destruct sp as [|c sp]; intros x cur F; [now rewrite app_nil_r|]. inversion F; subst. rewrite items_app by now apply space_run. unfold other. rewrite H1. cbn [app].
  rewrite <- (app_nil_r sp), items_spaces by auto. cbn. now rewrite app_nil_r.
Qed.
Lemma lstrip_split s : exists sp, s = sp ++ lstrip s /\ Forall (fun c => is_space c = true) sp.
Proof.
  induction s as [|c s (sp & E & F)]; [exists []; auto|]. cbn. destruct (is_space c) eqn:S; [|exists []; auto].
  exists (c :: sp). cbn. split; [congruence|auto].
Qed.
Lemma rstrip_split s : exists sp, s = rev (lstrip (rev s)) ++ sp /\ Forall (fun c => is_space c = true) sp.
Proof.
  destruct (lstrip_split (rev s)) as (sp & E & F). exists (rev sp). split; [|now apply Forall_rev].
  rewrite <- rev_app_distr, <- E. now rewrite rev_involutive.
Qed.
Lemma strip_split s : exists a b, s = a ++ strip s ++ b /\ Forall (fun c => is_space c = true) a /\ Forall (fun c => is_space c = true) b.
Proof.
  destruct (lstrip_split s) as (a & E & Fa). destruct (rstrip_split (lstrip s)) as (b & E' & Fb). exists a, b. unfold strip. rewrite <- E'. auto.
Qed.
Lemma items_strip s : items_from [] (strip s) = items_from [] s.
Proof.
  destruct (strip_split s) as (a & b & E & Fa & Fb). rewrite E at 2. rewrite items_spaces by auto. now rewrite items_trail.
Qed.
Lemma indent_spaces : Forall (fun c => is_space c = true) indent. Proof. repeat constructor. Qed.
Lemma items_layout s : items (layout s) = items s.
Proof.
  unfold items, layout. rewrite <- (split_commas s) at 2. generalize (split_comma s) as l.
  assert (P : forall p, items_from [] (indent ++ strip p) = items_from [] p) by (intros p; rewrite items_spaces by apply indent_spaces; apply items_strip).
  assert (NL : forall s, items_from [] (newline :: s) = items_from [] s) by reflexivity.
  induction l as [|p [|q l] IH]; auto.
  - cbn [map join_lines commas]. apply P.
  - change (join_lines (map (fun eq => indent ++ strip eq) (p :: q :: l))) with ((indent ++ strip p) ++ "," :: newline :: join_lines (map (fun eq => indent ++ strip eq) (q :: l))).
    change (commas (p :: q :: l)) with (p ++ "," :: commas (q :: l)). rewrite !items_app by reflexivity. rewrite NL, IH, P. reflexivity.
Qed.

(** * numpy and np *)
Lemma drop_prefix_app p s r : drop_prefix p s = Some r <-> s = p ++ r.
Proof.
  revert s. induction p as [|a p IH]; intros s; cbn; [split; congruence|]. destruct s as [|b s]; [split; discriminate|].
  destruct (Ascii.eqb_spec a b).
  - subst. rewrite IH. split; congruence.
  - split; [discriminate|]. congruence.
Qed.
Lemma replace_step n c s : replace_np_ (S n) (c :: s) = match drop_prefix numpy_dot (c :: s) with Some r => np_dot ++ replace_np_ n r | None => c :: replace_np_ n s end.
Proof. reflexivity. Qed.
Lemma replace_fuel n : forall s, length s <= n -> replace_np_ n s = replace_np s.
Proof.
  unfold replace_np. assert (G : forall n m s, length s <= n -> length s <= m -> replace_np_ n s = replace_np_ m s).
  { clear. induction n as [|n IH]; intros m s L1 L2.
    - destruct s; [|cbn in L1; lia]. destruct m; reflexivity.
    - destruct s as [|c s]; [destruct m; reflexivity|]. cbn in L1, L2. destruct m as [|m]; [lia|]. cbn [replace_np_].
      destruct (drop_prefix numpy_dot (c :: s)) as [r|] eqn:D.
      + apply drop_prefix_app in D. assert (length (c :: s) = length (numpy_dot ++ r)) by now rewrite D. cbn in H. f_equal. apply IH; lia.
      + f_equal. apply IH; lia. }
  intros s L. apply G; auto.
Qed.
Lemma replace_nil : replace_np [] = []. Proof. reflexivity. Qed.
Lemma replace_hit r : replace_np (numpy_dot ++ r) = np_dot ++ replace_np r.
Proof.
  unfold replace_np at 1. change (length (numpy_dot ++ r)) with (S (5 + length r)). change (numpy_dot ++ r) with ("n" :: (["u"; "m"; "p"; "y"; "."] ++ r)) at 1.
  rewrite replace_step. change ("n" :: ["u"; "m"; "p"; "y"; "."] ++ r) with (numpy_dot ++ r). rewrite (proj2 (drop_prefix_app _ _ _) eq_refl).
  f_equal. apply replace_fuel. lia.
Qed.
Lemma replace_miss c s : (forall r, c :: s <> numpy_dot ++ r) -> replace_np (c :: s) = c :: replace_np s.
Proof.
  intros N. unfold replace_np at 1. cbn [length]. rewrite replace_step. destruct (drop_prefix numpy_dot (c :: s)) as [r|] eqn:D.
  - apply drop_prefix_app in D. now apply N in D.
  - reflexivity.
Qed.
Lemma replace_cases s : s = [] \/ (exists r, s = numpy_dot ++ r /\ replace_np s = np_dot ++ replace_np r) \/
  (exists c s', s = c :: s' /\ (forall r, c :: s' <> numpy_dot ++ r) /\ replace_np s = c :: replace_np s').
Proof.
  destruct s as [|c s]; auto. right. destruct (drop_prefix numpy_dot (c :: s)) as [r|] eqn:D.
  - apply drop_prefix_app in D. left. exists r. rewrite D, replace_hit. auto.
  - right. exists c, s. assert (N : forall r, c :: s <> numpy_dot ++ r) by (intros r E; apply drop_prefix_app in E; congruence). split; auto. split; auto. now apply replace_miss.
Qed.
Lemma text_ind (P : text -> Prop) : (forall s, (forall t, length t < length s -> P t) -> P s) -> forall s, P s.
Proof. intros H. assert (G : forall n s, length s < n -> P s) by (induction n; intros s L; [lia|]; apply H; intros t Lt; apply IHn; lia). intros s. apply (G (S (length s))). lia. Qed.
Lemma renamed_replace s : renamed s (replace_np s) /\ (replace_np s = s \/ In "n" (replace_np s)).
Proof.
  induction s as [s IH] using text_ind. destruct (replace_cases s) as [->|[(r & -> & ->)|(c & s' & -> & _ & ->)]].
  - split; [constructor|auto].
  - split; [|right; now left]. cbn. apply renamed_numpy. apply IH. cbn. lia.
  - destruct (IH s') as (A & B); [cbn; lia|]. split; [now constructor|]. destruct B as [->|B]; [auto|]. right. now right.
Qed.
Definition run_head (s : text) : bool := match s with [] => false | c :: _ => is_run c end.
Lemma replace_app (x s : text) : Forall (fun c => is_run c = true) x -> run_head s = false -> replace_np (x ++ s) = replace_np x ++ replace_np s.
Proof.
  induction x as [x IH] using text_ind. intros F H. destruct (replace_cases x) as [->|[(r & -> & ->)|(c & s' & -> & N & ->)]]; auto.
  - rewrite <- app_assoc, replace_hit, IH, <- app_assoc; auto; [cbn; lia|]. now apply Forall_app in F.
  - cbn [app]. inversion F; subst. rewrite replace_miss.
    + rewrite IH; auto.
    + intros r E. apply (N (firstn (length s' - 5) r)). clear - E H. unfold numpy_dot in *. cbn [app] in *.
      assert (run_head s = false -> forall k a b, Forall (fun c => is_run c = true) a -> k ++ b = s' ++ s -> k = a -> length a <= length s') as L.
      { clear. intros H k a b Fa E ->. revert s' E. induction a as [|y a IH]; intros s' E; cbn; [lia|]. inversion Fa; subst. destruct s' as [|z s'].
        - cbn in E. subst s. cbn in H. congruence.
        - cbn in E. injection E as -> E. cbn. apply le_n_S. now apply IH. }
      injection E as -> E. specialize (L H ["u"; "m"; "p"; "y"; "."] ["u"; "m"; "p"; "y"; "."] r). cbn [app] in L. rewrite <- E in L.
      assert (5 <= length s') by (apply L; auto; repeat constructor). clear L.
      do 5 (destruct s' as [|? s']; [cbn in H0; lia|]; cbn [app] in E; injection E as -> E). cbn. rewrite Nat.sub_0_r. f_equal. do 5 f_equal.
      rewrite <- E. rewrite firstn_app, Nat.sub_diag, firstn_all. cbn. now rewrite app_nil_r.
Qed.

Lemma replace_run (x : text) : Forall (fun c => is_run c = true) x -> Forall (fun c => is_run c = true) (replace_np x) /\ (replace_np x = [] -> x = []).
Proof.
  induction x as [x IH] using text_ind. intros F. destruct (replace_cases x) as [->|[(r & -> & ->)|(c & s' & -> & _ & ->)]].
  - split; auto.
  - apply Forall_app in F as (_ & F). destruct (IH r) as (A & _); [cbn; lia|auto|]. split; [repeat constructor; auto|discriminate].
  - inversion F; subst. destruct (IH s') as (A & _); [cbn; lia|auto|]. split; [now constructor|discriminate].
Qed.
Lemma span_ok f s : s = fst (span f s) ++ snd (span f s) /\ Forall (fun c => f c = true) (fst (span f s)) /\ match snd (span f s) with [] => True | c :: _ => f c = false end.
Proof.
  induction s as [|c s (A & B & C)]; cbn; auto. destruct (f c) eqn:E; [|cbn; auto]. destruct (span f s) as (a & b). cbn in *. split; [congruence|]. split; [now constructor|exact C].
Qed.
Lemma span_app f x s : Forall (fun c => f c = true) x -> match s with [] => True | c :: _ => f c = false end -> span f (x ++ s) = (x, s).
Proof.
  induction x as [|c x IH]; intros F H; cbn [app].
  - destruct s as [|c s]; auto. cbn. now rewrite H.
  - inversion F; subst. cbn. rewrite H2, IH by auto. reflexivity.
Qed.

(** Renaming, item by item *)
Inductive ren_item : item -> item -> Prop :=
| ren_other c : ren_item (Other c) (Other c)
| ren_run a b : renamed a b -> (b = a \/ In "n" b) -> ren_item (Run a) (Run b).
Lemma items_replace s : Forall2 ren_item (items s) (items (replace_np s)).
Proof.
  unfold items. induction s as [s IH] using text_ind. destruct (span_ok is_run s) as (E & F & H). destruct (span is_run s) as (x & r). cbn [fst snd] in *.
  assert (HR : run_head r = false) by (destruct r; auto). destruct (replace_run F) as (Fx & Nx).
  rewrite E, replace_app by auto. rewrite !items_run by auto. cbn [app].
  assert (FL : Forall2 ren_item (flush x) (flush (replace_np x))).
  { destruct x as [|c x]; [constructor|]. destruct (replace_np (c :: x)) eqn:Q; [now specialize (Nx eq_refl)|]. rewrite <- Q. assert (R := renamed_replace (c :: x)).
    unfold flush. destruct (replace_np (c :: x)); [discriminate|]. constructor; [|constructor]. constructor; tauto. }
  destruct r as [|c r]; [exact FL|]. rewrite replace_miss.
  2:{ intros r' Q. unfold numpy_dot in Q. cbn [app] in Q. injection Q as -> _. discriminate. }
  rewrite !items_stop by auto. apply Forall2_app; auto. apply Forall2_app.
  - unfold other. destruct (is_space c); constructor; constructor.
  - apply IH. rewrite E, app_length. cbn. lia.
Qed.

(** * Zeros *)
Inductive zero_item : item -> item -> Prop :=
| zero_same i : zero_item i i
| zero_zero : zero_item (Run ["0"]) (Run ["0"; "."; "0"]).
Lemma zero_refl l : Forall2 zero_item l l. Proof. induction l; constructor; auto. constructor. Qed.
Lemma blocks_run prev : blocks prev = match prev with Some c => is_run c | None => false end.
Proof. destruct prev as [c|]; auto. cbn. unfold is_run. apply orb_comm. Qed.
Lemma zero_step prev c d s : zero_sub prev (c :: d :: s) =
  if (Ascii.eqb c "0" && negb (blocks prev) && follows d)%bool then "0" :: "." :: "0" :: d :: zero_sub (Some d) s else c :: zero_sub (Some c) (d :: s).
Proof. reflexivity. Qed.
Lemma items_zero s : forall cur prev, (blocks prev = false -> cur = []) -> Forall2 zero_item (items_from cur s) (items_from cur (zero_sub prev s)).
Proof.
  induction s as [s IH] using text_ind. intros cur prev B. destruct s as [|c [|d s]]; [apply zero_refl|apply zero_refl|]. rewrite zero_step.
  destruct (Ascii.eqb c "0" && negb (blocks prev) && follows d)%bool eqn:T.
  - apply andb_prop in T as (T & Fd). apply andb_prop in T as (T & Bp). apply Ascii.eqb_eq in T. subst c. apply negb_true_iff in Bp. rewrite (B Bp). apply follows_run in Fd.
    change ("0" :: d :: s) with (["0"] ++ d :: s). change ("0" :: "." :: "0" :: d :: zero_sub (Some d) s) with (["0"; "."; "0"] ++ d :: zero_sub (Some d) s).
    rewrite !items_run by repeat constructor. rewrite !items_stop by auto. apply Forall2_app; [repeat constructor|]. apply Forall2_app; [apply zero_refl|].
    apply IH; [cbn; lia|]. intros _. reflexivity.
  - change (items_from cur (c :: d :: s)) with (if is_run c then items_from (cur ++ [c]) (d :: s) else flush cur ++ other c ++ items_from [] (d :: s)).
    change (items_from cur (c :: zero_sub (Some c) (d :: s))) with (if is_run c then items_from (cur ++ [c]) (zero_sub (Some c) (d :: s)) else flush cur ++ other c ++ items_from [] (zero_sub (Some c) (d :: s))).
    destruct (is_run c) eqn:R.
    + apply IH; [cbn; lia|]. rewrite blocks_run, R. discriminate.
    + apply Forall2_app; [apply zero_refl|]. apply Forall2_app; [apply zero_refl|]. apply IH; [cbn; lia|]. intros _. reflexivity.
Qed.

(** * Indices *)
Inductive index_item : item -> item -> Prop :=
| index_same i : index_item i i
| index_float d : d <> [] -> Forall (fun c => is_digit c = true) d -> index_item (Run (d ++ ["."; "0"])) (Run d).
Lemma index_refl l : Forall2 index_item l l. Proof. induction l; constructor; auto. constructor. Qed.
Lemma match_some s out r : match_float_index s = Some (out, r) ->
  exists w d, w <> [] /\ d <> [] /\ Forall (fun c => is_word c = true) w /\ Forall (fun c => is_digit c = true) d /\
    s = w ++ "[" :: d ++ "." :: "0" :: "]" :: r /\ out = w ++ "[" :: d ++ ["]"].
Proof.
  unfold match_float_index. destruct (span_ok is_word s) as (E & F & _). destruct (span is_word s) as (w & r0). cbn [fst snd] in *. destruct w as [|w0 w]; [discriminate|].
  destruct r0 as [|b r1]; [discriminate|]. destruct (Ascii.eqb_spec b "["); [subst b|now (destruct b as [[] [] [] [] [] [] [] []]; try discriminate; congruence)].
  destruct (span_ok is_digit r1) as (E1 & F1 & _). destruct (span is_digit r1) as (d & r2). cbn [fst snd] in *. destruct d as [|d0 d]; [discriminate|]. 
  intros H. assert (G : exists r3, r2 = "." :: "0" :: "]" :: r3 /\ Some ((w0 :: w) ++ "[" :: (d0 :: d) ++ ["]"], r3) = Some (out, r)).
  { destruct r2 as [|x r2]; [discriminate|]. destruct (Ascii.eqb_spec x "."); [subst x|now (destruct x as [[] [] [] [] [] [] [] []]; try discriminate; congruence)].
    destruct r2 as [|x r2]; [discriminate|]. destruct (Ascii.eqb_spec x "0"); [subst x|now (destruct x as [[] [] [] [] [] [] [] []]; try discriminate; congruence)].
    destruct r2 as [|x r2]; [discriminate|]. destruct (Ascii.eqb_spec x "]"); [subst x|now (destruct x as [[] [] [] [] [] [] [] []]; try discriminate; congruence)].
    exists r2. split; auto. }
  clear H. destruct G as (r3 & -> & G). exists (w0 :: w), (d0 :: d). assert (out = (w0 :: w) ++ "[" :: (d0 :: d) ++ ["]"]) by congruence. assert (r3 = r) by congruence. subst r3.
  split; [discriminate|]. split; [discriminate|]. split; [auto|]. split; [auto|]. split; [|auto]. rewrite E, E1. reflexivity.
Qed.
Lemma index_fuel n : forall s, length s <= n -> float_index_sub_ n s = float_index_sub s.
Proof.
  unfold float_index_sub. assert (G : forall n m s, length s <= n -> length s <= m -> float_index_sub_ n s = float_index_sub_ m s).
  { clear. induction n as [|n IH]; intros m s L1 L2.
    - destruct s; [|cbn in L1; lia]. destruct m; reflexivity.
    - destruct s as [|c s]; [destruct m; reflexivity|]. cbn in L1, L2. destruct m as [|m]; [lia|]. cbn [float_index_sub_].
      destruct (match_float_index (c :: s)) as [(o & r)|] eqn:D.
      + apply match_some in D as (w & d & _ & _ & _ & _ & D & _). assert (length (c :: s) = length (w ++ "[" :: d ++ "." :: "0" :: "]" :: r)) by now rewrite D.
        rewrite app_length in H. cbn in H. rewrite app_length in H. cbn in H. f_equal. apply IH; lia.
      + f_equal. apply IH; lia. }
  intros s L. apply G; auto.
Qed.
Lemma index_cases s : s = [] \/
  (exists w d r, w <> [] /\ d <> [] /\ Forall (fun c => is_word c = true) w /\ Forall (fun c => is_digit c = true) d /\
     s = w ++ "[" :: d ++ "." :: "0" :: "]" :: r /\ float_index_sub s = w ++ "[" :: d ++ "]" :: float_index_sub r) \/
  (exists c s', s = c :: s' /\ match_float_index s = None /\ float_index_sub s = c :: float_index_sub s').
Proof.
  destruct s as [|c s]; auto. right. destruct (match_float_index (c :: s)) as [(o & r)|] eqn:D.
  - left. assert (D' := D). apply match_some in D as (w & d & W & Dd & Fw & Fd & E & O). exists w, d, r. do 5 (split; [assumption|]).
    unfold float_index_sub at 1. cbn [length float_index_sub_]. rewrite D'. rewrite O, <- app_assoc. cbn [app]. rewrite <- app_assoc. cbn [app]. do 4 f_equal. apply index_fuel.
    assert (length (c :: s) = length (w ++ "[" :: d ++ "." :: "0" :: "]" :: r)) by now rewrite E.
    rewrite app_length in H. cbn in H. rewrite app_length in H. cbn in H. lia.
  - right. exists c, s. split; auto. split; auto. unfold float_index_sub at 1. cbn [length float_index_sub_]. now rewrite D.
Qed.
Lemma items_index s : forall cur, Forall2 index_item (items_from cur s) (items_from cur (float_index_sub s)).
Proof.
  induction s as [s IH] using text_ind. intros cur. destruct (index_cases s) as [->|[(w & d & r & W & D & Fw & Fd & E & ->)|(c & s' & E & _ & ->)]].
  - apply index_refl.
  - assert (Rw : Forall (fun c => is_run c = true) w) by (eapply Forall_impl; [|exact Fw]; intros; now apply word_run).
    assert (Rd : Forall (fun c => is_run c = true) d) by (eapply Forall_impl; [|exact Fd]; intros; now apply word_run, digit_word).
    rewrite E. rewrite !items_run by auto. rewrite !items_stop by reflexivity. apply Forall2_app; [apply index_refl|]. apply Forall2_app; [apply index_refl|].
    change (d ++ "." :: "0" :: "]" :: r) with (d ++ ["."; "0"] ++ "]" :: r). rewrite app_assoc. rewrite !items_run by (auto; apply Forall_app; split; auto; repeat constructor).
    cbn [app]. rewrite !items_stop by reflexivity. apply Forall2_app.
    + unfold flush. destruct d as [|d0 d]; [tauto|]. cbn [app]. constructor; [|constructor]. apply (@index_float (d0 :: d)); [discriminate|auto].
    + apply Forall2_app; [apply index_refl|]. apply IH. rewrite E, !app_length. cbn. rewrite app_length. cbn. lia.
  - rewrite E. cbn [items_from]. destruct (is_run c).
    + apply IH. rewrite E. cbn. lia.
    + apply Forall2_app; [apply index_refl|]. apply Forall2_app; [apply index_refl|]. apply IH. rewrite E. cbn. lia.
Qed.
