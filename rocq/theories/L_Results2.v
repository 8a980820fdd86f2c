(** Lemmas for C28, C30, C31: reading back. *)
From Verif Require Import Py PyStr M_Results S_Results L_Results.
Local Open Scope string_scope.
Local Arguments String.prefix _ _ : simpl never.

Lemma not_dots_all f : not_dots f -> all_dots f = false.
Proof.
  intros (a & b & c & -> & Hc). induction a as [|x a IH]; simpl.
  - destruct (Ascii.eqb_spec c "."); [congruence|reflexivity].
  - rewrite IH. apply andb_false_r.
Qed.

(** ** Suffixes *)
Lemma drop_len_app a b : drop (slen a) (a ++ b) = b.
Proof. apply drop_app. Qed.

Lemma suffix_of_numbered f k : suffix_of f (numbered f ".pkl" k) = Some k.
Proof.
  unfold suffix_of, numbered. rewrite prefix_app, drop_app. cbn [append]. 
  change (Ascii.eqb "(" "(") with true. cbn [andb].
  assert (E : ends_with ").pkl" (str_of_nat k ++ ").pkl") = true) by apply ends_with_app.
  rewrite E. rewrite slen_app. change (slen ").pkl") with 5.
  rewrite Nat.add_sub, take_app. apply digits_value_str.
Qed.

Lemma suffix_of_some f n k : suffix_of f n = Some k -> exists s, n = f ++ "(" ++ s ++ ").pkl" /\ digits_value s = Some k.
Proof.
  unfold suffix_of. destruct (String.prefix f n) eqn:P; [|discriminate].
  apply prefix_true in P as (t & ->). rewrite drop_app. destruct t as [|a t]; [discriminate|].
  destruct (Ascii.eqb_spec a "("); cbn [andb]; [|discriminate]. subst.
  destruct (ends_with ").pkl" t) eqn:E; [|discriminate]. apply ends_with_spec in E as (s & ->).
  rewrite slen_app. change (slen ").pkl") with 5. rewrite Nat.add_sub, take_app. intros H. exists s. auto.
Qed.

Lemma suffix_of_first f : suffix_of f (f ++ ".pkl") = None.
Proof. unfold suffix_of. rewrite prefix_app, drop_app. reflexivity. Qed.

Section Lemmas.
Context {R : Type}.
Implicit Types (d : dir R) (r : R).

Definition suffix_step f m fname := match suffix_of f fname with Some s => if Nat.ltb m s then s else m | None => m end.

Lemma max_fold f l : forall m0,
  let m := fold_left (suffix_step f) l m0 in
  m0 <= m /\ (forall n k, In n l -> suffix_of f n = Some k -> k <= m) /\
  (m = m0 \/ exists n, In n l /\ suffix_of f n = Some m).
Proof.
  induction l as [|x l IH]; intros m0; simpl.
  - split; [lia|]. split; [intros n k []|auto].
  - destruct (IH (suffix_step f m0 x)) as (A & B & C).
    assert (S1 : m0 <= suffix_step f m0 x).
    { unfold suffix_step. destruct (suffix_of f x); [|lia]. destruct (Nat.ltb_spec m0 n); lia. }
    split; [lia|]. split.
    + intros n k [->|Hn] E; [|eauto].
      assert (k <= suffix_step f m0 n); [|lia]. unfold suffix_step. rewrite E. destruct (Nat.ltb_spec m0 k); lia.
    + destruct C as [C|(n & Hn & C)].
      * rewrite C. unfold suffix_step. destruct (suffix_of f x) as [s|] eqn:E; [|auto].
        destruct (Nat.ltb_spec m0 s); [|auto]. right. exists x. split; auto.
      * right. exists n. auto.
Qed.

Lemma max_suffix_spec f d :
  (forall n k, In n (dkeys d) -> suffix_of f n = Some k -> k <= max_suffix f d) /\
  (max_suffix f d = 0 \/ exists n, In n (dkeys d) /\ suffix_of f n = Some (max_suffix f d)).
Proof. destruct (max_fold f (dkeys d) 0) as (_ & B & C). split; [exact B|exact C]. Qed.

(** The files of [f] are exactly the first [k] names, and hold results. *)
Definition family f k d : Prop :=
  (forall j, j < k -> dmem (attempt f ".pkl" j) d = true) /\
  (forall n, In n (dkeys d) -> file_for f n -> exists j, j < k /\ n = attempt f ".pkl" j).

Lemma attempt_file_for f k : file_for f (attempt f ".pkl" k).
Proof. destruct k; [left; reflexivity|]. right. exists (str_of_nat (S k)). reflexivity. Qed.

Lemma attempt_eq f k : attempt f ".pkl" k = match k with 0 => f ++ ".pkl" | S _ => f ++ "(" ++ str_of_nat k ++ ").pkl" end.
Proof. destruct k; reflexivity. Qed.

Lemma read_family f k d : ends_with "pkl" f = false -> family f (S k) d ->
  read_results d f = load d (attempt f ".pkl" k).
Proof.
  intros He (F1 & F2). unfold read_results. rewrite He. cbn [negb].
  destruct (max_suffix_spec f d) as (M1 & M2).
  assert (E : max_suffix f d = k).
  { apply Nat.le_antisymm.
    - destruct M2 as [M2|(n & Hn & M2)]; [lia|].
      destruct (suffix_of_some _ _ M2) as (s & Es & _).
      destruct (F2 n Hn (or_intror (ex_intro _ s Es))) as (j & Hj & Ej).
      destruct j as [|j].
      + rewrite Ej in M2. cbn [attempt] in M2. rewrite suffix_of_first in M2. discriminate.
      + rewrite Ej in M2. cbn [attempt] in M2. rewrite suffix_of_numbered in M2. injection M2 as M2. lia.
    - destruct k as [|k]; [lia|].
      assert (Hk : dmem (attempt f ".pkl" (S k)) d = true) by (apply F1; lia).
      unfold dmem in Hk. apply mem_str_In in Hk.
      apply (M1 _ (S k) Hk). apply suffix_of_numbered. }
  rewrite E, attempt_eq. destruct k; reflexivity.
Qed.

Lemma read_family0 f d : ends_with "pkl" f = false -> family f 0 d -> read_results d f = Err FileNotFoundError.
Proof.
  intros He (F1 & F2). unfold read_results. rewrite He. cbn [negb].
  destruct (max_suffix_spec f d) as (M1 & M2).
  assert (E : max_suffix f d = 0).
  { destruct M2 as [M2|(n & Hn & M2)]; auto. destruct (suffix_of_some _ _ M2) as (s & Es & _).
    destruct (F2 n Hn (or_intror (ex_intro _ s Es))) as (j & Hj & _). lia. }
  rewrite E. cbn [Nat.ltb Nat.leb]. unfold load.
  destruct (dget (f ++ ".pkl") d) eqn:G; [|reflexivity].
  assert (K : In (f ++ ".pkl") (dkeys d)) by (apply dget_Some_key; eauto).
  destruct (F2 _ K (or_introl eq_refl)) as (j & Hj & _). lia.
Qed.

Lemma target_of date f w : asks_for f w -> ends_with ".pkl" f = false -> target_name date (Some w) = f ++ ".pkl".
Proof.
  intros [->| ->] He; unfold target_name; [now rewrite He|]. now rewrite ends_with_app.
Qed.

Lemma ends_pkl f : ends_with "pkl" f = false -> ends_with ".pkl" f = false.
Proof.
  intros H. destruct (ends_with ".pkl" f) eqn:E; auto. apply ends_with_spec in E as (t & ->).
  change ".pkl" with ("." ++ "pkl") in H. rewrite <- sapp_assoc, ends_with_app in H. discriminate.
Qed.

Lemma dkeys_dset_in {V} k v (d : dict V) n : In n (dkeys (dset k v d)) <-> n = k \/ In n (dkeys d).
Proof.
  rewrite !dget_Some_key, dget_dset. destruct (String.eqb_spec n k).
  - split; eauto.
  - split; [intros (x & H); eauto|intros [H|H]; [congruence|auto]].
Qed.

(** One save without overwrite for [f]. *)
Lemma write_for date f k d r w :
  asks_for f w -> ends_with "pkl" f = false -> not_dots f -> family f k d ->
  write_results date d r (Some w) false = Ok (dset (attempt f ".pkl" k) (Whole r) d) /\
  family f (S k) (dset (attempt f ".pkl" k) (Whole r) d).
Proof.
  intros Hw He Hd (F1 & F2).
  destruct (output_name_ok date d (Some w)) as (base & ext & m & E & O & H1 & H2).
  rewrite (target_of date Hw (ends_pkl _ He)), splitext_pkl, (not_dots_all Hd) in E. injection E as <- <-.
  assert (m = k).
  { destruct (Nat.lt_trichotomy m k) as [X|[X|X]]; auto.
    - rewrite F1 in H1 by auto. discriminate.
    - apply H2 in X. unfold dmem in X. apply mem_str_In in X.
      destruct (F2 _ X (attempt_file_for f k)) as (j & Hj & Ej). apply attempt_inj in Ej. lia. }
  subst m. unfold write_results. rewrite O. split; [reflexivity|]. split.
  - intros j Hj. apply dmem_true. rewrite dget_dset. destruct (String.eqb_spec (attempt f ".pkl" j) (attempt f ".pkl" k)); [eauto|].
    apply dmem_true. apply F1. assert (j <> k) by congruence. lia.
  - intros n Hn Hf. apply dkeys_dset_in in Hn as [->|Hn]; [exists k; auto|].
    destruct (F2 n Hn Hf) as (j & Hj & Ej). exists j. split; auto.
Qed.

Lemma prefix_app_false f w s : unrelated f w -> String.prefix f (w ++ s) = false.
Proof.
  intros (H1 & H2). destruct (String.prefix f (w ++ s)) eqn:E; auto.
  apply prefix_true in E as (t & E). exfalso. revert w H1 H2 E. induction f as [|a f IH]; intros w H1 H2 E.
  - destruct w; discriminate.
  - destruct w as [|b w]; [discriminate|]. cbn [append] in E. injection E as E1 E2. subst.
    apply (IH w); auto.
    + unfold String.prefix in H1 |- *. fold String.prefix in *. destruct (ascii_dec a a); [exact H1|congruence].
    + unfold String.prefix in H2 |- *. fold String.prefix in *. destruct (ascii_dec a a); [exact H2|congruence].
Qed.

Lemma not_file_for f w s : unrelated f w -> ~ file_for f (w ++ s).
Proof.
  intros U H. pose proof (prefix_app_false s U) as P. destruct H as [H|(t & H)]; rewrite H, prefix_app in P; discriminate.
Qed.

Lemma output_extends date d g w ow n :
  asks_for g w -> ends_with ".pkl" g = false -> output_name date d (Some w) ow = Ok n -> exists s, n = g ++ s.
Proof.
  intros Hw He. pose proof (target_of date Hw He) as T. destruct ow.
  - rewrite output_name_overwrite, T. intros H. injection H as <-. eauto.
  - destruct (output_name_ok date d (Some w)) as (base & ext & m & E & O & _). rewrite O. intros H. injection H as <-.
    rewrite T, splitext_pkl in E. destruct (all_dots g); injection E as <- <-.
    + destruct m; cbn [attempt]; unfold numbered; rewrite ?sapp_assoc; eauto.
    + destruct m; cbn [attempt]; unfold numbered; rewrite ?sapp_assoc; eauto.
Qed.

Lemma write_over date f d r w :
  asks_for f w -> ends_with "pkl" f = false ->
  write_results date d r (Some w) true = Ok (dset (f ++ ".pkl") (Whole r) d).
Proof. intros Hw He. unfold write_results. now rewrite output_name_overwrite, (target_of date Hw (ends_pkl _ He)). Qed.

(** A save for another name leaves the files of [f] alone. *)
Lemma write_other date f d r w ow :
  asks_for_other f w ->
  exists n, write_results date d r (Some w) ow = Ok (dset n (Whole r) d) /\ ~ file_for f n.
Proof.
  intros (g & Hw & He & U). unfold write_results.
  destruct (output_name date d (Some w) ow) as [n|e] eqn:O.
  - destruct (@output_extends _ _ _ _ _ _ Hw He O) as (s & ->). exists (g ++ s). split; [reflexivity|]. now apply not_file_for.
  - exfalso. destruct ow; [rewrite output_name_overwrite in O; discriminate|].
    destruct (output_name_ok date d (Some w)) as (base & ext & m & E & O' & _). congruence.
Qed.

Lemma family_other f k d n c : family f k d -> ~ file_for f n -> family f k (dset n c d).
Proof.
  intros (F1 & F2) Hn. split.
  - intros j Hj. apply dmem_true. rewrite dget_dset.
    destruct (String.eqb _ _); [eauto|]. apply dmem_true. auto.
  - intros x Hx Hf. apply dkeys_dset_in in Hx as [->|Hx]; [contradiction|auto].
Qed.

Lemma asks_eqb f w : asks_for f w -> String.eqb w f || String.eqb w (f ++ ".pkl") = true.
Proof. intros [->| ->]; rewrite ?String.eqb_refl, ?orb_true_r; reflexivity. Qed.
Lemma other_eqb f w : asks_for_other f w -> String.eqb w f || String.eqb w (f ++ ".pkl") = false.
Proof.
  intros (g & Hw & He & U). assert (X : exists s, w = g ++ s).
  { destruct Hw as [->| ->]; [exists ""; now rewrite sapp_nil_r|eauto]. }
  destruct X as (s & ->).
  pose proof (prefix_app_false s U) as P.
  apply orb_false_iff. split; apply String.eqb_neq; intros E; rewrite E in P.
  - rewrite <- (sapp_nil_r f) in P at 2. rewrite prefix_app in P. discriminate.
  - rewrite prefix_app in P. discriminate.
Qed.

(** The invariant of histories without overwrite. *)
Definition stored f (last : option R) d : Prop :=
  exists k, family f k d /\
    match k, last with
    | 0, None => True
    | S j, Some r => dget (attempt f ".pkl" j) d = Some (Whole r)
    | _, _ => False
    end.

Lemma stored_read f last d : ends_with "pkl" f = false -> stored f last d ->
  read_results d f = match last with Some r => Ok r | None => Err FileNotFoundError end.
Proof.
  intros He (k & F & L). destruct k as [|k], last as [r|]; try contradiction.
  - now apply read_family0.
  - rewrite (read_family He F). unfold load. now rewrite L.
Qed.

Lemma saves_stored date f h : ends_with "pkl" f = false -> not_dots f ->
  forall d acc,
  (forall w r ow, In (w, r, ow) h -> ow = false /\ (asks_for f w \/ asks_for_other f w)) ->
  stored f acc d ->
  exists d', saves date d h = Ok d' /\
    stored f (fold_left (fun acc x => if String.eqb (fst (fst x)) f || String.eqb (fst (fst x)) (f ++ ".pkl")
                          then Some (snd (fst x)) else acc) h acc) d'.
Proof.
  intros He Hd. induction h as [|[[w r] ow] h IH]; intros d acc Hh (k & F & L).
  - exists d. split; [reflexivity|]. exists k. auto.
  - destruct (Hh w r ow (or_introl eq_refl)) as (-> & [Hw|Hw]).
    + unfold saves. cbn [fold_res fst snd fold_left]. rewrite (asks_eqb Hw).
      destruct (write_for date r Hw He Hd F) as (E & F'). rewrite E. cbn [bind].
      apply IH; [intros; apply (Hh w0 r0 ow); simpl; auto|].
      exists (S k). split; [exact F'|]. apply dget_dset_same.
    + unfold saves. cbn [fold_res fst snd fold_left]. rewrite (other_eqb Hw).
      destruct (write_other date d r false Hw) as (n & E & Hn). rewrite E. cbn [bind].
      apply IH; [intros; apply (Hh w0 r0 ow); simpl; auto|].
      exists k. split; [now apply family_other|].
      destruct k, acc; auto. rewrite dget_dset_other; auto.
      intros X. apply Hn. rewrite <- X. apply attempt_file_for.
Qed.

(** Histories that always overwrite. *)
Definition stored1 f (last : option R) d : Prop :=
  (forall n, In n (dkeys d) -> file_for f n -> n = f ++ ".pkl") /\
  match last with None => dget (f ++ ".pkl") d = None | Some r => dget (f ++ ".pkl") d = Some (Whole r) end.

Lemma saves_stored1 date f h : ends_with "pkl" f = false ->
  forall d acc,
  (forall w r ow, In (w, r, ow) h -> (ow = true /\ asks_for f w) \/ asks_for_other f w) ->
  stored1 f acc d ->
  exists d', saves date d h = Ok d' /\
    stored1 f (fold_left (fun acc x => if String.eqb (fst (fst x)) f || String.eqb (fst (fst x)) (f ++ ".pkl")
                          then Some (snd (fst x)) else acc) h acc) d'.
Proof.
  intros He. induction h as [|[[w r] ow] h IH]; intros d acc Hh (F & L).
  - exists d. split; [reflexivity|]. split; auto.
  - destruct (Hh w r ow (or_introl eq_refl)) as [(-> & Hw)|Hw].
    + unfold saves. cbn [fold_res fst snd fold_left]. rewrite (asks_eqb Hw).
      rewrite (write_over date d r Hw He). cbn [bind].
      apply IH; [intros; apply (Hh w0 r0 ow); simpl; auto|]. split; [|apply dget_dset_same].
      intros n Hn Hf. apply dkeys_dset_in in Hn as [->|Hn]; auto.
    + unfold saves. cbn [fold_res fst snd fold_left]. rewrite (other_eqb Hw).
      destruct (write_other date d r ow Hw) as (n & E & Hn). rewrite E. cbn [bind].
      apply IH; [intros; apply (Hh w0 r0 ow0); simpl; auto|]. split.
      * intros x Hx Hf. apply dkeys_dset_in in Hx as [->|Hx]; [contradiction|auto].
      * rewrite dget_dset_other; auto. intros X. apply Hn. rewrite <- X. left; reflexivity.
Qed.

Lemma stored1_read f last d : ends_with "pkl" f = false -> stored1 f last d ->
  read_results d f = match last with Some r => Ok r | None => Err FileNotFoundError end.
Proof.
  intros He (F & L). unfold read_results. rewrite He. cbn [negb].
  destruct (max_suffix_spec f d) as (M1 & M2).
  assert (E : max_suffix f d = 0).
  { destruct M2 as [M2|(n & Hn & M2)]; auto. destruct (suffix_of_some _ _ M2) as (s & Es & _).
    rewrite (F n Hn (or_intror (ex_intro _ s Es))), suffix_of_first in M2. discriminate. }
  rewrite E. cbn [Nat.ltb Nat.leb]. unfold load. destruct last; now rewrite L.
Qed.
End Lemmas.

Lemma c30_latest_without_overwrite__p :
  forall (R : Type) (date : string) (d : dir R) (f : string) (h : list (string * R * bool)),
  ends_with "pkl" f = false -> not_dots f ->
  (forall n, In n (dkeys d) -> ~ file_for f n) ->
  (forall w r ow, In (w, r, ow) h -> ow = false /\ (asks_for f w \/ asks_for_other f w)) ->
  exists d', saves date d h = Ok d' /\
    read_results d' f = match latest f h with Some r => Ok r | None => Err FileNotFoundError end.
Proof.
  intros R date d f h He Hd Hn Hh.
  destruct (@saves_stored R date f h He Hd d None Hh) as (d' & E & S).
  - exists 0. split; [|exact I]. split; [intros; lia|]. intros n Hin Hf. exfalso. eapply Hn; eauto.
  - exists d'. split; [exact E|]. exact (stored_read He S).
Qed.

Lemma c30_latest_overwriting__p :
  forall (R : Type) (date : string) (d : dir R) (f : string) (h : list (string * R * bool)),
  ends_with "pkl" f = false ->
  (forall n, In n (dkeys d) -> ~ file_for f n) ->
  (forall w r ow, In (w, r, ow) h -> (ow = true /\ asks_for f w) \/ asks_for_other f w) ->
  exists d', saves date d h = Ok d' /\
    read_results d' f = match latest f h with Some r => Ok r | None => Err FileNotFoundError end.
Proof.
  intros R date d f h He Hn Hh.
  destruct (@saves_stored1 R date f h He d None Hh) as (d' & E & S).
  - split; [intros n Hin Hf; exfalso; eapply Hn; eauto|].
    destruct (dget (f ++ ".pkl") d) eqn:G; auto. exfalso.
    apply (Hn (f ++ ".pkl")); [apply dget_Some_key; eauto|left; reflexivity].
  - exists d'. split; [exact E|]. exact (stored1_read He S).
Qed.

(** Any history that saves twice without overwriting and then overwrites:
    the name reads as the second save, not the last. *)
Lemma c30_overwrite_after_suffix_refuted__p :
  forall (R : Type) (date : string) (f : string) (r1 r2 r3 : R),
  ends_with "pkl" f = false -> not_dots f ->
  exists d', saves date [] [(f, r1, false); (f, r2, false); (f, r3, true)] = Ok d' /\ read_results d' f = Ok r2.
Proof.
  intros R date f r1 r2 r3 He Hd.
  assert (F0 : family f 0 ([] : dir R)) by (split; [intros; lia|intros n []]).
  assert (A : asks_for f f) by (left; reflexivity).
  destruct (write_for date r1 A He Hd F0) as (E1 & F1).
  destruct (write_for date r2 A He Hd F1) as (E2 & F2).
  unfold saves. cbn [fold_res fst snd]. rewrite E1. cbn [bind]. rewrite E2. cbn [bind].
  rewrite (write_over date _ r3 A He). cbn [bind].
  eexists. split; [reflexivity|].
  erewrite read_family; [|exact He|].
  - unfold load. rewrite dget_dset_other, dget_dset_same; [reflexivity|].
    intros X. change (f ++ ".pkl") with (attempt f ".pkl" 0) in X. apply attempt_inj in X. discriminate.
  - destruct F2 as (G1 & G2). split.
    + intros j Hj. apply dmem_true. rewrite dget_dset. destruct (String.eqb _ _); [eauto|]. apply dmem_true. auto.
    + intros n Hin Hf. apply dkeys_dset_in in Hin as [->|Hin]; [exists 0; split; [lia|reflexivity]|auto].
Qed.

(** Reading with the extension in the name: the first save is returned. *)
Lemma c30_with_extension_refuted__p :
  exists (d' : dir nat),
    saves "2024-01-01" [] [("run.pkl", 1, false); ("run.pkl", 2, false)] = Ok d' /\
    read_results d' "run.pkl" = Ok 1 /\ read_results d' "run" = Ok 2.
Proof.
  exists [("run.pkl", Whole 1); ("run(1).pkl", Whole 2)]. repeat split; vm_compute; reflexivity.
Qed.

(** A name that ends in pkl without being an extension cannot be read back. *)
Lemma c30_pkl_name_refuted__p :
  exists (d' : dir nat),
    saves "2024-01-01" [] [("runpkl", 1, false)] = Ok d' /\ read_results d' "runpkl" = Err FileNotFoundError.
Proof. exists [("runpkl.pkl", Whole 1)]. split; vm_compute; reflexivity. Qed.

(** C31 *)
Lemma c31_no_overwrite_keeps_files__p :
  forall (R : Type) (date : string) (d : dir R) (r : R) (filename : option string) (states : list (dir R)) (d' : dir R),
  write_states date d r filename false = Ok states -> In d' states ->
  forall n c, dget n d = Some c -> dget n d' = Some c.
Proof.
  intros R date d r filename states d' H Hin n c G. unfold write_states in H.
  destruct (output_name_ok date d filename) as (base & ext & m & E & O & H1 & _). rewrite O in H. cbn [bind] in H.
  injection H as <-. apply dmem_false in H1.
  assert (Hn : n <> attempt base ext m) by congruence.
  destruct Hin as [<-|[<-|[<-|[]]]]; rewrite ?dget_dset_other; auto.
Qed.

Lemma str_replace_pkl f : contains "pkl" f = false -> str_replace "pkl" "" (f ++ ".pkl") = f ++ ".".
Proof.
  induction f as [|a f IH]; intros H; [reflexivity|].
  cbn [append]. cbn [contains] in H. apply orb_false_iff in H as (Hp & H).
  rewrite str_replace_nomatch; [rewrite IH by auto; reflexivity|].
  destruct (String.prefix "pkl" (String a (f ++ ".pkl"))) eqn:P; auto. exfalso.
  apply prefix_true in P as (t & P). cbn [append] in P. injection P as -> P.
  destruct f as [|b f]; [discriminate|]. cbn [append] in P. injection P as -> P.
  destruct f as [|e f]; [discriminate|]. cbn [append] in P. injection P as -> P.
  change (String "p" (String "k" (String "l" f))) with ("pkl" ++ f) in Hp. rewrite prefix_app in Hp. discriminate.
Qed.

(** After a crash, a complete file can be read by its full name. *)
Lemma c31_readable_by_file_name__p :
  forall (R : Type) (date : string) (d : dir R) (r r0 : R) (filename : option string) (f : string)
         (states : list (dir R)) (d' : dir R),
  write_states date d r filename false = Ok states -> In d' states ->
  dget (f ++ ".pkl") d = Some (Whole r0) -> contains "pkl" f = false ->
  (forall n, In n (dkeys d') -> String.prefix (f ++ ".(") n = false) ->
  read_results d' (f ++ ".pkl") = Ok r0.
Proof.
  intros R date d r r0 filename f states d' H Hin G Hc Hp.
  pose proof (c31_no_overwrite_keeps_files__p _ _ _ _ _ H Hin _ G) as G'.
  unfold read_results.
  assert (E : ends_with "pkl" (f ++ ".pkl") = true).
  { change ".pkl" with ("." ++ "pkl"). rewrite <- sapp_assoc. apply ends_with_app. }
  rewrite E. cbn [negb]. rewrite (str_replace_pkl _ Hc).
  destruct (max_suffix_spec (f ++ ".") d') as (_ & [M|(n & Hn & M)]).
  - rewrite M. cbn [Nat.ltb Nat.leb]. unfold load. now rewrite G'.
  - exfalso. destruct (suffix_of_some _ _ M) as (s & Es & _). apply Hp in Hn. rewrite Es in Hn.
    replace ((f ++ ".") ++ "(" ++ s ++ ").pkl") with ((f ++ ".(") ++ s ++ ").pkl") in Hn by (rewrite !sapp_assoc; reflexivity).
    rewrite prefix_app in Hn. discriminate.
Qed.

(** Overwriting: a crash after opening loses the old result. *)
Lemma c31_overwrite_refuted__p :
  forall (R : Type) (date : string) (d : dir R) (r r0 : R) (f : string),
  ends_with "pkl" f = false ->
  dget (f ++ ".pkl") d = Some (Whole r0) -> (forall s, ~ In (f ++ "(" ++ s ++ ").pkl") (dkeys d)) ->
  read_results d f = Ok r0 /\
  exists states d', write_states date d r (Some f) true = Ok states /\ In d' states /\
    read_results d' f = Err UnpicklingError /\ (forall n, dget n d' <> Some (Whole r0) \/ dget n d = dget n d').
Proof.
  intros R date d r r0 f He G Hs.
  assert (M0 : forall d1 : dir R, (forall s, ~ In (f ++ "(" ++ s ++ ").pkl") (dkeys d1)) -> max_suffix f d1 = 0).
  { intros d1 H1. destruct (max_suffix_spec f d1) as (_ & [M|(n & Hn & M)]); auto.
    destruct (suffix_of_some _ _ M) as (s & Es & _). exfalso. apply (H1 s). now rewrite <- Es. }
  split.
  - unfold read_results. rewrite He. cbn [negb]. rewrite (M0 d Hs). cbn [Nat.ltb Nat.leb]. unfold load. now rewrite G.
  - unfold write_states. rewrite output_name_overwrite, (target_of date (or_introl eq_refl) (ends_pkl _ He)). cbn [bind].
    eexists. eexists. split; [reflexivity|]. split; [right; left; reflexivity|]. split.
    + unfold read_results. rewrite He. cbn [negb]. rewrite M0.
      * cbn [Nat.ltb Nat.leb]. unfold load. now rewrite dget_dset_same.
      * intros s X. apply dkeys_dset_in in X as [X|X]; [|apply (Hs s X)].
        apply sapp_inv_head in X. destruct s; discriminate.
    + intros n. rewrite dget_dset. destruct (String.eqb_spec n (f ++ ".pkl")); [left; discriminate|auto].
Qed.

(** Without overwriting, a crash after opening makes the name unreadable. *)
Lemma c31_read_by_name_refuted__p :
  forall (R : Type) (date : string) (f : string) (r0 r : R),
  ends_with "pkl" f = false -> not_dots f ->
  exists d states d',
    write_results date [] r0 (Some f) false = Ok d /\ read_results d f = Ok r0 /\
    write_states date d r (Some f) false = Ok states /\ In d' states /\
    read_results d' f = Err UnpicklingError.
Proof.
  intros R date f r0 r He Hd.
  assert (F0 : family f 0 ([] : dir R)) by (split; [intros; lia|intros n []]).
  assert (A : asks_for f f) by (left; reflexivity).
  destruct (write_for date r0 A He Hd F0) as (E1 & F1).
  destruct (write_for date r A He Hd F1) as (E2 & F2).
  exists (dset (attempt f ".pkl" 0) (Whole r0) []).
  unfold write_results in E2. unfold write_states. destruct (output_name _ _ _ _) as [n|e] eqn:O; [|discriminate].
  cbn [bind] in *. eexists. eexists. split; [exact E1|]. split.
  { rewrite (read_family He F1). unfold load. now rewrite dget_dset_same. }
  split; [reflexivity|]. split; [right; left; reflexivity|].
  assert (n = attempt f ".pkl" 1).
  { destruct (output_name_ok date (dset (attempt f ".pkl" 0) (Whole r0) []) (Some f)) as (base & ext & m & E & O' & H1 & H2).
    rewrite O in O'. injection O' as ->. rewrite (target_of date A (ends_pkl _ He)), splitext_pkl, (not_dots_all Hd) in E.
    injection E as <- <-. f_equal. destruct F1 as (G1 & G2). destruct (Nat.lt_trichotomy m 1) as [X|[X|X]]; auto.
    - rewrite G1 in H1 by auto. discriminate.
    - apply H2 in X. unfold dmem in X. apply mem_str_In in X.
      destruct (G2 _ X (attempt_file_for f 1)) as (j & Hj & Ej). apply attempt_inj in Ej. lia. }
  subst n. erewrite read_family; [|exact He|].
  - unfold load. now rewrite dget_dset_same.
  - destruct F2 as (G1 & G2). split.
    + intros j Hj. specialize (G1 j Hj). apply dmem_true in G1 as (v & G1). apply dmem_true.
      rewrite dget_dset in *. destruct (String.eqb _ _); eauto.
    + intros x Hx. apply G2. apply dkeys_dset_in in Hx. apply dkeys_dset_in. exact Hx.
Qed.

(** C28 *)
Lemma c28_fresh__p :
  forall (R : Type) (date : string) (d : dir R) (name : string) (overwrite save : bool) (compute : res R),
  overwrite = true \/ dget (name ++ ".pkl") d = None ->
  snd (simulate_io date d name overwrite save compute) = compute.
Proof.
  intros R date d name overwrite save compute H. unfold simulate_io.
  assert (E : negb overwrite && dmem (name ++ ".pkl") d = false).
  { destruct H as [->|H]; [reflexivity|]. apply dmem_false in H. rewrite H. apply andb_false_r. }
  rewrite E. destruct compute as [r|e]; [|reflexivity]. destruct save; [|reflexivity].
  unfold write_results. destruct (output_name date d (Some name) overwrite) as [n|e] eqn:O; [reflexivity|]. exfalso.
  destruct overwrite; [rewrite output_name_overwrite in O; discriminate|].
  destruct (output_name_ok date d (Some name)) as (base & ext & m & _ & O' & _). congruence.
Qed.

(** Failing or unsaved runs leave the directory alone; saved ones store the
    result under the name. *)
Lemma c28_saved__p :
  forall (R : Type) (date : string) (d : dir R) (name : string) (overwrite save : bool) (compute : res R) (r : R),
  ends_with "pkl" name = false -> not_dots name ->
  (forall n, In n (dkeys d) -> ~ file_for name n) ->
  compute = Ok r ->
  let d' := fst (simulate_io date d name overwrite save compute) in
  if save then read_results d' name = Ok r else d' = d.
Proof.
  intros R date d name overwrite save compute r He Hd Hn -> d'. subst d'. unfold simulate_io.
  assert (G : dmem (name ++ ".pkl") d = false).
  { apply dmem_false. destruct (dget (name ++ ".pkl") d) eqn:G; auto. exfalso.
    apply (Hn (name ++ ".pkl")); [apply dget_Some_key; eauto|left; reflexivity]. }
  rewrite G, andb_false_r. destruct save; [|reflexivity].
  assert (F0 : family name 0 d) by (split; [intros; lia|intros n Hin Hf; exfalso; eapply Hn; eauto]).
  assert (A : asks_for name name) by (left; reflexivity).
  destruct overwrite.
  - rewrite (write_over date _ r A He). cbn [fst].
    apply (@stored1_read R name (Some r)); auto. split; [|apply dget_dset_same].
    intros n Hx Hf. apply dkeys_dset_in in Hx as [->|Hx]; auto. exfalso; eapply Hn; eauto.
  - destruct (write_for date r A He Hd F0) as (E & F1). rewrite E. cbn [fst].
    rewrite (read_family He F1). unfold load. now rewrite dget_dset_same.
Qed.

(** A second call with the same settings on the same day returns the result of
    the first whatever its scenario — even one that would be rejected. *)
Lemma c28_other_scenario_refuted__p :
  forall (R : Type) (date today : string) (d : dir R) (use_euler : bool) (n_iter : nat) (use_optimizer : bool)
         (mode : string) (kwargs : list string) (save2 : bool) (r1 : R) (compute2 : res R),
  let name := default_name today use_euler n_iter use_optimizer mode kwargs in
  ends_with "pkl" name = false ->
  (forall n, In n (dkeys d) -> ~ file_for name n) ->
  let d1 := fst (simulate_io date d name false true (Ok r1)) in
  snd (simulate_io date d1 name false save2 compute2) = Ok r1.
Proof.
  intros R date today d use_euler n_iter use_optimizer mode kwargs save2 r1 compute2 name He Hn d1.
  assert (Hd : not_dots name).
  { exists "", ("imulation_" ++ today ++ (if use_euler then "_Euler[steps=" ++ str_of_nat n_iter ++ "]" else "")
    ++ (if use_optimizer then "_" ++ mode ++ "[" ++ join "," kwargs ++ "]" else "")), "S"%char. split; [reflexivity|discriminate]. }
  pose proof (@c28_saved__p R date d name false true (Ok r1) r1 He Hd Hn eq_refl) as Rd. cbn zeta iota in Rd. fold d1 in Rd.
  unfold simulate_io at 1. 
  assert (G : dmem (name ++ ".pkl") d1 = true).
  { subst d1. unfold simulate_io.
    assert (G : dmem (name ++ ".pkl") d = false).
    { apply dmem_false. destruct (dget (name ++ ".pkl") d) eqn:G; auto. exfalso.
      apply (Hn (name ++ ".pkl")); [apply dget_Some_key; eauto|left; reflexivity]. }
    rewrite G, andb_false_r.
    assert (F0 : family name 0 d) by (split; [intros; lia|intros n Hin Hf; exfalso; eapply Hn; eauto]).
    destruct (write_for date r1 (or_introl eq_refl : asks_for name name) He Hd F0) as (E & F1). rewrite E. cbn [fst].
    apply dmem_true. rewrite dget_dset_same. eauto. }
  rewrite G. cbn [andb negb snd]. exact Rd.
Qed.
