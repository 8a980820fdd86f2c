(** The generated function evaluates its expressions. *)
From Coq Require Import Reals Lra.
From Verif Require Import Py PyStr M_SymExpr M_Calculus S_Calculus S_Reduce M_Lambdify S_Lambdify L_Calculus L_Calculus2.
Local Open Scope string_scope.
Local Open Scope list_scope.

Lemma dget_dset_same {V} n (x : V) d : dget n (dset n x d) = Some x.
Proof. induction d as [|(k & y) d IH]; cbn; [now rewrite String.eqb_refl|]. destruct (String.eqb n k) eqn:E; cbn; rewrite E; auto. Qed.
Lemma dget_dset_other {V} n m (x : V) d : n <> m -> dget n (dset m x d) = dget n d.
Proof.
  intros N. induction d as [|(k & y) d IH]; cbn.
  - destruct (String.eqb_spec n m); congruence.
  - destruct (String.eqb_spec m k); cbn; [|now rewrite IH]. subst. destruct (String.eqb_spec n k); congruence.
Qed.

(** A leaf b[l] has the value p b l in env *)
Definition bound_ix (env : dict pyval) (p : string -> list idx -> R) (b : string) (l : list idx) : Prop :=
  exists i x, l = [IPos i] /\ dget b env = Some x /\ py_item x i = Ok (PNum (p b l)).

Lemma eval_ok env v p e :
  (forall s, In s (atoms e) -> dget s env = Some (PNum (v s))) ->
  (forall b l, In (b, l) (indexed_exprs e) -> bound_ix env p b l) ->
  no_reduction e -> eval env e = Ok (numval v p e).
Proof.
  induction e; cbn [atoms indexed_exprs no_reduction eval numval]; intros A I N.
  - reflexivity.
  - rewrite A by (simpl; auto). reflexivity.
  - destruct (I base ixs) as (i & x & -> & D & P); [simpl; auto|]. rewrite D, P. reflexivity.
  - destruct N as (N1 & N2). rewrite IHe1, IHe2; auto; try (intros; apply A; apply in_or_app; auto); try (intros; apply I; apply in_or_app; auto).
  - destruct f; rewrite IHe; auto.
  - destruct N.
Qed.

Lemma run_ok defs : forall known out env v p,
  scoped known defs out -> (forall s, In s known -> dget s env = Some (PNum (v s))) ->
  (forall e b l, In e (map snd defs ++ out) -> In (b, l) (indexed_exprs e) -> bound_ix env p b l /\ ~ In b (map fst defs)) ->
  Forall no_reduction (map snd defs ++ out) ->
  exists env', run_assignments defs env = Ok env' /\ map_res (eval env') out = Ok (map (numval (with_defs v p defs) p) out).
Proof.
  induction defs as [|(n & d) defs IH]; intros known out env v p Sc K I N.
  - exists env. split; [reflexivity|]. cbn [with_defs]. rewrite <- (map_res_total (numval v p)). apply map_res_ext. intros e He.
    apply eval_ok.
    + intros s Hs. apply K. cbn in Sc. eauto.
    + intros b l H. now apply (I e b l).
    + rewrite Forall_forall in N. now apply N.
  - cbn [map snd fst app] in *. destruct Sc as (Sd & Sc). inversion N as [|? ? Nd N']; subst. unfold run_assignments. cbn [fold_res fst snd].
    rewrite (@eval_ok env v p d); auto; [|intros b l H; now apply (I d b l); [left|]].
    cbn [bind]. destruct (IH (n :: known) out (dset n (PNum (numval v p d)) env) (set_sym v n (numval v p d)) p) as (env' & R & E); auto.
    + intros s Hs. unfold set_sym. destruct (String.eqb_spec s n).
      * subst. apply dget_dset_same.
      * rewrite dget_dset_other by auto. apply K. destruct Hs; congruence.
    + intros e b l He H. destruct (I e b l) as ((i & x & -> & D & P) & Hn); auto; [now right|]. cbn in Hn. split; [|tauto].
      exists i, x. split; [reflexivity|]. split; [|exact P]. rewrite dget_dset_other; auto.
    + exists env'. split; auto.
Qed.

Lemma unpack_ok src names xs : forall i env, ~ In src names -> NoDup names -> dget src env = Some xs ->
  (forall j n, nth_error names j = Some n -> exists y, py_item xs (i + j) = Ok y) ->
  exists env', unpack_inputs src i names env = Ok env' /\
    (forall s, ~ In s names -> dget s env' = dget s env) /\
    (forall j n y, nth_error names j = Some n -> py_item xs (i + j) = Ok y -> dget n env' = Some y).
Proof.
  induction names as [|n names IH]; intros i env Sn N D L; cbn [unpack_inputs].
  - exists env. split; auto. split; auto. intros [|j] m y H; discriminate.
  - rewrite D. inversion N; subst. cbn in Sn. destruct (L 0 n eq_refl) as (y & Ey). rewrite Nat.add_0_r in Ey. rewrite Ey. cbn [bind].
    destruct (IH (S i) (dset n y env)) as (env' & -> & A & B); auto.
    + rewrite dget_dset_other; auto.
    + intros j m Hm. destruct (L (S j) m Hm) as (z & Ez). exists z. rewrite <- Ez. f_equal. lia.
    + exists env'. split; auto. split.
      * intros s Hs. cbn in Hs. rewrite A by tauto. apply dget_dset_other. intros ->. tauto.
      * intros [|j] m z Hm Hz; cbn in Hm.
        -- injection Hm as <-. rewrite Nat.add_0_r in Hz. rewrite A by auto. rewrite dget_dset_same. congruence.
        -- apply (B j m); auto. rewrite <- Hz. f_equal. lia.
Qed.

Lemma numbered_name n : numbered n -> is_name n = true /\ n <> "np" /\ n <> "len".
Proof.
  intros (ds & -> & H). split; [|split; discriminate]. unfold is_name. apply andb_true_iff. split.
  - apply andb_true_iff. split; [reflexivity|]. rewrite forallb_forall in *. intros c Hc. apply H in Hc. unfold digit in Hc.
    unfold ident_char. cbn zeta. rewrite Hc. apply orb_true_r.
  - unfold keywords. cbn [mem_str existsb]. reflexivity.
Qed.

(** After the inputs are unpacked into [env], any expressions whose leaves are bound are evaluated there *)
Lemma lambdify_run cse exog t endog rv : eliminates cse ->
  (forall n, In n (exog ++ endog) -> is_name n = true /\ n <> "np" /\ n <> "len") ->
  Forall no_reduction (cells t) ->
  exists f, numba_lambdify cse exog t endog rv = Ok f /\
    forall X T env1 env v p, py_len X = Ok (length exog) -> py_len T = Ok (length endog) ->
      unpack_inputs "exog_inputs" 0 exog [("exog_inputs", X); ("endog_inputs", T)] = Ok env1 ->
      unpack_inputs "endog_inputs" 0 endog env1 = Ok env ->
      (forall e s, In e (cells t) -> In s (atoms e) -> dget s env = Some (PNum (v s))) ->
      (forall e b l, In e (cells t) -> In (b, l) (indexed_exprs e) -> bound_ix env p b l /\ ~ numbered b) ->
      f X T = Ok (finish t rv (map (numval v p) (cells t))).
Proof.
  intros EL NM NR. unfold numba_lambdify. specialize (EL (cells t)). destruct (cse (cells t)) as (defs & out) eqn:EC. cbn [fst snd] in EL.
  destruct EL as (Ln & ND & Fr & Sc & Ix & NR' & Vl).
  assert (NM' : forall n, In n (exog ++ endog ++ map fst defs) -> is_name n = true /\ n <> "np" /\ n <> "len").
  { intros n Hn. rewrite app_assoc in Hn. apply in_app_or in Hn as [Hn|Hn]; [now apply NM|]. apply numbered_name. now apply Fr. }
  assert (F : forallb is_name (exog ++ endog ++ map fst defs) = true) by (apply forallb_forall; intros n Hn; now apply NM').
  rewrite F. cbn [negb]. eexists. split; [reflexivity|]. intros X T env1 env v p LX LT U1 U2 A I.
  assert (M : forall w, w = "len" \/ w = "np" -> mem_str w (exog ++ endog ++ map fst defs) = false).
  { intros w Hw. destruct (mem_str w _) eqn:E; [|reflexivity]. exfalso. apply mem_str_In in E. apply NM' in E. destruct Hw; subst; tauto. }
  rewrite (M "len") by auto. rewrite LX, LT. cbn [bind]. rewrite !Nat.eqb_refl. cbn [negb]. rewrite U1. cbn [bind]. rewrite U2. cbn [bind].
  destruct (@run_ok defs (flat_map atoms (cells t)) out env v p) as (env' & -> & E); auto.
  - intros s Hs. apply in_flat_map in Hs as (e & He & Hs). eauto.
  - intros e b l He H. apply Ix in H; auto. apply in_flat_map in H as (e' & He' & H). destruct (I e' b l He' H) as (B & Nb). split; [exact B|].
    intros Hb. apply Nb. now apply Fr.
  - cbn [bind]. rewrite (M "np") by auto. rewrite E. cbn [bind]. now rewrite Vl.
Qed.

(** An error while the inputs are unpacked is the error of the call *)
Lemma lambdify_compiles cse exog t endog rv : eliminates cse ->
  (forall n, In n (exog ++ endog) -> is_name n = true /\ n <> "np" /\ n <> "len") ->
  exists f, numba_lambdify cse exog t endog rv = Ok f /\
    forall X T ex, py_len X = Ok (length exog) -> py_len T = Ok (length endog) ->
      (let* env1 := unpack_inputs "exog_inputs" 0 exog [("exog_inputs", X); ("endog_inputs", T)] in unpack_inputs "endog_inputs" 0 endog env1) = Err ex ->
      f X T = Err ex.
Proof.
  intros EL NM. unfold numba_lambdify. specialize (EL (cells t)). destruct (cse (cells t)) as (defs & out) eqn:EC. cbn [fst snd] in EL.
  destruct EL as (_ & _ & Fr & _).
  assert (NM' : forall n, In n (exog ++ endog ++ map fst defs) -> is_name n = true /\ n <> "np" /\ n <> "len").
  { intros n Hn. rewrite app_assoc in Hn. apply in_app_or in Hn as [Hn|Hn]; [now apply NM|]. apply numbered_name. now apply Fr. }
  assert (F : forallb is_name (exog ++ endog ++ map fst defs) = true) by (apply forallb_forall; intros n Hn; now apply NM').
  rewrite F. cbn [negb]. eexists. split; [reflexivity|]. intros X T ex LX LT U.
  assert (M : mem_str "len" (exog ++ endog ++ map fst defs) = false).
  { destruct (mem_str "len" _) eqn:E; [|reflexivity]. exfalso. apply mem_str_In in E. apply NM' in E. tauto. }
  rewrite M, LX, LT. cbn [bind]. rewrite !Nat.eqb_refl. cbn [negb].
  destruct (unpack_inputs "exog_inputs" 0 exog _) as [env1|e1]; cbn [bind] in *; [|congruence].
  rewrite U. reflexivity.
Qed.

Lemma dget_combine names (xs : list R) j n r : NoDup names -> nth_error names j = Some n -> nth_error xs j = Some r -> dget n (combine names xs) = Some r.
Proof.
  intros N. revert xs j. induction N as [|m names Nm N IH]; intros xs [|j] H1 H2; cbn in *; try discriminate.
  - injection H1 as ->. destruct xs; [discriminate|]. injection H2 as ->. cbn. now rewrite String.eqb_refl.
  - destruct xs; [discriminate|]. cbn. destruct (String.eqb_spec n m); [subst; exfalso; apply Nm; eapply nth_error_In; eauto|]. eauto.
Qed.

Lemma NoDup_app_parts {A} (l1 l2 : list A) : NoDup (l1 ++ l2) -> NoDup l1 /\ NoDup l2 /\ forall x, In x l1 -> ~ In x l2.
Proof.
  induction l1 as [|a l1 IH]; intros N; [repeat split; auto; constructor|]. inversion N as [|? ? Hn N']; subst. destruct (IH N') as (A1 & A2 & A3).
  split; [constructor; auto; intros H; apply Hn, in_or_app; auto|]. split; auto. intros x [<-|H]; [intros H; apply Hn, in_or_app; auto|auto].
Qed.

(** Both inputs are unpacked: every name holds its own entry *)
Lemma unpack_both exog endog X T : NoDup (exog ++ endog) -> ~ In "exog_inputs" exog -> ~ In "endog_inputs" (exog ++ endog) ->
  (forall j n, nth_error exog j = Some n -> exists y, py_item X j = Ok y) -> (forall j n, nth_error endog j = Some n -> exists y, py_item T j = Ok y) ->
  exists env1 env, unpack_inputs "exog_inputs" 0 exog [("exog_inputs", X); ("endog_inputs", T)] = Ok env1 /\
    unpack_inputs "endog_inputs" 0 endog env1 = Ok env /\
    (forall j n y, nth_error exog j = Some n -> py_item X j = Ok y -> dget n env = Some y) /\
    (forall j n y, nth_error endog j = Some n -> py_item T j = Ok y -> dget n env = Some y).
Proof.
  intros N H1 H2 LX LT. apply NoDup_app_parts in N as (N1 & N2 & N3).
  destruct (@unpack_ok "exog_inputs" exog X 0 [("exog_inputs", X); ("endog_inputs", T)]) as (env1 & U1 & A1 & B1); auto.
  destruct (@unpack_ok "endog_inputs" endog T 0 env1) as (env2 & U2 & A2 & B2); auto.
  { intros H; apply H2, in_or_app; auto. }
  { rewrite A1; [reflexivity|]. intros H; apply H2, in_or_app; auto. }
  exists env1, env2. split; auto. split; auto. split.
  - intros j n y Hn Hy. rewrite A2; [eapply B1; eauto|]. apply N3. eapply nth_error_In; eauto.
  - intros j n y Hn Hy. eapply B2; eauto.
Qed.

Lemma state_left names1 names2 xs1 xs2 j n r : NoDup (names1 ++ names2) -> length xs1 = length names1 ->
  nth_error names1 j = Some n -> nth_error xs1 j = Some r -> state_of (names1 ++ names2) (xs1 ++ xs2) n = r.
Proof.
  intros N L H1 H2. unfold state_of. rewrite (@dget_combine (names1 ++ names2) (xs1 ++ xs2) j n r); auto; (rewrite nth_error_app1; [assumption|]).
  - apply nth_error_Some. congruence. - apply nth_error_Some. congruence.
Qed.
Lemma state_right names1 names2 xs1 xs2 j n r : NoDup (names1 ++ names2) -> length xs1 = length names1 ->
  nth_error names2 j = Some n -> nth_error xs2 j = Some r -> state_of (names1 ++ names2) (xs1 ++ xs2) n = r.
Proof.
  intros N L H1 H2. unfold state_of. rewrite (@dget_combine (names1 ++ names2) (xs1 ++ xs2) (length names1 + j) n r); auto.
  - rewrite nth_error_app2 by lia. rewrite <- H1. f_equal. lia.
  - rewrite nth_error_app2 by lia. rewrite <- H2. f_equal. lia.
Qed.

Definition usable (names : list string) : Prop := forall n, In n names -> is_name n = true /\ ~ In n reserved.

Lemma usable_parts names : usable names -> (forall n, In n names -> is_name n = true /\ n <> "np" /\ n <> "len") /\ ~ In "exog_inputs" names /\ ~ In "endog_inputs" names.
Proof.
  intros U. split; [|split; intros H; apply U in H as (_ & H); apply H; simpl; tauto].
  intros n Hn. destruct (U n Hn) as (A & B). split; auto. split; intros ->; apply B; simpl; tauto.
Qed.

Lemma item_arr xs j n (names : list string) : length xs = length names -> nth_error names j = Some n -> exists r, nth_error xs j = Some r /\ py_item (PArr xs) j = Ok (PNum r).
Proof.
  intros L H. destruct (nth_error xs j) as [r|] eqn:E; [exists r; cbn; now rewrite E|].
  apply nth_error_None in E. assert (j < length names) by (apply nth_error_Some; congruence). lia.
Qed.

(** Flat vectors for plain symbols *)
Lemma lambdify_flat cse variables parameters t rv : eliminates cse -> NoDup (variables ++ parameters) -> usable (variables ++ parameters) ->
  (forall e, In e (cells t) -> no_reduction e /\ indexed_exprs e = [] /\ forall s, In s (atoms e) -> In s (variables ++ parameters)) ->
  exists f, numba_lambdify cse variables t parameters rv = Ok f /\
    forall x theta p, length x = length variables -> length theta = length parameters ->
      call2 f x theta = Ok (finish t rv (map (numval (state_of (variables ++ parameters) (x ++ theta)) p) (cells t))).
Proof.
  intros EL N U W. apply usable_parts in U as (U & U1 & U2).
  destruct (@lambdify_run cse variables t parameters rv) as (f & E & R); auto.
  { apply Forall_forall. intros e He. now apply W. }
  exists f. split; auto. intros x theta p Lx Lt. unfold call2.
  destruct (@unpack_both variables parameters (PArr x) (PArr theta)) as (env1 & env & A & B & C & D); auto.
  { intros H; apply U1, in_or_app; auto. }
  { intros j n Hn. destruct (@item_arr x j n variables Lx Hn) as (r & _ & Hr). eauto. }
  { intros j n Hn. destruct (@item_arr theta j n parameters Lt Hn) as (r & _ & Hr). eauto. }
  apply (R (PArr x) (PArr theta) env1 env); auto.
  - cbn. congruence.
  - cbn. congruence.
  - intros e s He Hs. destruct (W e He) as (_ & _ & At). specialize (At s Hs). apply in_app_or in At as [At|At]; apply In_nth_error in At as (j & Hj).
    + destruct (@item_arr x j s variables Lx Hj) as (r & Er & Hr). rewrite (C j s (PNum r) Hj Hr). do 2 f_equal. symmetry. eapply state_left; eauto.
    + destruct (@item_arr theta j s parameters Lt Hj) as (r & Er & Hr). rewrite (D j s (PNum r) Hj Hr). do 2 f_equal. symmetry. eapply state_right; eauto.
  - intros e b l He H. destruct (W e He) as (_ & Z & _). rewrite Z in H. destruct H.
Qed.

Lemma rows_of_concat {A} (m : list (list A)) k : Forall (fun r => length r = k) m -> rows_of (length m) k (List.concat m) = m.
Proof.
  induction 1 as [|r m L F IH]; cbn; auto. subst k. rewrite firstn_app, Nat.sub_diag, firstn_all. cbn. rewrite app_nil_r.
  rewrite skipn_app, skipn_all, Nat.sub_diag. cbn. now rewrite IH.
Qed.

Lemma finish_rows (f : sexpr -> R) rows k : (forall row, In row rows -> length row = k) ->
  rows_of (length rows) (ncols rows) (map f (List.concat rows)) = map (map f) rows.
Proof.
  intros H. rewrite concat_map. destruct rows as [|r rows]; [reflexivity|].
  replace (length (r :: rows)) with (length (map (map f) (r :: rows))) by apply map_length. apply rows_of_concat.
  apply Forall_forall. intros x Hx. apply in_map_iff in Hx as (row & <- & Hr). rewrite map_length. cbn [ncols]. rewrite (H row), (H r); simpl; auto.
Qed.

Lemma concat_singletons {A B} (f : A -> B) l : List.concat (map (map f) (map (fun e => [e]) l)) = map f l.
Proof. induction l as [|a l IH]; [reflexivity|]. cbn. now rewrite IH. Qed.

Lemma no_cse_ok : eliminates no_cse.
Proof.
  intros es. cbn. split; [reflexivity|]. split; [constructor|]. split; [tauto|]. split.
  - intros e s He Hs. apply in_flat_map. eauto.
  - split; [intros e b l He H; apply in_flat_map; eauto|]. split; auto.
Qed.

(** * The number computed is the value of the calculus where it is smooth *)
Lemma rpow_IZR x n : rpow x (IZR n) = powerRZ x n.
Proof.
  unfold rpow. assert (E : Int_part (IZR n) = n).
  { unfold Int_part. assert (U := up_tech (IZR n) n). rewrite <- U; [lia|lra|rewrite plus_IZR; lra]. }
  rewrite E. destruct (Req_EM_T (IZR n) (IZR n)); [reflexivity|congruence].
Qed.
Lemma rpow_pos x y : (0 < x)%R -> rpow x y = Rpower x y.
Proof.
  intros P. unfold rpow. destruct (Req_EM_T y (IZR (Int_part y))) as [E|E]; [|reflexivity]. rewrite E at 2. now apply powerRZ_Rpower.
Qed.
Lemma is_num_some b n : is_num b = Some n -> b = SNum n.
Proof. destruct b; cbn; congruence. Qed.

Lemma numval_val v p e : smooth v p e -> numval v p e = val v p e.
Proof.
  induction e; cbn [numval val]; auto.
  - destruct o; cbn [smooth bin_val]; intros S; try (rewrite IHe1, IHe2 by tauto; reflexivity).
    destruct S as (S1 & S2 & S3). rewrite IHe1, IHe2 by auto. destruct (is_num e2) as [n|] eqn:E.
    + apply is_num_some in E. subst. apply rpow_IZR.
    + now apply rpow_pos.
  - destruct f; cbn [smooth fn_val]; intros S; rewrite IHe by tauto; reflexivity.
Qed.
Lemma numval_agree v v' p p' e : (forall s, In s (atoms e) -> v s = v' s) -> (forall b l, p b l = p' b l) -> numval v p e = numval v' p' e.
Proof.
  intros H P. induction e; cbn [atoms] in H; cbn [numval]; auto.
  - apply H. now left.
  - rewrite IHe1, IHe2; auto; intros; apply H; apply in_app_iff; auto.
  - rewrite IHe; auto.
Qed.
Lemma numval_noix v q q' e : indexed_exprs e = [] -> numval v q e = numval v q' e.
Proof.
  induction e; cbn [indexed_exprs numval]; intros H; try discriminate; auto.
  - apply app_eq_nil in H as (H1 & H2). now rewrite IHe1, IHe2.
  - now rewrite IHe.
Qed.
Lemma numval_sum v p l : numval v p (py_sum l) = rsum (map (numval v p) l).
Proof.
  unfold py_sum. assert (G : forall l a, numval v p (fold_left (SBin OAdd) l a) = (numval v p a + rsum (map (numval v p) l))%R).
  { clear l. induction l as [|e l IH]; intros a; cbn; [lra|]. rewrite IH. cbn. lra. }
  rewrite G. cbn. lra.
Qed.

(** Smoothness holds on an interval *)
Definition near (a : R) (P : R -> Prop) : Prop := exists d, (0 < d)%R /\ forall t, (Rabs (t - a) < d)%R -> P t.
Lemma near_and a P Q : near a P -> near a Q -> near a (fun t => P t /\ Q t).
Proof.
  intros (d & Hd & H) (d' & Hd' & H'). exists (Rmin d d'). split; [now apply Rmin_pos|]. intros t Ht. split.
  - apply H. eapply Rlt_le_trans; [exact Ht|apply Rmin_l]. - apply H'. eapply Rlt_le_trans; [exact Ht|apply Rmin_r].
Qed.
Lemma near_imp a (P Q : R -> Prop) : (forall t, P t -> Q t) -> near a P -> near a Q.
Proof. intros I (d & Hd & H). exists d. split; auto. Qed.
Lemma near_open f a l (P : R -> Prop) : derivable_pt_lim f a l -> (exists e, (0 < e)%R /\ forall y, (Rabs (y - f a) < e)%R -> P y) -> near a (fun t => P (f t)).
Proof.
  intros D (e & He & H). assert (C : continuity_pt f a) by (apply derivable_continuous_pt; now exists l).
  destruct (C e He) as (d & Hd & K). exists d. split; [exact Hd|]. intros t Ht. apply H. destruct (Req_dec t a) as [->|N].
  - rewrite Rminus_diag_eq, Rabs_R0; auto.
  - apply (K t). split; [split; [exact I|congruence]|exact Ht].
Qed.
Lemma set_sym_same v x s : set_sym v x (v x) s = v s.
Proof. unfold set_sym. destruct (String.eqb_spec s x); congruence. Qed.

Lemma smooth_near v p x e : smooth v p e -> near (v x) (fun t => smooth (set_sym v x t) p e).
Proof.
  induction e; intros S; try (exists 1%R; split; [lra|intros; exact I]).
  - assert (VX : forall q, val (set_sym v x (v x)) p q = val v p q) by (intros q; apply val_ext; intros s; apply set_sym_same).
    assert (NZ : forall q, smooth v p q -> val v p q <> 0%R -> near (v x) (fun t => val (set_sym v x t) p q <> 0%R)).
    { intros q Sq Hq. apply (@near_open (fun t => val (set_sym v x t) p q) _ _ (fun y => y <> 0%R) (@deriv_val v p x q Sq)).
      exists (Rabs (val v p q)). split; [now apply Rabs_pos_lt|]. intros y Hy ->. rewrite VX in Hy. rewrite Rminus_0_l, Rabs_Ropp in Hy. lra. }
    assert (PS : forall q, smooth v p q -> (0 < val v p q)%R -> near (v x) (fun t => 0 < val (set_sym v x t) p q)%R).
    { intros q Sq Hq. apply (@near_open (fun t => val (set_sym v x t) p q) _ _ (fun y => 0 < y)%R (@deriv_val v p x q Sq)).
      exists (val v p q). split; [exact Hq|]. intros y Hy. rewrite VX in Hy. apply Rabs_def2 in Hy. lra. }
    destruct o; cbn [smooth] in *.
    1-3: apply near_and; [apply IHe1|apply IHe2]; tauto.
    + destruct S as (S1 & S2 & S3). repeat apply near_and; auto.
    + destruct S as (S1 & S2 & S3). repeat apply near_and; auto. destruct (is_num e2) as [n|].
      * destruct (Z_lt_dec n 0) as [L|L]; [|exists 1%R; split; [lra|intros; tauto]]. eapply near_imp; [|apply (NZ e1 S1), S3, L]. auto.
      * now apply PS.
  - assert (VX : forall q, val (set_sym v x (v x)) p q = val v p q) by (intros q; apply val_ext; intros s; apply set_sym_same).
    destruct f; cbn [smooth] in *; [auto|]. destruct S as (S1 & S2). apply near_and; auto.
    apply (@near_open (fun t => val (set_sym v x t) p e) _ _ (fun y => 0 < y)%R (@deriv_val v p x e S1)).
    exists (val v p e). split; [exact S2|]. intros y Hy. rewrite VX in Hy. apply Rabs_def2 in Hy. lra.
  - destruct S.
Qed.

Lemma deriv_near f g a l : near a (fun t => f t = g t) -> derivable_pt_lim f a l -> derivable_pt_lim g a l.
Proof.
  intros (d & Hd & H) D eps He. destruct (D eps He) as (dl & K). assert (Hm : (0 < Rmin d dl)%R) by (apply Rmin_pos; [exact Hd|apply cond_pos]).
  exists (mkposreal _ Hm). intros h Hh Lh. cbn in Lh. rewrite <- !H.
  - apply K; auto. eapply Rlt_le_trans; [exact Lh|apply Rmin_r].
  - rewrite Rminus_diag_eq, Rabs_R0; auto.
  - replace (a + h - a)%R with h by lra. eapply Rlt_le_trans; [exact Lh|apply Rmin_l].
Qed.

(** The symbolic derivative is the derivative of the computed number *)
Lemma numval_deriv v p x e : smooth v p e -> derivable_pt_lim (fun t => numval (set_sym v x t) p e) (v x) (numval v p (diff x e)).
Proof.
  intros S. rewrite numval_val by now apply smooth_diff. apply deriv_near with (f := fun t => val (set_sym v x t) p e); [|now apply deriv_val].
  eapply near_imp; [|apply smooth_near, S]. intros t Ht. symmetry. now apply numval_val.
Qed.
