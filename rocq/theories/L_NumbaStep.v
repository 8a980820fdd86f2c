(** C41. *)
From Coq Require Import Reals Lra.
From Verif Require Import Py PyStr M_SymExpr M_Calculus S_Calculus S_Reduce M_Lambdify S_Lambdify M_NumbaStep L_Reduce L_Reduce5 L_Calculus L_Calculus2 L_Lambdify.
Local Open Scope string_scope.
Local Open Scope list_scope.

(** * Renaming symbols *)
Fixpoint symmap (f : string -> string) (e : sexpr) : sexpr :=
  match e with
  | SNum _ | SIx _ _ => e
  | SSym s => SSym (f s)
  | SBin o a b => SBin o (symmap f a) (symmap f b)
  | SFun g a => SFun g (symmap f a)
  | SRed o a l => SRed o (symmap f a) l
  end.
Lemma symmap_ext f g e : (forall s, In s (atoms e) -> f s = g s) -> symmap f e = symmap g e.
Proof.
  induction e; cbn; intros H; auto.
  - f_equal. apply H. now left.
  - rewrite IHe1, IHe2; auto; intros; apply H; apply in_app_iff; auto.
  - now rewrite IHe.
  - now rewrite IHe.
Qed.
Lemma symmap_comp f g e : symmap g (symmap f e) = symmap (fun s => g (f s)) e.
Proof. induction e; cbn; congruence. Qed.
Lemma symmap_id e : symmap (fun s => s) e = e.
Proof. induction e; cbn; congruence. Qed.
Lemma symmap_nored f e : no_reduction e -> no_reduction (symmap f e).
Proof. induction e; cbn; tauto. Qed.
Lemma is_num_symmap f e : is_num (symmap f e) = is_num e. Proof. now destruct e. Qed.
Lemma val_symmap v p f e : val v p (symmap f e) = val (fun s => v (f s)) p e.
Proof.
  induction e; cbn; auto.
  - destruct o; try now rewrite IHe1, IHe2. rewrite is_num_symmap, IHe1, IHe2. reflexivity.
  - destruct f0; now rewrite IHe.
Qed.
Lemma subs1_sym si a b e : no_reduction e -> subs1 si (SSym a) (SSym b) e = symmap (fun s => if String.eqb s a then b else s) e.
Proof.
  induction e; cbn; intros R; auto; try tauto.
  - destruct (String.eqb s a); auto.
  - destruct R. now rewrite IHe1, IHe2.
  - now rewrite IHe.
Qed.
Lemma diff_nored x e : no_reduction e -> no_reduction (diff x e).
Proof.
  induction e; intros R; try exact I; try now cbn in R.
  - destruct R as (R1 & R2). destruct o; cbn; try tauto. destruct e2; cbn in *; try tauto. destruct (Z.eqb z 0); cbn; tauto.
  - destruct f; cbn in *; auto.
Qed.
Lemma diff_atoms x e s : In s (atoms (diff x e)) -> In s (atoms e).
Proof.
  induction e; try (cbn; tauto).
  - destruct o.
    1-2: cbn [diff atoms]; rewrite !in_app_iff; tauto.
    1-2: cbn [diff atoms]; rewrite !in_app_iff; tauto.
    destruct (is_num e2) eqn:N.
    + destruct e2; try discriminate. rewrite diff_pow_num. destruct (Z.eqb z0 0); cbn [atoms]; rewrite ?in_app_iff; cbn; tauto.
    + rewrite diff_pow_gen by auto. cbn [atoms]. rewrite !in_app_iff. tauto.
  - destruct f; cbn [diff atoms]; rewrite ?in_app_iff; tauto.
Qed.

Section Renaming.
Context (names : list string) (si : sexpr -> list string -> bool) (dord : list (sexpr * sexpr) -> list (sexpr * sexpr)) (DO : walks_set dord).
Context (NC : forall n m, In n names -> In m names -> n <> state_name m).
Definition d0 := map (fun x => (SSym x, SSym (state_name x))) names.

Lemma subs_state e : no_reduction e -> (forall s, In s (atoms e) -> In s names) -> subs si dord d0 e = symmap state_name e.
Proof.
  intros R C. unfold subs. destruct (DO d0) as (_ & W).
  assert (K : forall kv, In kv (dord d0) -> exists n, In n names /\ kv = (SSym n, SSym (state_name n))).
  { intros kv H. apply W in H. apply in_map_iff in H as (n & <- & H). eauto. }
  assert (G : forall l f, (forall kv, In kv l -> exists n, In n names /\ kv = (SSym n, SSym (state_name n))) ->
      (forall s, In s names -> f s = s \/ f s = state_name s) ->
      exists g, fold_left (fun e kv => subs1 si (fst kv) (snd kv) e) l (symmap f e) = symmap g e /\
        (forall s, In s names -> g s = s \/ g s = state_name s) /\
        (forall s, In s names -> f s = state_name s \/ In (SSym s, SSym (state_name s)) l -> g s = state_name s)).
  { induction l as [|kv l IH]; intros f Hl Hf; cbn [fold_left].
    - exists f. split; auto. split; auto. intros s _ [H|[]]; auto.
    - destruct (Hl kv (or_introl eq_refl)) as (n & Hn & ->). cbn [fst snd]. rewrite subs1_sym by now apply symmap_nored. rewrite symmap_comp.
      destruct (IH (fun s => if String.eqb (f s) n then state_name n else f s)) as (g & Eg & G1 & G2).
      + intros kv H. apply Hl. now right.
      + intros s Hs. destruct (Hf s Hs) as [E|E]; rewrite E.
        * destruct (String.eqb_spec s n); subst; auto.
        * destruct (String.eqb_spec (state_name s) n); auto. exfalso. apply (@NC n s Hn Hs). auto.
      + exists g. split; auto. split; auto. intros s Hs H. apply G2; auto. destruct (Hf s Hs) as [E|E].
        * destruct (String.eqb_spec (f s) n) as [Q|Q]; [left; f_equal; congruence|]. destruct H as [H|[H|H]]; auto. exfalso. injection H as H _. congruence.
        * left. rewrite E. destruct (String.eqb_spec (state_name s) n); auto. exfalso. apply (@NC n s Hn Hs). auto. }
  destruct (G (dord d0) (fun s => s) K) as (g & E & _ & G2); auto. rewrite symmap_id in E. rewrite E. apply symmap_ext. intros s Hs. apply G2; auto. right.
  apply W. apply in_map_iff. exists s. auto.
Qed.
End Renaming.

Fixpoint last_char (s : string) : option ascii :=
  match s with EmptyString => None | String c EmptyString => Some c | String _ s' => last_char s' end.
Lemma last_state n : last_char (state_name n) = Some "0"%char.
Proof.
  unfold state_name. induction n as [|c n IH]; [reflexivity|]. cbn [String.append last_char]. destruct (n ++ "_0")%string eqn:E; [destruct n; discriminate|]. exact IH.
Qed.
Lemma state_inj n m : state_name n = state_name m -> n = m.
Proof.
  unfold state_name. revert m. induction n as [|c n IH]; intros [|d m] H; cbn in H; auto.
  - exfalso. injection H as _ H. destruct m as [|e m]; cbn in H; [discriminate|]. injection H as _ H. destruct m; discriminate.
  - exfalso. injection H as _ H. destruct n as [|e n]; cbn in H; [discriminate|]. injection H as _ H. destruct n; discriminate.
  - injection H as -> H. f_equal. now apply IH.
Qed.

Lemma is_name_state n : is_name n = true -> is_name (state_name n) = true.
Proof.
  unfold is_name. intros H. apply andb_true_iff in H as (H & _). destruct n as [|c n]; [discriminate|].
  apply andb_true_iff in H as (Hc & Hn). apply andb_true_iff. split.
  - unfold state_name. cbn [String.append]. rewrite Hc. cbn [andb]. clear -Hn. induction n as [|d n IH]; [reflexivity|].
    cbn [list_ascii_of_string forallb String.append] in *. apply andb_true_iff in Hn as (-> & Hn). cbn [andb]. auto.
  - destruct (mem_str (state_name (String c n)) keywords) eqn:E; [|reflexivity]. exfalso. apply mem_str_In in E.
    assert (L := last_state (String c n)). unfold keywords in E. simpl in E.
    repeat destruct E as [E|E]; try (rewrite <- E in L; cbn in L; discriminate). destruct E.
Qed.

Lemma lambdify_ok cse names params t xs step : eliminates cse -> NoDup names -> NoDup params ->
  (forall n m, In n params -> In m names -> n <> state_name m) ->
  (forall n, In n params -> ~ In n reserved) -> (forall n, In n (names ++ params) -> is_name n = true) ->
  length step = length params -> length xs = length names ->
  (forall e, In e (cells t) -> no_reduction e /\ indexed_exprs e = [] /\ forall s, In s (atoms e) -> In s params \/ exists m, s = state_name m /\ In m names) ->
  exists f v, numba_lambdify cse params t (map state_name names) false = Ok f /\
    f (PArr step) (PArr xs) = Ok (finish t false (map (numval v (fun _ _ => 0%R)) (cells t))) /\
    (forall s, In s names -> v (state_name s) = state_of names xs s) /\
    (forall s, In s params -> v s = state_of params step s).
Proof.
  intros EL N Np C Res NM L1 L2 W.
  assert (NS : forall s, In s (map state_name names) -> exists m, s = state_name m /\ In m names).
  { intros s H. apply in_map_iff in H as (m & <- & H). eauto. }
  assert (RS : forall m, ~ In (state_name m) reserved).
  { intros m H. assert (Q := last_state m). simpl in H. repeat destruct H as [H|H]; try (rewrite <- H in Q; discriminate). destruct H. }
  assert (N2 : NoDup (params ++ map state_name names)).
  { apply NoDup_app; auto.
    - apply FinFun.Injective_map_NoDup; auto. intros a b. apply state_inj.
    - intros s Hs Hs'. apply NS in Hs' as (m & -> & Hm). now apply (@C (state_name m) m Hs Hm). }
  assert (V1 : forall s, In s names -> state_of (params ++ map state_name names) (step ++ xs) (state_name s) = state_of names xs s).
  { intros s Hs. apply In_nth_error in Hs as (j & Hj). destruct (@item_arr xs j s names L2 Hj) as (r & Er & _).
    rewrite (@state_right params (map state_name names) step xs j (state_name s) r); auto.
    - unfold state_of. now rewrite (@dget_combine names xs j s r N Hj Er).
    - now rewrite nth_error_map, Hj. }
  assert (V2 : forall s, In s params -> state_of (params ++ map state_name names) (step ++ xs) s = state_of params step s).
  { intros s Hs. apply In_nth_error in Hs as (j & Hj). destruct (@item_arr step j s params L1 Hj) as (r & Er & _).
    rewrite (@state_left params (map state_name names) step xs j s r); auto.
    unfold state_of. now rewrite (@dget_combine params step j s r Np Hj Er). }
  destruct (@lambdify_flat cse params (map state_name names) t false) as (f & Ef & E); auto.
  - intros n Hn. apply in_app_or in Hn as [Hn|Hn].
    + split; [apply NM, in_or_app; auto|now apply Res].
    + apply NS in Hn as (m & -> & Hm). split; [|apply RS]. apply is_name_state, NM, in_or_app. auto.
  - intros e He. destruct (W e He) as (A & B & D). split; auto. split; auto. intros s Hs. apply in_or_app.
    destruct (D s Hs) as [H|(m & -> & H)]; auto. right. now apply in_map.
  - exists f, (state_of (params ++ map state_name names) (step ++ xs)). split; [exact Ef|]. split; [|split; auto].
    apply E; auto. now rewrite map_length.
Qed.

Lemma val_agree v v' p p' e : (forall s, In s (atoms e) -> v s = v' s) -> (forall b l, p b l = p' b l) -> val v p e = val v' p' e.
Proof.
  intros H P. induction e; cbn [atoms] in H; cbn [val]; auto.
  - apply H. now left.
  - rewrite IHe1, IHe2; auto; intros; apply H; apply in_app_iff; auto.
  - rewrite IHe; auto.
Qed.

Lemma numval_symmap v p f e : numval v p (symmap f e) = numval (fun s => v (f s)) p e.
Proof. induction e; cbn; auto; [now rewrite IHe1, IHe2|now rewrite IHe]. Qed.

Lemma step_diff :
  forall sub_into dict_order cse linalg_solve, walks_set dict_order -> eliminates cse ->
  forall variables parameters equations xs thetas step,
    let names := variables ++ parameters in
    NoDup names ->
    (forall n m, In n names -> In m names -> n <> (m ++ "_0")%string) ->
    (forall n, In n names -> is_name n = true) -> (forall n, In n parameters -> ~ In n reserved) ->
    equations <> [] -> variables <> [] ->
    (forall e, In e equations -> no_reduction e /\ indexed_exprs e = [] /\ forall s, In s (atoms e) -> In s names) ->
    length xs = length variables -> length thetas = length parameters -> length step = length parameters ->
    forall p,
    let D x e := numval (state_of names (xs ++ thetas)) p (diff x e) in
    f_dX sub_into dict_order cse linalg_solve variables parameters equations step (xs ++ thetas) =
      Ok (map Ropp (linalg_solve
            (map (fun e => map (fun x => D x e) variables) equations)
            (map (fun e => rsum (map (fun jx => D (fst jx) e * snd jx)%R (combine parameters step))) equations))).
Proof.
  intros si dor cse solve DO EL variables parameters equations xs thetas step names N NC NM Res NE NV EQ L1 L2 L3 p D.
  unfold f_dX. assert (J : make_sympy_jacobian (SysList equations) variables = Ok (map (fun e => map (fun x => diff x e) variables) equations)).
  { destruct equations; [tauto|]. destruct variables; [tauto|]. reflexivity. }
  rewrite J. cbn [bind]. fold names. change (map (fun x => (SSym x, SSym (state_name x))) names) with (d0 names).
  assert (Np : NoDup parameters) by (unfold names in N; clear - N; induction variables; cbn in N; [auto|inversion N; auto]).
  assert (SB : forall e x, In e equations -> subs si dor (d0 names) (diff x e) = symmap state_name (diff x e)).
  { intros e x He. destruct (EQ e He) as (R & _ & C). apply subs_state; auto.
    - now apply diff_nored. - intros s Hs. apply C. now apply diff_atoms in Hs. }
  assert (PC : forall n m, In n parameters -> In m names -> n <> state_name m).
  { intros n m Hn Hm. apply NC; auto. unfold names. apply in_app_iff. auto. }
  assert (LX : length (xs ++ thetas) = length names) by (unfold names; rewrite !app_length; congruence).
  assert (NI : forall x e, In e equations -> indexed_exprs (diff x e) = []).
  { intros x e He. destruct (EQ e He) as (_ & I & _). clear - I. induction e; try reflexivity; try discriminate.
    - cbn [indexed_exprs] in I. apply app_eq_nil in I as (I1 & I2). destruct o.
      1-4: cbn [diff indexed_exprs]; rewrite ?IHe1, ?IHe2, ?I1, ?I2 by auto; reflexivity.
      destruct (is_num e2) eqn:Q.
      + destruct e2; try discriminate. rewrite diff_pow_num. destruct (Z.eqb z0 0); [reflexivity|]. cbn [indexed_exprs]. rewrite ?IHe1, ?I1 by auto. reflexivity.
      + rewrite diff_pow_gen by auto. cbn [indexed_exprs]. rewrite ?IHe1, ?IHe2, ?I1, ?I2 by auto. reflexivity.
    - cbn [indexed_exprs] in I. destruct f; cbn [diff indexed_exprs]; rewrite ?IHe, ?I by auto; reflexivity.
    - cbn [indexed_exprs] in *. now apply IHe. }
  assert (VP : forall v q q' e, indexed_exprs e = [] -> numval v q e = numval v q' e).
  { clear. intros v q q' e. induction e; cbn; intros I; auto; try discriminate.
    - apply app_eq_nil in I as (I1 & I2). now rewrite IHe1, IHe2.
    - now rewrite IHe. }
  set (As := map (map (subs si dor (d0 names))) (map (fun e => map (fun x => diff x e) variables) equations)).
  set (Bv := map (fun row => py_sum (map (fun ex => SBin OMul (fst ex) (SSym (snd ex))) (combine (map (subs si dor (d0 names)) row) parameters)))
                 (map (fun eq => map (fun x => diff x eq) parameters) equations)).
  assert (NM' : forall n, In n (names ++ parameters) -> is_name n = true).
  { intros n Hn. apply NM. apply in_app_or in Hn as [Hn|Hn]; auto. unfold names. apply in_or_app. auto. }
  assert (IS : forall f e, indexed_exprs (symmap f e) = indexed_exprs e) by (clear; induction e; cbn; congruence).
  assert (AS : forall f e s, In s (atoms (symmap f e)) -> exists m, s = f m /\ In m (atoms e)).
  { clear. induction e; cbn; intros s' H; try tauto.
    - destruct H as [<-|[]]. eauto.
    - apply in_app_or in H as [H|H]; [destruct (IHe1 _ H) as (m & A & B)|destruct (IHe2 _ H) as (m & A & B)]; exists m; split; auto; apply in_or_app; auto.
    - auto.
    - auto. }
  assert (WA : forall e x, In e equations -> no_reduction (subs si dor (d0 names) (diff x e)) /\ indexed_exprs (subs si dor (d0 names) (diff x e)) = [] /\
     forall s, In s (atoms (subs si dor (d0 names) (diff x e))) -> exists m, s = state_name m /\ In m names).
  { intros e x He. rewrite SB by auto. destruct (EQ e He) as (R & _ & C). split; [apply symmap_nored; now apply diff_nored|]. split; [rewrite IS; now apply NI|].
    intros s Hs. apply AS in Hs as (m & -> & Hm). exists m. split; auto. apply C. now apply diff_atoms in Hm. }
  destruct (@lambdify_ok cse names parameters (TMat As) (xs ++ thetas) step EL N Np PC Res NM' L3 LX) as (fA & env & EA & RA & V1 & V2).
  { intros e He. cbn [cells] in He. unfold As in He. apply in_concat in He as (row & Hr & He). apply in_map_iff in Hr as (row' & <- & Hr).
    apply in_map_iff in Hr as (eq & <- & Heq). rewrite map_map in He. apply in_map_iff in He as (x & <- & Hx).
    destruct (WA eq x Heq) as (A & B & C). split; auto. }
  destruct (@lambdify_ok cse names parameters (TMat (map (fun e => [e]) Bv)) (xs ++ thetas) step EL N Np PC Res NM' L3 LX) as (fB & env' & EB & RB & V1' & V2').
  { intros e He. cbn [cells] in He. apply in_concat in He as (row & Hr & He). apply in_map_iff in Hr as (e' & <- & Hr). destruct He as [<-|[]].
    unfold Bv in Hr. apply in_map_iff in Hr as (row & <- & Hr). apply in_map_iff in Hr as (eq & <- & Heq).
    assert (G : forall l, (forall a, In a l -> no_reduction a /\ indexed_exprs a = [] /\ forall s, In s (atoms a) -> In s parameters \/ exists m, s = state_name m /\ In m names) ->
      no_reduction (py_sum l) /\ indexed_exprs (py_sum l) = [] /\ forall s, In s (atoms (py_sum l)) -> In s parameters \/ exists m, s = state_name m /\ In m names).
    { unfold py_sum. assert (G : forall l b, (forall a, In a (b :: l) -> no_reduction a /\ indexed_exprs a = [] /\ forall s, In s (atoms a) -> In s parameters \/ exists m, s = state_name m /\ In m names) ->
        no_reduction (fold_left (SBin OAdd) l b) /\ indexed_exprs (fold_left (SBin OAdd) l b) = [] /\ forall s, In s (atoms (fold_left (SBin OAdd) l b)) -> In s parameters \/ exists m, s = state_name m /\ In m names).
      { induction l as [|a l IH]; intros b H; cbn [fold_left]; [apply H; simpl; auto|]. apply IH. intros c [<-|Hc]; [|apply H; simpl; auto].
        destruct (H b) as (B1 & B2 & B3); [simpl; auto|]. destruct (H a) as (C1 & C2 & C3); [simpl; auto|].
        cbn. rewrite B2, C2. split; auto. split; auto. intros s Hs. apply in_app_or in Hs as [Hs|Hs]; auto. }
      intros l H. apply G. intros a [<-|Ha]; [|now apply H]. split; [exact I|]. split; [reflexivity|]. intros s []. }
    apply G. intros a Ha. apply in_map_iff in Ha as ((d & q) & <- & Hd). cbn [fst snd].
    rewrite map_map in Hd. assert (Hq := in_combine_r _ _ _ _ Hd). apply in_combine_l in Hd. apply in_map_iff in Hd as (x & <- & Hx).
    destruct (WA eq x Heq) as (A & B & C). cbn. rewrite B. split; auto. split; auto. intros s Hs. apply in_app_or in Hs as [Hs|[<-|[]]]; auto. }
  match goal with |- context [numba_lambdify cse parameters (TMat (map (fun e => [e]) ?b))] => change b with Bv end.
  rewrite EA. cbn [bind]. rewrite EB. cbn [bind]. rewrite RA. cbn [bind]. rewrite RB. cbn [bind finish].
  assert (VD : forall en, (forall s, In s names -> en (state_name s) = state_of names (xs ++ thetas) s) -> forall e x, In e equations ->
    numval en (fun _ _ => 0%R) (symmap state_name (diff x e)) = D x e).
  { intros en V e x He. rewrite numval_symmap. unfold D. rewrite (VP _ _ p) by now apply NI. apply numval_agree; auto. intros s Hs. apply V.
    destruct (EQ e He) as (_ & _ & C). apply C. now apply diff_atoms in Hs. }
  do 3 f_equal.
  - cbn [cells]. rewrite finish_rows with (k := length variables).
    + unfold As. rewrite !map_map. apply map_ext_in. intros e He. rewrite !map_map. apply map_ext. intros x. rewrite SB by auto. now apply VD.
    + intros row Hr. unfold As in Hr. apply in_map_iff in Hr as (row' & <- & Hr). apply in_map_iff in Hr as (e & <- & _). now rewrite !map_length.
  - cbn [cells ravel]. rewrite finish_rows with (k := 1) by (intros row Hr; apply in_map_iff in Hr as (e & <- & _); reflexivity).
    rewrite concat_singletons. unfold Bv. rewrite !map_map. apply map_ext_in. intros e He. rewrite numval_sum. f_equal. rewrite !map_map.
    assert (G : forall ps st, (forall s, In s ps -> In s parameters) -> (forall j s r, nth_error ps j = Some s -> nth_error st j = Some r -> env' s = r) -> length st = length ps ->
      map (fun x => numval env' (fun _ _ => 0%R) (SBin OMul (fst x) (SSym (snd x)))) (combine (map (fun x => subs si dor (d0 names) (diff x e)) ps) ps) =
      map (fun jx => (D (fst jx) e * snd jx)%R) (combine ps st)).
    { induction ps as [|q ps IH]; intros [|r st] Sub Vs Le; cbn in Le; try discriminate; auto. cbn [map combine fst snd]. f_equal.
      - cbn [numval bin_val]. rewrite SB by auto. rewrite VD by auto. f_equal. now apply (Vs 0).
      - apply IH; auto. + intros s Hs. apply Sub. now right. + intros j s r' H1 H2. now apply (Vs (S j)). }
    apply G; auto. intros j s r Hj Hr. rewrite V2' by (eapply nth_error_In; eauto). unfold state_of. now rewrite (@dget_combine parameters step j s r Np Hj Hr).
Qed.

Lemma c41_step__p :
  forall sub_into dict_order cse linalg_solve, walks_set dict_order -> eliminates cse ->
  forall variables parameters equations xs thetas step,
    let names := variables ++ parameters in
    let state := state_of names (xs ++ thetas) in
    NoDup names ->
    (forall n m, In n names -> In m names -> n <> (m ++ "_0")%string) ->
    (forall n, In n names -> is_name n = true) -> (forall n, In n parameters -> ~ In n reserved) ->
    equations <> [] -> variables <> [] ->
    (forall e, In e equations -> indexed_exprs e = [] /\ forall s, In s (atoms e) -> In s names) ->
    length xs = length variables -> length thetas = length parameters -> length step = length parameters ->
    forall p D,
    (forall e, In e equations -> smooth state p e) ->
    (forall e x, In e equations -> In x names -> partial_derivative state p x e (D x e)) ->
    f_dX sub_into dict_order cse linalg_solve variables parameters equations step (xs ++ thetas) =
      Ok (map Ropp (linalg_solve
            (map (fun e => map (fun x => D x e) variables) equations)
            (map (fun e => rsum (map (fun jx => D (fst jx) e * snd jx)%R (combine parameters step))) equations))).
Proof.
  intros si dor cse solve DO EL variables parameters equations xs thetas step names state N NC NM Res NE NV EQ L1 L2 L3 p D SM PD.
  assert (Sm : forall v q e, smooth v q e -> no_reduction e).
  { clear. induction e; cbn; auto; try tauto.
    - destruct o; tauto.
    - destruct f; tauto. }
  assert (DD : forall e x, In e equations -> In x names -> D x e = numval state p (diff x e)).
  { intros e x He Hx. eapply uniqueness_limite; [apply PD; auto|]. rewrite numval_val by (apply smooth_diff; now apply SM). apply deriv_val. now apply SM. }
  rewrite (@step_diff si dor cse solve DO EL variables parameters equations xs thetas step N NC NM Res NE NV) with (p := p); auto.
  - do 3 f_equal.
    + apply map_ext_in. intros e He. apply map_ext_in. intros x Hx. symmetry. apply DD; auto. unfold names. apply in_app_iff. auto.
    + apply map_ext_in. intros e He. f_equal. apply map_ext_in. intros (x & r) Hx. apply in_combine_l in Hx. cbn. rewrite DD; auto. unfold names. apply in_app_iff. auto.
  - intros e He. destruct (EQ e He). split; [|auto]. eapply Sm. now apply SM.
Qed.

(** A parameter called like the state symbol of a variable *)
Lemma closed_subs si l e : atoms e = [] -> no_reduction e -> (forall kv, In kv l -> exists n m, kv = (SSym n, SSym m)) ->
  fold_left (fun e kv => subs1 si (fst kv) (snd kv) e) l e = e.
Proof.
  intros A R K. induction l as [|kv l IH]; cbn; auto. destruct (K kv (or_introl eq_refl)) as (n & m & ->). cbn [fst snd]. rewrite subs1_sym by auto.
  replace (symmap (fun s => if String.eqb s n then m else s) e) with e; [apply IH; intros; apply K; now right|].
  rewrite <- (symmap_id e) at 1. apply symmap_ext. rewrite A. intros s [].
Qed.

Lemma c41_name_capture_refuted__p :
  exists variables parameters equations, NoDup (variables ++ parameters) /\
    (forall e, In e equations -> forall s, In s (atoms e) -> In s (variables ++ parameters)) /\
    forall sub_into dict_order cse linalg_solve, walks_set dict_order -> eliminates cse ->
    forall x theta step : R,
      f_dX sub_into dict_order cse linalg_solve variables parameters equations [step] [x; theta] = Ok (map Ropp (linalg_solve [[1%R]] [(- x)%R])) /\
      (forall v p, val v p (diff "X" (nth 0 equations (SNum 0))) = 1%R /\ (val v p (diff "X_0" (nth 0 equations (SNum 0))) * step)%R = (- step)%R).
Proof.
  exists ["X"], ["X_0"], [SBin OSub (SSym "X") (SSym "X_0")]. split; [repeat constructor; cbn; intuition discriminate|]. split.
  { intros e [<-|[]] s H. exact H. }
  intros si dor cse solve DO EL x theta step. split.
  - unfold f_dX. cbn [make_sympy_jacobian as_vector bind map app diff String.eqb Ascii.eqb Bool.eqb].
    assert (Z : forall e, atoms e = [] -> no_reduction e -> subs si dor [(SSym "X", SSym (state_name "X")); (SSym "X_0", SSym (state_name "X_0"))] e = e).
    { intros e A R. unfold subs. match goal with |- context [dor ?l] => destruct (DO l) as (_ & W) end. apply closed_subs; auto. intros kv H. apply W in H. destruct H as [<-|[<-|[]]]; eauto. }
    rewrite !Z by (cbn; tauto). cbn [combine map fst snd].
    assert (NM : forall n, In n (["X_0"] ++ ["X_0"; "X_0_0"]) -> is_name n = true /\ n <> "np" /\ n <> "len").
    { intros n Hn. simpl in Hn. repeat destruct Hn as [<-|Hn]; try (split; [reflexivity|split; discriminate]). destruct Hn. }
    match goal with |- context [numba_lambdify cse ["X_0"] (TMat [[?a]]) _ false] =>
      destruct (@lambdify_run cse ["X_0"] (TMat [[a]]) ["X_0"; "X_0_0"] false EL NM) as (fA & EA & RA); [repeat constructor|] end.
    match goal with |- context [TMat [[py_sum ?b]]] =>
      destruct (@lambdify_run cse ["X_0"] (TMat [[py_sum b]]) ["X_0"; "X_0_0"] false EL NM) as (fB & EB & RB); [repeat constructor|] end.
    change [state_name "X"; state_name "X_0"] with ["X_0"; "X_0_0"]. rewrite EA. cbn [bind]. rewrite EB. cbn [bind].
    set (env1 := [("exog_inputs", PArr [step]); ("endog_inputs", PArr [x; theta]); ("X_0", PNum step)]).
    set (env := [("exog_inputs", PArr [step]); ("endog_inputs", PArr [x; theta]); ("X_0", PNum x); ("X_0_0", PNum theta)]).
    rewrite (RA (PArr [step]) (PArr [x; theta]) env1 env (fun _ => x) (fun _ _ => 0%R)); try reflexivity.
    + rewrite (RB (PArr [step]) (PArr [x; theta]) env1 env (fun _ => x) (fun _ _ => 0%R)); try reflexivity.
      * cbn. f_equal. f_equal. f_equal; f_equal; [f_equal; lra|lra].
      * intros e s [<-|[]] [<-|[]]. reflexivity.
      * intros e b l [<-|[]] [].
    + intros e s [<-|[]] [].
    + intros e b l [<-|[]] [].
  - intros v p. cbn. split; lra.
Qed.

(** A parameter called like the argument of the generated function *)
Lemma c41_reserved_name_refuted__p :
  exists variables parameters equations, NoDup (variables ++ parameters) /\
    (forall e, In e equations -> forall s, In s (atoms e) -> In s (variables ++ parameters)) /\
    forall sub_into dict_order cse linalg_solve (x t1 t2 s1 s2 : R), eliminates cse ->
      f_dX sub_into dict_order cse linalg_solve variables parameters equations [s1; s2] [x; t1; t2] = Err TypeError.
Proof.
  exists ["X"], ["exog_inputs"; "b"], [SBin OSub (SSym "X") (SBin OAdd (SSym "exog_inputs") (SSym "b"))]. split; [repeat constructor; cbn; intuition discriminate|]. split.
  { intros e [<-|[]] s H. exact H. }
  intros si dor cse solve x t1 t2 s1 s2 EL. unfold f_dX.
  cbn [make_sympy_jacobian as_vector bind map app].
  assert (NM : forall n, In n (["exog_inputs"; "b"] ++ map state_name ["X"; "exog_inputs"; "b"]) -> is_name n = true /\ n <> "np" /\ n <> "len").
  { intros n Hn. simpl in Hn. repeat destruct Hn as [<-|Hn]; try (split; [reflexivity|split; discriminate]). destruct Hn. }
  destruct (@lambdify_compiles cse ["exog_inputs"; "b"] (TMat (map (map (subs si dor (map (fun x => (SSym x, SSym (state_name x))) ["X"; "exog_inputs"; "b"])))
     [[diff "X" (SBin OSub (SSym "X") (SBin OAdd (SSym "exog_inputs") (SSym "b")))]])) (map state_name ["X"; "exog_inputs"; "b"]) false EL NM) as (fA & EA & RA).
  cbn [map] in EA. cbn [map]. rewrite EA. cbn [bind].
  match goal with |- context [numba_lambdify cse _ ?t _ false] => destruct (@lambdify_compiles cse ["exog_inputs"; "b"] t (map state_name ["X"; "exog_inputs"; "b"]) false EL NM) as (fB & EB & _) end.
  cbn [map] in EB. rewrite EB. cbn [bind]. rewrite (RA (PArr [s1; s2]) (PArr [x; t1; t2]) TypeError); reflexivity.
Qed.
