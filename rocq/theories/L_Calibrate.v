(** Lemmas for C86 *)
From Coq Require Import Reals Lra.
From Verif Require Import Py PyStr NdArray M_Primitives M_Utilities M_Simulate M_SymExpr M_Calculus M_Lambdify M_Recursive M_Build M_Calibrate.
From Verif Require Import M_Expand S_Reduce S_Recursive S_Calibrate L_Recursive L_Recursive2.
Local Open Scope string_scope.
Local Open Scope list_scope.

Lemma to_float_value v e r : to_float e = Ok r -> value v e = r.
Proof.
  revert r. induction e as [z|s|b l|o a IHa b IHb|f a IHa|o a IHa l]; cbn [to_float value]; intros r H; try discriminate.
  - now injection H as <-.
  - destruct (to_float a) as [x|]; [|discriminate]. destruct (to_float b) as [y|]; [|discriminate]. cbn [bind] in H. injection H as <-.
    rewrite (IHa x eq_refl), (IHb y eq_refl). destruct o; reflexivity.
  - destruct (to_float a) as [x|]; [|discriminate]. cbn [bind] in H. injection H as <-. rewrite (IHa x eq_refl). destruct f; reflexivity.
Qed.
Lemma to_float_constant e r : to_float e = Ok r -> constant e.
Proof.
  unfold constant. revert r. induction e as [z|s|b l|o a IHa b IHb|f a IHa|o a IHa l]; cbn [to_float atoms]; intros r H; try discriminate; auto.
  - destruct (to_float a) as [x|]; [|discriminate]. destruct (to_float b) as [y|]; [|discriminate]. now rewrite (IHa x eq_refl), (IHb y eq_refl).
  - destruct (to_float a) as [x|]; [|discriminate]. now apply (IHa x).
Qed.

(** The vector read from a dictionary *)
Lemma float_array_spec d names xs : float_array d names = Ok xs ->
  Forall2 (fun n x => match dget n d with Some e => exists r, to_float e = Ok r /\ x = Some r | None => x = None end) names xs.
Proof.
  unfold float_array. revert xs. induction names as [|n names IH]; cbn [map_res]; intros xs H; [injection H as <-; constructor|].
  destruct (dget n d) as [e|] eqn:D.
  - destruct (to_float e) as [r|] eqn:F; cbn [bind] in H; [|discriminate]. destruct (map_res _ names) as [ys|]; cbn [bind] in H; [|discriminate].
    injection H as <-. constructor; [rewrite D; eauto|]. now apply IH.
  - cbn [bind] in H. destruct (map_res _ names) as [ys|]; cbn [bind] in H; [|discriminate]. injection H as <-. constructor; [now rewrite D|]. now apply IH.
Qed.
Lemma forall2_length {A B} (P : A -> B -> Prop) l l' : Forall2 P l l' -> length l = length l'.
Proof. induction 1; cbn; auto. Qed.
Lemma combine_keys {V} names : forall xs : list V, length names = length xs -> dkeys (combine names xs) = names.
Proof. induction names as [|n names IH]; intros [|x xs] L; cbn in *; try discriminate; auto. f_equal. apply IH. lia. Qed.
Lemma as_dict {V} names (xs : list V) : NoDup names -> length names = length xs -> dict_of_list (combine names xs) = combine names xs.
Proof. intros N L. apply dict_of_list_NoDup. change (NoDup (dkeys (combine names xs))). now rewrite combine_keys. Qed.
Lemma forall2_get {V} (P : string -> V -> Prop) names xs n : Forall2 P names xs -> In n names -> exists x, dget n (combine names xs) = Some x /\ P n x.
Proof.
  induction 1 as [|m x names xs H F IH]; [intros []|]. intros I. cbn [combine dget]. destruct (String.eqb_spec n m) as [->|N]; [eauto|].
  destruct I as [->|I]; [congruence|]. now apply IH.
Qed.
Lemma get_forall2 {V} (P : string -> V -> Prop) names xs n x : Forall2 P names xs -> dget n (combine names xs) = Some x -> In n names /\ P n x.
Proof.
  induction 1 as [|m y names xs H F IH]; [discriminate|]. cbn [combine dget]. destruct (String.eqb_spec n m) as [->|N]; [|intros G; apply IH in G; cbn; tauto].
  intros G. injection G as ->. cbn. tauto.
Qed.

(** Looking up the data gives the data back *)
Lemma data_symbols m (data : dict sexpr) sd : map_res (fun kv => let* s := get_symbol m (fst kv) in Ok (s, snd kv)) data = Ok sd ->
  sd = data /\ forall k c, In (k, c) data -> In k (cm_variables m ++ cm_parameters m).
Proof.
  revert sd. induction data as [|(k & c) data IH]; cbn [map_res]; intros sd H; [injection H as <-; split; [reflexivity|intros ? ? []]|].
  cbn [fst snd] in H. unfold get_symbol in H at 1.
  assert (K : (In k (cm_variables m ++ cm_parameters m) /\ exists ys, map_res (fun kv => let* s := get_symbol m (fst kv) in Ok (s, snd kv)) data = Ok ys /\ sd = (k, c) :: ys)).
  { destruct (mem_str k (cm_parameters m)) eqn:P; [|destruct (mem_str k (cm_variables m)) eqn:V; [|discriminate]]; cbn [bind] in H;
      destruct (map_res _ data) as [ys|]; cbn [bind] in H; try discriminate; injection H as <-; (split; [|eauto]); apply in_app_iff;
      [right|left]; now apply mem_str_In. }
  destruct K as (I & ys & E & ->). destruct (IH ys E) as (-> & J). split; [reflexivity|]. intros k' c' [Q|Q]; [injection Q as <- <-; auto|eauto].
Qed.

Section Cal.
Context (simplify evalf : sexpr -> sexpr) (solve : sexpr -> string -> list sexpr) (m : calibration_model) (data : dict sexpr) (max_iter : nat) (r : result).
Context (ND : NoDup (dkeys data)) (NN : NoDup (cm_variables m ++ cm_parameters m)).
Context (RUN : calibrate_model simplify evalf solve m (Some data) max_iter = Ok r).
Notation names := (cm_variables m ++ cm_parameters m).
Notation rd := (fun d n x => match dget n d with Some e => exists q, to_float e = Ok q /\ x = Some q | None => x = None end).

Lemma cal_inv : exists cal err,
  (forall k c, In (k, c) data -> In k names) /\
  recursive_solve_symbolic simplify evalf solve (cm_equations m) data max_iter = Ok cal /\
  Forall2 (rd data) names (r_initial r) /\ Forall2 (rd cal) names (r_fitted r) /\
  call_positional (cm_resid m) (firstn (length (cm_variables m)) (r_fitted r)) (skipn (length (cm_variables m)) (r_fitted r)) = Ok err /\
  r_success r = below_tolerance err /\ r_variables r = cm_variables m /\ r_parameters r = cm_parameters m /\
  falsy (cm_compiled m) = false /\ cm_sympy m = true.
Proof.
  unfold calibrate_model in RUN. destruct (falsy (cm_compiled m)) eqn:EF; [discriminate|]. destruct (cm_sympy m) eqn:ES; [|discriminate]. cbn [negb] in RUN.
  destruct (map_res _ data) as [sd|] eqn:E1; cbn [bind] in RUN; [|discriminate]. apply data_symbols in E1 as (-> & I).
  rewrite dict_of_list_NoDup in RUN by exact ND.
  destruct (recursive_solve_symbolic _ _ _ _ _ _) as [cal|] eqn:E2; cbn [bind] in RUN; [|discriminate].
  destruct (float_array data names) as [xi|] eqn:E3; cbn [bind] in RUN; [|discriminate].
  destruct (float_array cal names) as [xf|] eqn:E4; cbn [bind] in RUN; [|discriminate].
  destruct (call_positional _ _ _) as [err|] eqn:E5; cbn [bind] in RUN; [|discriminate].
  injection RUN as <-. cbn [r_initial r_fitted r_success r_variables r_parameters]. exists cal, err. apply float_array_spec in E3, E4. auto 20.
Qed.
Lemma cal_dicts : initial_dict r = combine names (r_initial r) /\ fitted_dict r = combine names (r_fitted r) /\
  length (r_initial r) = length names /\ length (r_fitted r) = length names.
Proof.
  destruct cal_inv as (cal & err & _ & _ & F1 & F2 & _ & _ & V & P & _). unfold initial_dict, fitted_dict. rewrite V, P.
  apply forall2_length in F1, F2. rewrite !as_dict by auto. auto.
Qed.
Lemma cal_split : firstn (length (cm_variables m)) (r_fitted r) ++ skipn (length (cm_variables m)) (r_fitted r) = r_fitted r /\
  length (firstn (length (cm_variables m)) (r_fitted r)) = length (cm_variables m) /\
  length (skipn (length (cm_variables m)) (r_fitted r)) = length (cm_parameters m).
Proof.
  destruct cal_dicts as (_ & _ & _ & L). rewrite app_length in L. rewrite firstn_skipn, firstn_length, skipn_length. repeat split; lia.
Qed.
End Cal.
Arguments cal_inv {simplify evalf solve m data max_iter r}.
Arguments cal_dicts {simplify evalf solve m data max_iter r}.
Arguments cal_split {simplify evalf solve m data max_iter r}.

Lemma c86_result__p :
  forall simplify evalf solve, good_simplify simplify ->
    (forall e, constant e -> constant (evalf e)) ->
    (forall e x r, (forall s, In s (atoms e) <-> s = x) -> In r (solve e x) -> constant r) ->
  forall m data max_iter r,
    NoDup (dkeys data) -> NoDup (cm_variables m ++ cm_parameters m) ->
    calibrate_model simplify evalf solve m (Some data) max_iter = Ok r ->
    dkeys (initial_dict r) = cm_variables m ++ cm_parameters m /\
    dkeys (fitted_dict r) = cm_variables m ++ cm_parameters m /\
    (forall k c v, dget k data = Some c ->
       dget k (initial_dict r) = Some (Some (value v c)) /\ dget k (fitted_dict r) = Some (Some (value v c))) /\
    (forall k, In k (cm_variables m ++ cm_parameters m) -> dget k data = None -> dget k (initial_dict r) = Some None).
Proof.
  intros simplify evalf solve GS GE GC m data max_iter r ND NN RUN.
  destruct (cal_inv ND RUN) as (cal & err & I & R & F1 & F2 & _). destruct (cal_dicts ND NN RUN) as (-> & -> & L1 & L2).
  assert (KC : forall s c, dget s data = Some c -> constant c).
  { intros s c D. assert (J := dget_In _ _ D). apply I in J. destruct (forall2_get _ F1 J) as (x & _ & P). rewrite D in P. destruct P as (q & P & _). eapply to_float_constant, P. }
  destruct (@c51_initial_kept__p simplify evalf solve GS GE GC _ _ _ _ KC R) as (K & _).
  split; [apply combine_keys; auto|]. split; [apply combine_keys; auto|]. split.
  - intros k c v D. assert (J := I _ _ (dget_In _ _ D)). destruct (forall2_get _ F1 J) as (x & G1 & P1). destruct (forall2_get _ F2 J) as (y & G2 & P2).
    rewrite D in P1. rewrite (K _ _ D) in P2. destruct P1 as (q & P1 & ->). destruct P2 as (q' & P2 & ->).
    rewrite G1, G2, (to_float_value v _ P1). split; [reflexivity|]. congruence.
  - intros k J D. destruct (forall2_get _ F1 J) as (x & G1 & P1). rewrite D in P1. now subst.
Qed.

(** ** The success flag *)
Lemma number_dec (d : dict (option R)) s : {exists r, dget s d = Some (Some r)} + {~ exists r, dget s d = Some (Some r)}.
Proof. destruct (dget s d) as [[r|]|]; [left; eauto|right; intros (r & H); discriminate..]. Qed.
Lemma determined_dec d equations : determined d equations \/ ~ determined d equations.
Proof.
  unfold determined. induction equations as [|e equations IH]; [left; intros ? ? []|].
  assert (A : (forall s, In s (atoms e) -> exists r, dget s d = Some (Some r)) \/ ~ forall s, In s (atoms e) -> exists r, dget s d = Some (Some r)).
  { induction (atoms e) as [|s l IHl]; [left; intros ? []|]. destruct (number_dec d s) as [Y|N].
    - destruct IHl as [Y'|N']; [left; intros s' [<-|H]; auto|right; intros H; apply N'; intros; apply H; now right].
    - right. intros H. apply N, H. now left. }
  destruct A as [Y|N]; [|right; intros H; apply N; intros s; apply H; now left]. destruct IH as [Y'|N'].
  - left. intros e' s [<-|H]; eauto.
  - right. intros H. apply N'. intros e' s H1. apply H. now right.
Qed.
(** A valuation that reads a table *)
Definition table (d : dict (option R)) (s : string) : R := match dget s d with Some (Some r) => r | _ => 0%R end.
Lemma reads_table d : reads (table d) d.
Proof. intros s r H. unfold table. now rewrite H. Qed.
Lemma below_iff x : below_tolerance (Some x) = true <-> (x < 1 / 1000000)%R.
Proof. unfold below_tolerance. destruct (Rlt_dec x (1 / 1000000)); split; auto; discriminate. Qed.

Lemma value_ext v w e : (forall s, In s (atoms e) -> v s = w s) -> value v e = value w e.
Proof.
  induction e as [z|s|b l|o a IHa b IHb|f a IHa|o a IHa l]; cbn [value atoms]; intros H; auto.
  - apply H. now left.
  - rewrite IHa, IHb; auto; intros s Hs; apply H, in_app_iff; auto.
  - now rewrite IHa.
Qed.
Lemma squares_ext v w equations : (forall e, In e equations -> value v e = value w e) -> half_squares v equations = half_squares w equations.
Proof.
  unfold half_squares. intros H. f_equal. induction equations as [|e equations IH]; cbn [fold_right]; auto. rewrite (H e) by (now left). f_equal. apply IH. intros. apply H. now right.
Qed.
Lemma squares_nonneg v equations : (0 <= fold_right (fun e a => value v e ^ 2 + a) 0 equations)%R.
Proof. induction equations as [|e equations IH]; cbn [fold_right]; [lra|]. assert (H := pow2_ge_0 (value v e)). lra. Qed.
Lemma one_square v equations e : In e equations -> (value v e ^ 2 <= 2 * half_squares v equations)%R.
Proof.
  unfold half_squares. intros H. induction equations as [|e' equations IH]; [destruct H|]. cbn [fold_right]. assert (G := pow2_ge_0 (value v e')).
  assert (G' := squares_nonneg v equations). destruct H as [->|H]; [lra|]. specialize (IH H). lra.
Qed.

Lemma c86_success__p :
  forall simplify evalf solve m data max_iter r f,
    NoDup (dkeys data) -> NoDup (cm_variables m ++ cm_parameters m) ->
    cm_resid m = Vectors f -> measures f (cm_equations m) (cm_variables m) (cm_parameters m) ->
    calibrate_model simplify evalf solve m (Some data) max_iter = Ok r ->
    (r_success r = true <->
       determined (fitted_dict r) (cm_equations m) /\
       forall v, reads v (fitted_dict r) -> (half_squares v (cm_equations m) < 1 / 1000000)%R) /\
    (r_success r = true -> forall v e, reads v (fitted_dict r) -> In e (cm_equations m) -> (value v e ^ 2 < 2 / 1000000)%R).
Proof.
  intros simplify evalf solve m data max_iter r f ND NN Ef M RUN.
  destruct (cal_inv ND RUN) as (cal & err & I & R & F1 & F2 & E & S & _). destruct (cal_dicts ND NN RUN) as (_ & D & _). destruct (cal_split ND NN RUN) as (A & L1 & L2).
  rewrite Ef in E. cbn [call_positional] in E. specialize (M _ _ L1 L2). cbn zeta in M. rewrite A in M. rewrite <- D in M. destruct M as (M1 & M2).
  assert (T : r_success r = true <-> determined (fitted_dict r) (cm_equations m) /\ forall v, reads v (fitted_dict r) -> (half_squares v (cm_equations m) < 1 / 1000000)%R).
  { rewrite S. destruct (determined_dec (fitted_dict r) (cm_equations m)) as [Y|N].
    - specialize (M1 Y). split.
      + intros B. split; [exact Y|]. intros v V. rewrite (M1 v V) in E. injection E as <-. now apply below_iff.
      + intros (_ & B). assert (V := reads_table (fitted_dict r)). rewrite (M1 _ V) in E. injection E as <-. apply below_iff. now apply B.
    - rewrite (M2 N) in E. injection E as <-. split; [discriminate|tauto]. }
  split; [exact T|]. intros Su v e V H. apply T in Su as (_ & B). specialize (B v V). assert (Q := @one_square v _ e H). lra.
Qed.

Lemma c86_benchmark__p :
  forall simplify evalf solve, good_simplify simplify -> good_evalf evalf ->
  forall m data max_iter r v0,
    NoDup (dkeys data) -> NoDup (cm_variables m ++ cm_parameters m) ->
    agrees v0 data -> (forall e, In e (cm_equations m) -> holds v0 e) ->
    (forall e x, reduced simplify v0 (cm_equations m) e -> (forall s, In s (atoms e) <-> s = x) ->
       exists q rest, solve e x = q :: rest /\ constant q /\ value v0 q = v0 x) ->
    calibrate_model simplify evalf solve m (Some data) max_iter = Ok r ->
    reads v0 (fitted_dict r) /\
    forall f, cm_resid m = Vectors f -> measures f (cm_equations m) (cm_variables m) (cm_parameters m) ->
      determined (fitted_dict r) (cm_equations m) -> r_success r = true.
Proof.
  intros simplify evalf solve GS GE m data max_iter r v0 ND NN A0 H0 SO RUN.
  destruct (cal_inv ND RUN) as (cal & err & I & R & F1 & F2 & E & S & _). destruct (cal_dicts ND NN RUN) as (_ & D & _).
  assert (KC : forall s c, dget s data = Some c -> constant c).
  { intros s c G. assert (J := dget_In _ _ G). apply I in J. destruct (forall2_get _ F1 J) as (x & _ & P). rewrite G in P. destruct P as (q & P & _). eapply to_float_constant, P. }
  destruct (@c51_solution__p simplify evalf solve GS GE _ _ _ v0 KC A0 H0 SO _ R) as (_ & A & _).
  assert (RD : reads v0 (fitted_dict r)).
  { intros s q G. rewrite D in G. destruct (get_forall2 _ F2 G) as (_ & P). destruct (dget s cal) as [e|] eqn:C; [|discriminate].
    destruct P as (q' & P & Q). injection Q as ->. rewrite (A _ _ C). now apply to_float_value. }
  split; [exact RD|]. intros f Ef M Y. apply (@c86_success__p simplify evalf solve m data max_iter r f ND NN Ef M RUN). split; [exact Y|].
  intros v V. rewrite (@squares_ext v v0).
  - unfold half_squares. replace (fold_right _ _ _) with 0%R; [lra|]. induction (cm_equations m) as [|e l IH] in H0 |- *; cbn [fold_right]; auto.
    rewrite <- IH by (intros; apply H0; now right). assert (Z := H0 e (or_introl eq_refl)). unfold holds in Z. rewrite Z. cbn. lra.
  - intros e He. apply value_ext. intros s Hs. destruct (Y e s He Hs) as (q & G). now rewrite (V _ _ G), (RD _ _ G).
Qed.

(** ** Which models can be calibrated *)
Lemma c86_unknown_name__p :
  forall simplify evalf solve m data max_iter k c,
    falsy (cm_compiled m) = false -> cm_sympy m = true -> In (k, c) data -> ~ In k (cm_variables m ++ cm_parameters m) ->
    calibrate_model simplify evalf solve m (Some data) max_iter = Err ValueError.
Proof.
  intros simplify evalf solve m data max_iter k c F S H N. unfold calibrate_model. rewrite F, S. cbn [negb].
  assert (Q : map_res (fun kv => let* s := get_symbol m (fst kv) in Ok (s, snd kv)) data = Err ValueError).
  { induction data as [|(k' & c') data IH]; [destruct H|]. cbn [map_res fst snd].
    destruct (get_symbol m k') as [s|ex] eqn:G; cbn [bind].
    - destruct H as [Q|H]; [injection Q as -> ->|now rewrite (IH H)]. exfalso. apply N. unfold get_symbol in G. apply in_app_iff.
      destruct (mem_str k (cm_parameters m)) eqn:P; [right; now apply mem_str_In|]. destruct (mem_str k (cm_variables m)) eqn:V; [left; now apply mem_str_In|discriminate].
    - unfold get_symbol in G. destruct (mem_str k' _); [discriminate|]. destruct (mem_str k' _); [discriminate|]. now injection G as <-. }
  now rewrite Q.
Qed.

Lemma c86_needs__p :
  forall simplify evalf solve m data max_iter r,
    calibrate_model simplify evalf solve m data max_iter = Ok r ->
    cm_sympy m = true /\ falsy (cm_compiled m) = false /\ data <> None /\
    ((exists f, cm_resid m = Vectors f) \/
     exists n k f, cm_resid m = ByObject [[n]; [k]] f /\ n = length (cm_variables m) /\ k = length (cm_parameters m)).
Proof.
  intros simplify evalf solve m data max_iter r RUN. unfold calibrate_model in RUN.
  destruct (falsy (cm_compiled m)); [discriminate|]. destruct (cm_sympy m); [|discriminate]. cbn [negb] in RUN. destruct data as [data|]; [|discriminate].
  destruct (map_res _ data) as [sd|]; cbn [bind] in RUN; [|discriminate].
  destruct (recursive_solve_symbolic _ _ _ _ _ _) as [cal|]; cbn [bind] in RUN; [|discriminate].
  destruct (float_array data _) as [xi|]; cbn [bind] in RUN; [|discriminate].
  destruct (float_array cal _) as [xf|] eqn:E4; cbn [bind] in RUN; [|discriminate]. apply float_array_spec, forall2_length in E4. rewrite app_length in E4.
  split; [reflexivity|]. split; [reflexivity|]. split; [discriminate|].
  destruct (cm_resid m) as [|f|shapes f|]; cbn [call_positional bind] in RUN; try discriminate; [left; eauto|right].
  destruct shapes as [|[|n []] [|[|k []] []]]; try discriminate.
  destruct (Nat.eqb_spec n (length (firstn (length (cm_variables m)) xf))) as [En|]; [|discriminate].
  destruct (Nat.eqb_spec k (length (skipn (length (cm_variables m)) xf))) as [Ek|]; [|discriminate].
  rewrite firstn_length in En. rewrite skipn_length in Ek. exists n, k, f. repeat split; lia.
Qed.

(** Every scalar object must have its own argument *)
Lemma c86_backend_refuted__p :
  forall simplify evalf solve m data max_iter,
    (exists shapes f, cm_resid m = ByObject shapes f /\ (length shapes <> 2 \/ In [] shapes)) \/ cm_resid m = Keywords \/ cm_resid m = NotCompiled ->
    forall r, calibrate_model simplify evalf solve m data max_iter <> Ok r.
Proof.
  intros simplify evalf solve m data max_iter H r RUN. apply c86_needs__p in RUN as (_ & _ & _ & [(f & E)|(n & k & f & E & _)]).
  - destruct H as [(s & g & E' & _)|[E'|E']]; rewrite E' in E; discriminate.
  - destruct H as [(s & g & E' & L)|[E'|E']]; rewrite E' in E; try discriminate. injection E as -> ->. destruct L as [L|[L|[L|[]]]]; [now apply L|discriminate|discriminate].
Qed.

Lemma c86_nan_refuted__p :
  forall simplify evalf solve, good_simplify simplify ->
  exists m data f, cm_resid m = Vectors f /\ measures f (cm_equations m) (cm_variables m) (cm_parameters m) /\
    forall max_iter, exists r, calibrate_model simplify evalf solve m (Some data) (S max_iter) = Ok r /\ r_success r = true /\
      dget "t" (fitted_dict r) = Some None.
Proof.
  intros simplify evalf solve GS. set (e := SBin OSub (SSym "x") (SNum 1)).
  set (f := fun (x theta : list float) => match x with [Some q] => Ok (Some (1 / 2 * ((q - 1) ^ 2 + 0))%R) | _ => Ok None end).
  exists (MkCal (Some [FStr "minimize"]) true ["e"] [e] ["x"] ["t"] (Vectors f) NotCompiled), [("x", SNum 1)], f.
  split; [reflexivity|]. split.
  - intros x theta Lx Lt. destruct x as [|q [|]]; try discriminate. destruct theta as [|t [|]]; try discriminate. cbn [app combine cm_equations cm_variables cm_parameters]. split.
    + intros Y v V. destruct (Y e "x" (or_introl eq_refl) (or_introl eq_refl)) as (r & G). cbn in G. injection G as ->. unfold f, half_squares. cbn [fold_right]. 
      cbn [value bin_val e]. unfold e. cbn [value bin_val]. rewrite (V "x" r eq_refl). reflexivity.
    + intros N. unfold f. destruct q as [q|]; [|reflexivity]. exfalso. apply N. intros e' s [<-|[]] [<-|[]]. exists q. reflexivity.
  - intros max_iter. unfold calibrate_model. cbn [falsy cm_compiled cm_sympy negb map_res get_symbol fst snd mem_str existsb cm_parameters cm_variables String.eqb Ascii.eqb Bool.eqb orb bind cm_equations dict_of_list dupdate fold_left dset].
    assert (K : recursive_solve_symbolic simplify evalf solve [e] [("x", SNum 1)] (S max_iter) = Ok [("x", SNum 1)]).
    { unfold recursive_solve_symbolic, passes. rewrite one_pass_eq. cbn zeta. cbn [map fold_left].
      assert (F : free_symbols (simplify (fill [("x", SNum 1)] e)) = []).
      { unfold free_symbols. destruct (atoms (simplify (fill [("x", SNum 1)] e))) as [|s l] eqn:A; [reflexivity|]. exfalso.
        assert (H : In s (atoms (simplify (fill [("x", SNum 1)] e)))) by (rewrite A; now left). apply GS in H. destruct H. }
      unfold try_equation. rewrite F. cbn [ps_known ps_found ps_remove filter few]. unfold few. rewrite F. reflexivity. }
    cbn in K. unfold e in *. cbn [bind]. 
    change (dict_of_list [("x", SNum 1)]) with [("x", SNum 1)].
    fold (recursive_solve_symbolic simplify evalf solve [SBin OSub (SSym "x") (SNum 1)] [("x", SNum 1)] (S max_iter)).
    rewrite K. cbn -[IZR below_tolerance]. eexists. split; [reflexivity|]. cbn [r_success]. split; [|reflexivity]. apply below_iff. lra.
Qed.

(** ** Simulating from the result *)
Lemma c86_simulate__p :
  forall vars params r,
    NoDup (r_variables r ++ r_parameters r) -> length (r_fitted r) = length (r_variables r ++ r_parameters r) ->
    ((forall n, In n (map o_name (vars ++ params)) <-> In n (r_variables r ++ r_parameters r)) ->
       exists d, simulate_from vars params r = Ok d /\ dkeys d = r_variables r ++ r_parameters r /\
         forall n x, dget n (fitted_dict r) = Some x -> dget n d = Some (mkArr [] [x])) /\
    (~ (forall n, In n (map o_name (vars ++ params)) <-> In n (r_variables r ++ r_parameters r)) ->
       simulate_from vars params r = Err ValueError).
Proof.
  intros vars params r NN L. unfold simulate_from, fitted_dict. rewrite as_dict by auto.
  set (d := map _ (combine _ _)).
  assert (KD : dkeys d = r_variables r ++ r_parameters r).
  { unfold d, dkeys. rewrite map_map. cbn [fst]. apply (@combine_keys _ (r_variables r ++ r_parameters r) (r_fitted r)). auto. }
  unfold check_initial_state. rewrite KD, <- map_app.
  assert (M : forall n, dmem n d = true <-> In n (r_variables r ++ r_parameters r)) by (intros n; unfold dmem; rewrite KD; apply mem_str_In).
  split.
  - intros H. assert (A : forallb (fun x => dmem x d) (map o_name (vars ++ params)) = true).
    { apply forallb_forall. intros n Hn. now apply M, H. }
    assert (B : existsb (fun x => negb (mem_str x (map o_name (vars ++ params)))) (r_variables r ++ r_parameters r) = false).
    { destruct (existsb _ _) eqn:X; [|reflexivity]. apply existsb_exists in X as (n & Hn & X). apply H, mem_str_In in Hn. rewrite Hn in X. discriminate. }
    rewrite A, B. cbn [negb bind]. exists d. split; [reflexivity|]. split; [exact KD|].
    intros n x G. unfold d. clear - G. revert G. generalize (combine (r_variables r ++ r_parameters r) (r_fitted r)). intros l.
    induction l as [|(k & y) l IH]; [discriminate|]. cbn [dget map fst snd]. destruct (String.eqb n k); [|exact IH]. intros Q. now injection Q as ->.
  - intros H. destruct (forallb (fun x => dmem x d) (map o_name (vars ++ params))) eqn:A; [|reflexivity]. cbn [negb].
    destruct (existsb _ (r_variables r ++ r_parameters r)) eqn:B; [reflexivity|]. exfalso. apply H. intros n. split; intros Hn.
    + rewrite forallb_forall in A. now apply M, A.
    + destruct (mem_str n (map o_name (vars ++ params))) eqn:X; [now apply mem_str_In|]. exfalso.
      assert (Y : existsb (fun x => negb (mem_str x (map o_name (vars ++ params)))) (r_variables r ++ r_parameters r) = true).
      { apply existsb_exists. exists n. split; [exact Hn|]. now rewrite X. }
      congruence.
Qed.

Lemma c86_residuals__p :
  forall simplify evalf solve m data max_iter r f,
    NoDup (dkeys data) -> NoDup (cm_variables m ++ cm_parameters m) -> length (cm_equation_names m) = length (cm_equations m) ->
    cm_system m = Vectors f -> computes f (cm_equations m) (cm_variables m) (cm_parameters m) ->
    calibrate_model simplify evalf solve m (Some data) max_iter = Ok r ->
    determined (fitted_dict r) (cm_equations m) ->
    exists pairs, print_residuals m r = Ok pairs /\ map fst pairs = cm_equation_names m /\
      forall v, reads v (fitted_dict r) -> map snd pairs = map (fun e => Some (value v e)) (cm_equations m).
Proof.
  intros simplify evalf solve m data max_iter r f ND NN LE Ef M RUN Y.
  destruct (cal_dicts ND NN RUN) as (_ & D & _). destruct (cal_split ND NN RUN) as (A & L1 & L2).
  specialize (M _ _ L1 L2). cbn zeta in M. rewrite A, <- D in M. specialize (M Y).
  unfold print_residuals. rewrite Ef. cbn [call_positional].
  rewrite (M _ (reads_table _)). cbn [bind]. eexists. split; [reflexivity|].
  assert (T : forall (a : list string) (b : list float), length a = length b -> map fst (combine a b) = a /\ map snd (combine a b) = b).
  { induction a as [|x a IH]; intros [|y b] Lb; cbn in *; try discriminate; auto. injection Lb as Lb. destruct (IH b Lb) as (-> & ->). auto. }
  destruct (T (cm_equation_names m) (map (fun e => Some (value (table (fitted_dict r)) e)) (cm_equations m))) as (-> & ->); [now rewrite map_length|].
  split; [reflexivity|]. intros v V. apply map_ext_in. intros e He. f_equal. apply value_ext. intros s Hs. destruct (Y e s He Hs) as (q & G).
  now rewrite (V _ _ G), (reads_table _ _ G).
Qed.

Lemma c86_dims_refuted__p :
  forall order c vars params gv gp o r,
    unpack_group order vars c = Ok gv -> unpack_group order params c = Ok gp -> NoDup (dkeys gv ++ dkeys gp) ->
    In o (vars ++ params) -> ~ In (o_name o) (dkeys gv ++ dkeys gp) ->
    r_variables r = dkeys gv -> r_parameters r = dkeys gp -> length (r_fitted r) = length (dkeys gv ++ dkeys gp) ->
    simulate_from vars params r = Err ValueError.
Proof.
  intros order c vars params gv gp o r _ _ NN I N Ev Ep L. rewrite <- Ev, <- Ep in *.
  apply (@c86_simulate__p vars params r NN L). intros H. apply N, H. apply in_map_iff. eauto.
Qed.

(** ** Examples: the functions compiled for given equations *)
Definition numberb (d : dict (option R)) (s : string) : bool := match dget s d with Some (Some _) => true | _ => false end.
Definition determinedb (d : dict (option R)) (equations : list sexpr) : bool := forallb (fun e => forallb (numberb d) (atoms e)) equations.
Lemma determinedb_iff d equations : determinedb d equations = true <-> determined d equations.
Proof.
  unfold determinedb, determined. rewrite forallb_forall. split.
  - intros H e s He Hs. specialize (H e He). rewrite forallb_forall in H. specialize (H s Hs). unfold numberb in H. destruct (dget s d) as [[q|]|]; try discriminate. eauto.
  - intros H e He. apply forallb_forall. intros s Hs. destruct (H e s He Hs) as (q & G). unfold numberb. now rewrite G.
Qed.
Definition loss_of (equations : list sexpr) (vars params : list string) (x theta : list (option R)) : res (option R) :=
  let d := combine (vars ++ params) (x ++ theta) in
  Ok (if determinedb d equations then Some (half_squares (table d) equations) else None).
Definition system_of (equations : list sexpr) (vars params : list string) (x theta : list (option R)) : res (list (option R)) :=
  let d := combine (vars ++ params) (x ++ theta) in
  Ok (map (fun e => if determinedb d [e] then Some (value (table d) e) else None) equations).
Lemma loss_measures equations vars params : measures (loss_of equations vars params) equations vars params.
Proof.
  intros x theta _ _ d. unfold loss_of. fold d. split.
  - intros Y v V. rewrite (proj2 (determinedb_iff _ _) Y). do 2 f_equal. apply squares_ext. intros e He. apply value_ext. intros s Hs.
    destruct (Y e s He Hs) as (q & G). now rewrite (V _ _ G), (reads_table _ _ G).
  - intros N. destruct (determinedb d equations) eqn:B; [|reflexivity]. exfalso. now apply N, determinedb_iff.
Qed.
Lemma system_computes equations vars params : computes (system_of equations vars params) equations vars params.
Proof.
  intros x theta _ _ d Y v V. unfold system_of. fold d. f_equal. apply map_ext_in. intros e He.
  assert (Ye : determined d [e]) by (intros e' s [<-|[]]; apply Y, He). rewrite (proj2 (determinedb_iff _ _) Ye). f_equal. apply value_ext. intros s Hs.
  destruct (Y e s He Hs) as (q & G). now rewrite (V _ _ G), (reads_table _ _ G).
Qed.
