(** Lemmas for C54, C55, C56 and C58: splitting, minimal cost, refutations. *)
From Coq Require Import Ascii Reals Lra Lia ZArith.
From Verif Require Import Py PyStr M_PyExpr S_PyExpr L_PyExpr S_Meaning L_Meaning M_Production S_Production L_Production L_Production2 L_Production3 L_Production4 L_Production5.
Local Open Scope string_scope.
Local Open Scope list_scope.

(** ** C54 *)
Lemma only_axis_find : forall s seen, find_eq seen s = None <-> forall a b, s = (a ++ "=" ++ b)%string -> ends_with "axis" (seen ++ a) = true.
Proof.
  induction s as [|c s IH]; intros seen.
  - split; [|reflexivity]. intros _ a b E. destruct a; discriminate.
  - cbn [find_eq]. destruct (Ascii.eqb_spec c "=") as [->|Nc]; cbn [andb].
    + destruct (ends_with "axis" seen) eqn:Es; cbn [negb].
      * rewrite IH. split; intros H.
        -- intros [|c a] b E; [now rewrite sapp_nil_r|]. injection E as <- E. replace (seen ++ String "=" a)%string with ((seen ++ "=") ++ a)%string by (rewrite sapp_assoc; reflexivity). now apply (H a b).
        -- intros a b E. replace ((seen ++ "=") ++ a)%string with (seen ++ String "=" a)%string by (rewrite sapp_assoc; reflexivity). apply (H (String "=" a) b). now rewrite E.
      * split; [discriminate|]. intros H. specialize (H "" s eq_refl). rewrite sapp_nil_r in H. congruence.
    + rewrite IH. split; intros H.
      * intros [|c' a] b E; [injection E as E _; congruence|]. injection E as <- E. replace (seen ++ String c a)%string with ((seen ++ String c "") ++ a)%string by (rewrite sapp_assoc; reflexivity). now apply (H a b).
      * intros a b E. replace ((seen ++ String c "") ++ a)%string with (seen ++ String c a)%string by (rewrite sapp_assoc; reflexivity). apply (H (String c a) b). now rewrite E.
Qed.
Lemma only_axis_none s : only_axis_eq s <-> find_eq "" s = None.
Proof. rewrite only_axis_find. reflexivity. Qed.

Lemma c54_grammar__p :
  forall (s : string) (e : pexpr), parse s = Some e <-> is_expr s e.
Proof. intros s e. split; [apply parse_sound|apply parse_complete]. Qed.
Lemma c54_difference__p :
  forall (lhs rhs : string) (el er : pexpr), is_expr lhs el -> is_expr rhs er -> only_axis_eq lhs -> ends_with "axis" lhs = false ->
  parse (normalize_eq (lhs ++ "=" ++ rhs)) = Some (EBin Sub el er) /\
  forall rho ix v w, eval rho ix el = Some v -> eval rho ix er = Some w -> meaning rho ix (normalize_eq (lhs ++ "=" ++ rhs)) = Some (v - w)%R.
Proof.
  intros lhs rhs el er L R A X. apply only_axis_none in A.
  assert (E : parse (normalize_eq (lhs ++ "=" ++ rhs)) = Some (EBin Sub el er)) by (apply parse_complete, normalize_expr; assumption).
  split; [exact E|]. intros rho ix v w V W. unfold meaning. rewrite E. cbn [eval]. now rewrite V, W.
Qed.
Lemma c54_unchanged__p :
  forall s : string, only_axis_eq s -> normalize_eq s = s.
Proof. intros s H. apply only_axis_none in H. unfold normalize_eq. now rewrite H. Qed.
(** Every "=" that is not directly preceded by "axis" splits, also that of another
    keyword argument or of axis followed by a space; the result is read as another expression. *)
Lemma c54_keywords_refuted__p :
  exists s e, is_expr s e /\ normalize_eq s <> s /\ parse (normalize_eq s) <> Some e.
Proof.
  exists "X.sum(keepdims=True) - Y", (EBin Sub (ECall (EAttr (EWord "X") "sum") (ECons (EKw "keepdims" (EWord "True")) ENil)) (EWord "Y")).
  split; [|split; vm_compute; discriminate].
  unfold is_expr. change (tokenize "X.sum(keepdims=True) - Y") with ((([Word "X"] ++ [Dot; Word "sum"]) ++ LP :: (Word "keepdims" :: Equal :: [Word "True"]) ++ [RP]) ++ Minus :: [Word "Y"]).
  apply G_sub; [|apply G_factor, G_power, G_prim, G_word]. apply G_term, G_factor, G_power, G_prim, G_call; [apply G_attr, G_word|].
  apply G_one, G_kw, G_term, G_factor, G_power, G_prim, G_word.
Qed.
Lemma c54_spaced_axis_refuted__p :
  exists s e, is_expr s e /\ normalize_eq s <> s /\ parse (normalize_eq s) <> Some e.
Proof.
  exists "X.sum(axis = 0) - Y", (EBin Sub (ECall (EAttr (EWord "X") "sum") (ECons (EKw "axis" (EWord "0")) ENil)) (EWord "Y")).
  split; [|split; vm_compute; discriminate].
  unfold is_expr. change (tokenize "X.sum(axis = 0) - Y") with ((([Word "X"] ++ [Dot; Word "sum"]) ++ LP :: (Word "axis" :: Equal :: [Word "0"]) ++ [RP]) ++ Minus :: [Word "Y"]).
  apply G_sub; [|apply G_factor, G_power, G_prim, G_word]. apply G_term, G_factor, G_power, G_prim, G_call; [apply G_attr, G_word|].
  apply G_one, G_kw, G_term, G_factor, G_power, G_prim, G_word.
Qed.

(** ** C55 *)
(** Every solution with the production function solves the value form. *)
Lemma c55_closures_partial__p :
  forall (rho : valuation) (ix : indices) (l : list factor) (output output_price TFP : string) (y p a : R) production_form value_form,
  l <> [] -> Forall (factor_ok rho ix) l -> (forall f, In f l -> 0 < qty f)%R ->
  unit_val rho ix output y -> no_eq output -> unit_val rho ix output_price p -> no_eq output_price -> unit_val rho ix TFP a ->
  let cd := cobb_douglass (Many (map f_name l)) (Many (map f_price l)) output output_price (Many (map f_share l)) TFP in
  fst (cd false) = Ok production_form -> fst (cd true) = Ok value_form -> (sum_over share l = 1)%R ->
  Forall (holds rho ix) production_form -> Forall (holds rho ix) value_form.
Proof.
  intros rho ix l output output_price TFP y p a pf vf N F Pq Y N1 Pp N2 A cd Ep Ev S H.
  destruct (@c55_meaning__p rho ix l output output_price TFP y p a false N F Pq Y N1 Pp N2 A) as (e1 & E1 & _ & M1).
  destruct (@c55_meaning__p rho ix l output output_price TFP y p a true N F Pq Y N1 Pp N2 A) as (e2 & E2 & _ & M2).
  unfold cd in *. rewrite Ep in E1. rewrite Ev in E2. apply ok_eq in E1, E2. subst e1 e2. apply M1 in H as (_ & D). apply M2. split; [now apply demands_zero_profit|exact D].
Qed.

Definition cd_values : valuation := env [("K", 1%R); ("L", 1%R); ("r", 1%R); ("w", 1%R); ("Y", 2%R); ("P", 1%R); ("A", 1%R); ("a", (1 / 2)%R); ("b", (1 / 2)%R)].

Lemma c55_closures_refuted__p :
  exists rho ix production_form value_form,
    let cd := cobb_douglass (Many ["K"; "L"]) (Many ["r"; "w"]) "Y" "P" (Many ["a"; "b"]) "A" in
    fst (cd false) = Ok production_form /\ fst (cd true) = Ok value_form /\
    (exists a b, rho "a" ix = Some a /\ rho "b" ix = Some b /\ 0 < a /\ 0 < b /\ a + b = 1)%R /\
    (forall v, In v ["K"; "L"; "r"; "w"; "Y"; "P"; "A"] -> exists x, rho v ix = Some x /\ (0 < x)%R) /\
    Forall (holds rho ix) value_form /\ ~ Forall (holds rho ix) production_form.
Proof.
  exists cd_values, (fun _ => 0). eexists _, _. cbn zeta. split; [reflexivity|]. split; [reflexivity|]. split; [|split; [|split]].
  - exists (1 / 2)%R, (1 / 2)%R. repeat split; lra.
  - cbn [In]. intros v H. repeat (destruct H as [<-|H]; [eexists; split; [cbv -[IZR Rdiv Rinv]; reflexivity|lra]|]). destruct H.
  - repeat constructor; compute_parse; eval_eq.
  - intros H. apply Forall_inv in H. revert H. unfold holds, meaning.
    match goal with |- match parse ?s with _ => _ end = _ -> _ => let e := eval vm_compute in (parse s) in replace (parse s) with e by (vm_compute; reflexivity) end.
    cbv -[Rplus Rminus Rmult Rdiv Ropp Rinv IZR Req_EM_T Rlt_dec Rpower]. destruct (Rlt_dec 0 1) as [_|X]; [|exfalso; lra].
    intros H. injection H as H. assert (X : forall r, Rpower 1 r = 1%R) by (intros r; unfold Rpower; now rewrite ln_1, Rmult_0_r, exp_0). rewrite !X in H. lra.
Qed.

(** Nothing that makes as much costs less. *)
Lemma c55_minimises__p :
  forall (rho : valuation) (ix : indices) (l : list factor) (output output_price TFP : string) (y p a : R) eqs,
  l <> [] -> Forall (factor_ok rho ix) l -> (forall f, In f l -> 0 < qty f /\ 0 < share f)%R -> (0 < y /\ 0 < p /\ 0 < a)%R ->
  unit_val rho ix output y -> no_eq output -> unit_val rho ix output_price p -> no_eq output_price -> unit_val rho ix TFP a ->
  fst (cobb_douglass (Many (map f_name l)) (Many (map f_price l)) output output_price (Many (map f_share l)) TFP false) = Ok eqs ->
  Forall (holds rho ix) eqs ->
  forall zs, length zs = length l -> Forall (fun z => 0 < z)%R zs -> (y <= a * prod_with (fun f z => Rpower z (share f)) l zs)%R ->
  (sum_over (fun f => price f * qty f) l <= sum_with (fun f z => price f * z) l zs)%R.
Proof.
  intros rho ix l output output_price TFP y p a eqs N F Pq (Py & Pp0 & Pa) Y N1 Pp N2 A E H zs L Z I.
  destruct (@c55_meaning__p rho ix l output output_price TFP y p a false N F (fun f Hf => proj1 (Pq f Hf)) Y N1 Pp N2 A) as (e1 & E1 & _ & M1).
  rewrite E in E1. apply ok_eq in E1. subst e1. apply M1 in H as (HY & D). clear M1 E.
  rewrite HY in I. apply Rmult_le_reg_l in I; [|exact Pa].
  assert (Ppy : (0 < p * y)%R) by now apply Rmult_lt_0_compat.
  assert (X : forall l zs, length zs = length l -> Forall (fun z => 0 < z)%R zs -> (forall f, In f l -> 0 < qty f /\ 0 < share f /\ 0 < price f)%R ->
     (forall f, In f l -> (price f * qty f = share f * (p * y))%R) ->
     (0 < prod_over (fun f => Rpower (qty f) (share f)) l /\ 0 < prod_with (fun f z => Rpower z (share f)) l zs)%R /\
     (p * y * (ln (prod_with (fun f z => Rpower z (share f)) l zs) - ln (prod_over (fun f => Rpower (qty f) (share f)) l)) <=
      sum_with (fun f z => price f * z) l zs - sum_over (fun f => price f * qty f) l)%R).
  { clear. intros l. induction l as [|f l IH]; intros [|z zs] L Z Pq D; try discriminate.
    - unfold prod_over, prod_with, sum_over, sum_with. cbn. repeat split; lra.
    - injection L as L. inversion Z as [|? ? Z1 Z2]; subst. destruct (Pq f (or_introl eq_refl)) as (Q1 & Q2 & Q3).
      destruct (IH zs L Z2 (fun g G => Pq g (or_intror G)) (fun g G => D g (or_intror G))) as ((P1 & P2) & P3).
      unfold prod_over, prod_with, sum_over, sum_with in *. cbn [combine map fold_right fst snd].
      pose proof (rpower_pos (qty f) (share f)) as R1. pose proof (rpower_pos z (share f)) as R2.
      split; [split; now apply Rmult_lt_0_compat|]. rewrite !ln_mult, !ln_rpower by assumption.
      pose proof (ln_le_minus_1 (Rdiv_lt_0_compat _ _ Z1 Q1)) as T. rewrite ln_div in T by assumption.
      assert (T' : (p * y * (share f * ln z - share f * ln (qty f)) <= price f * z - price f * qty f)%R).
      { replace (p * y * (share f * ln z - share f * ln (qty f)))%R with ((price f * qty f) * (ln z - ln (qty f)))%R by (rewrite (D f (or_introl eq_refl)); ring).
        apply Rle_trans with ((price f * qty f) * (z / qty f - 1))%R; [|right; field; lra].
        apply Rmult_le_compat_l; [apply Rmult_le_pos; lra|exact T]. }
      lra. }
  rewrite Forall_forall in F.
  destruct (X l zs L Z (fun f Hf => conj (proj1 (Pq f Hf)) (conj (proj2 (Pq f Hf)) (proj2 (proj2 (proj2 (proj2 (F f Hf))))))) D) as ((P1 & P2) & P3).
  apply ln_le_mono in I; [|exact P1]. assert (0 <= p * y * (ln (prod_with (fun f z => Rpower z (share f)) l zs) - ln (prod_over (fun f => Rpower (qty f) (share f)) l)))%R
    by (apply Rmult_le_pos; lra). lra.
Qed.

(** ** C56 *)
Lemma c56_minimises__p :
  forall (rho : valuation) (ix : indices) (l : list factor) (output output_price TFP epsilon : string) (y p a e : R) use_value eqs,
  l <> [] -> Forall (factor_ok rho ix) l -> (forall f, In f l -> 0 < qty f /\ 0 < share f)%R -> (0 < y /\ 0 < p /\ 0 < a)%R ->
  unit_val rho ix output y -> no_eq output -> unit_val rho ix output_price p -> no_eq output_price ->
  unit_val rho ix TFP a -> unit_val rho ix epsilon e -> (0 < e)%R -> e <> 1%R ->
  fst (CES (Many (map f_name l)) (Many (map f_price l)) output output_price TFP (Many (map f_share l)) epsilon None use_value) = Ok eqs ->
  Forall (holds rho ix) eqs ->
  forall zs, length zs = length l -> Forall (fun z => 0 < z)%R zs ->
  (y <= a * Rpower (sum_with (fun f z => share f * Rpower z ((e - 1) / e)) l zs) (e / (e - 1)))%R ->
  (sum_over (fun f => price f * qty f) l <= sum_with (fun f z => price f * z) l zs)%R.
Proof.
  intros rho ix l output output_price TFP epsilon y p a e uv eqs N F Pq (Py & Pp & Pa) Y N1 Pv N2 A E E0 E1 Ec H zs L Z I.
  destruct (@c56_equivalent__p rho ix l output output_price TFP epsilon y p a e N F Pq (conj Py (conj Pp Pa)) Y N1 Pv N2 A E ltac:(lra) E1)
    as (value & production & demands & C1 & C2 & D & HV & HP & Eq).
  assert (H' : Forall (holds rho ix) demands /\ holds rho ix production).
  { destruct uv; [rewrite C1 in Ec|rewrite C2 in Ec]; apply ok_eq in Ec; subst eqs; apply Forall_cons_iff in H as (H1 & H2); split; try assumption. now apply (Eq H2). }
  destruct H' as (H1 & H2). pose proof (proj1 D H1) as H1v. clear H1. apply HP in H2. clear D HV HP Eq C1 C2.
  assert (S : forall g, sum_over g l = fold_right Rplus 0%R (map (fun fz => g (fst fz)) (combine l zs))).
  { intros g. clear -L. revert zs L. induction l as [|f l IH]; intros [|z zs] L; try discriminate; [reflexivity|]. injection L as L.
    unfold sum_over in *. cbn [combine map fold_right fst]. now rewrite (IH zs L). }
  rewrite H2 in I. rewrite S. rewrite S in I. unfold sum_with in *.
  rewrite Forall_forall in F, Z.
  refine (@ces_cheapest (factor * R) (fun fz => share (fst fz)) (fun fz => price (fst fz)) (fun fz => qty (fst fz)) snd y p a e (combine l zs) _ E0 E1 Py Pp Pa _ I).
  - destruct l as [|f l]; [congruence|]. destruct zs; [discriminate|]. discriminate.
  - intros (f, z) K. cbn [fst snd]. pose proof (in_combine_l _ _ _ _ K) as K1. pose proof (in_combine_r _ _ _ _ K) as K2.
    destruct (F f K1) as (_ & _ & _ & _ & Q). repeat split; [apply (Pq f K1)|exact Q|now apply Z|now apply H1v].
Qed.

(** ** C58 *)
(** The default call writes a method of arrays into an equation for sympy. *)
Lemma c58_default_refuted__p :
  exists definition demand,
    dixit_stiglitz (One "X") (One "q") "Y" "P" "eps" "i" [("i", ["A"; "B"])] "numba" None None true = Ok (definition, demand) /\
    forall rho ix, ~ holds rho ix definition.
Proof.
  eexists _, _. split; [reflexivity|]. intros rho ix H. revert H. unfold holds, meaning.
  match goal with |- match parse ?s with _ => _ end = _ -> _ => let e := eval vm_compute in (parse s) in replace (parse s) with e by (vm_compute; reflexivity) end.
  cbn [eval lift2]. destruct (match number "Y" with Some n => Some (IZR (Z.of_nat n)) | None => rho "Y" ix end); discriminate.
Qed.

Definition ds_values : valuation := env [("X", (/ 4)%R); ("q", 1%R); ("Y", 1%R); ("P", 2%R); ("eps", 2%R)].
Lemma rpower_2_2 : (Rpower (2 / 1) 2 = 4)%R.
Proof. replace (2 / 1)%R with 2%R by field. change 2%R with (INR 2) at 2. rewrite Rpower_pow by lra. cbn. lra. Qed.

(** Leaving TFP out is not the same as passing one: with relative price 2 and
    elasticity 2, demand is a quarter of output and not four times output. *)
Lemma c58_tfp_refuted__p :
  exists rho ix def1 demand_without def2 demand_with_one,
    let ds TFP := dixit_stiglitz (One "X") (One "q") "Y" "P" "eps" "i" [("i", ["A"])] "numba" TFP None false in
    ds None = Ok (def1, demand_without) /\ ds (Some "1") = Ok (def2, demand_with_one) /\
    (forall v, In v ["X"; "q"; "Y"; "P"; "eps"] -> exists x, rho v ix = Some x /\ (0 < x)%R) /\
    holds rho ix demand_without /\ ~ holds rho ix demand_with_one.
Proof.
  exists ds_values, (fun _ => 0). eexists _, _, _, _. cbn zeta. split; [reflexivity|]. split; [reflexivity|]. split; [|split].
  - cbn [In]. intros v H. repeat (destruct H as [<-|H]; [eexists; split; [cbv -[IZR Rdiv Rinv]; reflexivity|lra]|]). destruct H.
  - compute_parse. cbv -[Rplus Rminus Rmult Rdiv Ropp Rinv IZR Req_EM_T Rlt_dec Rpower]. destruct (Req_EM_T 1 0); [exfalso; lra|].
    destruct (Rlt_dec 0 (2 / 1)) as [_|X]; [|exfalso; apply X; lra]. rewrite rpower_2_2. destruct (Req_EM_T 4 0); [exfalso; lra|]. f_equal. lra.
  - intros H. revert H. unfold holds, meaning.
    match goal with |- match parse ?s with _ => _ end = _ -> _ => let e := eval vm_compute in (parse s) in replace (parse s) with e by (vm_compute; reflexivity) end.
    cbv -[Rplus Rminus Rmult Rdiv Ropp Rinv IZR Req_EM_T Rlt_dec Rpower]. destruct (Req_EM_T 1 0); [exfalso; lra|].
    destruct (Rlt_dec 0 (1 * 2 / 1)) as [_|X]; [|exfalso; apply X; lra]. replace (1 * 2 / 1)%R with (2 / 1)%R by field. rewrite rpower_2_2. intros H. injection H as H. lra.
Qed.
