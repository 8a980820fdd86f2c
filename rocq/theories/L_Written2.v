(** C110: the equations the production functions generate are equations of the
    notation. *)
From Coq Require Import Ascii Reals Lra Lia ZArith.
From Verif Require Import Py PyStr NdArray M_Primitives M_PyExpr M_Production M_Parse.
From Verif Require Import S_PyExpr S_Meaning S_Production S_Layout S_Tensor S_Parse S_Written.
From Verif Require Import L_PyExpr L_Meaning L_Production L_Production2 L_Production3 L_Production4 L_Production5 L_Parse L_Written.
Local Open Scope string_scope.
Local Open Scope list_scope.

(** ** One sign "=" *)
Lemma contains_split s : contains_char "=" s = true -> exists a b, s = (a ++ "=" ++ b)%string /\ contains_char "=" a = false.
Proof.
  induction s as [|ch s IH]; [discriminate|]. cbn [contains_char]. destruct (Ascii.eqb ch "=") eqn:E.
  - intros _. apply Ascii.eqb_eq in E. subst. exists "", s. auto.
  - cbn. intros H. destruct (IH H) as (a & b & -> & N). exists (String ch a), b. split; [reflexivity|]. cbn [contains_char]. now rewrite E.
Qed.
Lemma contains_no a : contains_char "=" a = false -> forall x y, a <> (x ++ "=" ++ y)%string.
Proof. intros H x y ->. rewrite !contains_char_app in H. cbn in H. now rewrite orb_true_r in H. Qed.
Lemma no_contains a : (forall x y, a <> (x ++ "=" ++ y)%string) -> contains_char "=" a = false.
Proof. intros H. destruct (contains_char "=" a) eqn:E; [|reflexivity]. apply contains_split in E as (x & y & E & _). now destruct (H x y). Qed.
Lemma no_axis_sign lhs rhs : contains_char "=" lhs = false -> contains_char "=" rhs = false -> forall a b, (lhs ++ " = " ++ rhs)%string <> (a ++ "axis=" ++ b)%string.
Proof.
  intros Nl Nr a b E.
  assert (L : cut_eq "" (lhs ++ " = " ++ rhs)%string = Some ((lhs ++ " ")%string, (" " ++ rhs)%string)).
  { replace (lhs ++ " = " ++ rhs)%string with ((lhs ++ " ") ++ "=" ++ (" " ++ rhs))%string by (rewrite sapp_assoc; reflexivity).
    rewrite cut_eq_split; [reflexivity|]. apply contains_no. rewrite contains_char_app, Nl. reflexivity. }
  rewrite E in L. destruct (contains_char "=" a) eqn:C.
  - apply contains_split in C as (a1 & a2 & -> & N1). replace ((a1 ++ "=" ++ a2) ++ "axis=" ++ b)%string with (a1 ++ "=" ++ (a2 ++ "axis=" ++ b))%string in L by (now rewrite !sapp_assoc).
    rewrite cut_eq_split in L by now apply contains_no. injection L as _ Q. assert (Z : contains_char "=" (a2 ++ "axis=" ++ b) = true) by (rewrite contains_char_app; cbn; now rewrite orb_true_r).
    assert (Z2 : contains_char "=" (" " ++ rhs) = false) by (rewrite contains_char_app, Nr; reflexivity).
    assert (Q2 : (a2 ++ "axis=" ++ b)%string = (" " ++ rhs)%string) by exact Q. congruence.
  - replace (a ++ "axis=" ++ b)%string with ((a ++ "axis") ++ "=" ++ b)%string in L by (rewrite sapp_assoc; reflexivity).
    rewrite cut_eq_split in L by (apply contains_no; now rewrite contains_char_app, C). assert (Q : ("" ++ a ++ "axis")%string = (lhs ++ " ")%string) by congruence.
    pose proof (ends_with_space lhs) as X. rewrite <- Q in X. assert (Y : ends_with "axis" ("" ++ a ++ "axis") = true) by (apply ends_with_spec; exists a; reflexivity). congruence.
Qed.

Section Gen.
Context (c : dict (list string)) (objs : list mobj).
Local Notation NT := (index_notation c objs).
Lemma with_sums e : NT false e -> NT true e.
Proof.
  intros H. remember false as b eqn:Eb. induction H; subst; try discriminate; [eapply in_number; eauto|now apply in_object|apply in_op; auto|apply in_neg; auto|apply in_subs; auto].
Qed.

Definition W (sums : bool) (lvl : S_PyExpr.level) (ts : list token) : Prop := exists e, G lvl ts e /\ NT sums e.
Section Flag.
Context (b : bool).
Local Notation W := (W b).
Lemma W_prim ts : W LPrim ts -> W LPower ts. Proof. intros (e & H & E). exists e. split; [now constructor|exact E]. Qed.
Lemma W_power ts : W LPower ts -> W LFactor ts. Proof. intros (e & H & E). exists e. split; [now constructor|exact E]. Qed.
Lemma W_factor ts : W LFactor ts -> W LTerm ts. Proof. intros (e & H & E). exists e. split; [now constructor|exact E]. Qed.
Lemma W_term ts : W LTerm ts -> W LExpr ts. Proof. intros (e & H & E). exists e. split; [now constructor|exact E]. Qed.
Lemma W_unit_factor ts : W LPrim ts -> W LFactor ts. Proof. intros H. now apply W_power, W_prim. Qed.
Lemma W_unit_term ts : W LPrim ts -> W LTerm ts. Proof. intros H. now apply W_factor, W_unit_factor. Qed.
Lemma W_unit_expr ts : W LPrim ts -> W LExpr ts. Proof. intros H. now apply W_term, W_unit_term. Qed.
Lemma W_one : W LPrim (tokenize "1"). Proof. exists (EWord "1"). split; [apply G_word|]. now apply (@in_number c objs b "1" 1). Qed.

Lemma w_paren a : W LExpr (tokenize a) -> W LPrim (tokenize ("(" ++ a ++ ")")).
Proof. intros (e & H & E). rewrite tok_last, tok_head by reflexivity. exists e. split; [now apply (G_paren H)|exact E]. Qed.
Lemma w_add x y : W LExpr (tokenize x) -> W LTerm (tokenize y) -> W LExpr (tokenize (x ++ " + " ++ y)).
Proof. intros (e & H & E) (e' & H' & E'). rewrite tok_head, tok_last by reflexivity. exists (EBin Add e e'). split; [exact (G_add H H')|now apply in_op]. Qed.
Lemma w_sub x y : W LExpr (tokenize x) -> W LTerm (tokenize y) -> W LExpr (tokenize (x ++ " - " ++ y)).
Proof. intros (e & H & E) (e' & H' & E'). rewrite tok_head, tok_last by reflexivity. exists (EBin Sub e e'). split; [exact (G_sub H H')|now apply in_op]. Qed.
Lemma w_mul x y : W LTerm (tokenize x) -> W LFactor (tokenize y) -> W LTerm (tokenize (x ++ " * " ++ y)).
Proof. intros (e & H & E) (e' & H' & E'). rewrite tok_head, tok_last by reflexivity. exists (EBin Mul e e'). split; [exact (G_mul H H')|now apply in_op]. Qed.
Lemma w_div x y : W LTerm (tokenize x) -> W LFactor (tokenize y) -> W LTerm (tokenize (x ++ " / " ++ y)).
Proof. intros (e & H & E) (e' & H' & E'). rewrite tok_head, tok_last by reflexivity. exists (EBin Div e e'). split; [exact (G_div H H')|now apply in_op]. Qed.
Lemma w_pow x y : W LPrim (tokenize x) -> W LFactor (tokenize y) -> W LPower (tokenize (x ++ " ** " ++ y)).
Proof. intros (e & H & E) (e' & H' & E'). rewrite tok_head, tok_last by reflexivity. exists (EBin Power e e'). split; [exact (G_pow H H')|now apply in_op]. Qed.

Lemma W_sum : forall (l : list (list token)) a, W LExpr a -> Forall (W LTerm) l -> W LExpr (a ++ flat_map (fun ts => Plus :: ts) l).
Proof.
  induction l as [|ts l IH]; intros a H F; cbn [flat_map]; [now rewrite app_nil_r|]. inversion F as [|? ? Ft Fl]; subst.
  change ((Plus :: ts) ++ flat_map (fun ts0 => Plus :: ts0) l) with (Plus :: ts ++ flat_map (fun ts0 => Plus :: ts0) l).
  replace (a ++ Plus :: ts ++ flat_map (fun ts0 => Plus :: ts0) l) with ((a ++ Plus :: ts) ++ flat_map (fun ts0 => Plus :: ts0) l) by (rewrite <- app_assoc; reflexivity).
  apply IH; [|exact Fl]. destruct H as (e & H & E), Ft as (e' & H' & E'). exists (EBin Add e e'). split; [exact (G_add H H')|now apply in_op].
Qed.
Lemma W_prod : forall (l : list (list token)) a, W LTerm a -> Forall (W LFactor) l -> W LTerm (a ++ flat_map (fun ts => Star :: ts) l).
Proof.
  induction l as [|ts l IH]; intros a H F; cbn [flat_map]; [now rewrite app_nil_r|]. inversion F as [|? ? Ft Fl]; subst.
  change ((Star :: ts) ++ flat_map (fun ts0 => Star :: ts0) l) with (Star :: ts ++ flat_map (fun ts0 => Star :: ts0) l).
  replace (a ++ Star :: ts ++ flat_map (fun ts0 => Star :: ts0) l) with ((a ++ Star :: ts) ++ flat_map (fun ts0 => Star :: ts0) l) by (rewrite <- app_assoc; reflexivity).
  apply IH; [|exact Fl]. destruct H as (e & H & E), Ft as (e' & H' & E'). exists (EBin Mul e e'). split; [exact (G_mul H H')|now apply in_op].
Qed.
Lemma w_sum l : l <> [] -> Forall (fun s => W LTerm (tokenize s)) l -> W LExpr (tokenize (join " + " l)).
Proof.
  destruct l as [|x l]; [easy|]. intros _ F. inversion F as [|? ? Fx Fl]; subst. rewrite (@join_tokens " + " Plus eq_refl eq_refl ltac:(discriminate) eq_refl). apply W_sum; [now apply W_term|].
  clear Fx F. induction Fl; cbn [map]; constructor; auto.
Qed.
Lemma w_prod x l : W LTerm (tokenize x) -> Forall (fun s => W LFactor (tokenize s)) l -> W LTerm (tokenize (join " * " (x :: l))).
Proof.
  intros Fx Fl. rewrite (@join_tokens " * " Star eq_refl eq_refl ltac:(discriminate) eq_refl). apply W_prod; [exact Fx|].
  clear Fx. induction Fl; cbn [map]; constructor; auto.
Qed.
End Flag.

Lemma W_sums lvl ts : W false lvl ts -> W true lvl ts.
Proof. intros (e & H & E). exists e. split; [exact H|now apply with_sums]. Qed.
Lemma unit_W s : unit_in c objs false s -> W false LPrim (tokenize s). Proof. exact (fun H => H). Qed.
Lemma unit_Wt s : unit_in c objs false s -> W true LPrim (tokenize s). Proof. intros H. now apply W_sums, unit_W. Qed.
Lemma expr_Wt s : expr_in c objs false s -> W true LExpr (tokenize s). Proof. intros H. now apply W_sums. Qed.

Lemma w_equation lhs rhs : W true LExpr (tokenize lhs) -> W true LExpr (tokenize rhs) -> equation_in c objs (lhs ++ " = " ++ rhs).
Proof.
  intros (el & Hl & El) (er & Hr & Er). split.
  - exists el, er, (lhs ++ " ")%string, (" " ++ rhs)%string. split; [rewrite sapp_assoc; reflexivity|]. split; [unfold is_expr; now rewrite tok_space|]. split; [unfold is_expr; now rewrite tok_space_l|]. auto.
  - apply no_axis_sign; apply no_contains; (eapply no_equal_sign; [eassumption|eapply keyword_notation; eassumption]).
Qed.

Lemma in_zip3 (a b d : list string) x y z : In (x, y, z) (zip3 a b d) -> In x a /\ In y b /\ In z d.
Proof.
  revert b d. induction a as [|x0 a IH]; intros [|y0 b] [|z0 d] I; try destruct I as [E|I]; try easy.
  - injection E as -> -> ->. repeat split; now left.
  - apply IH in I as (A & B & C). repeat split; now right.
Qed.

(** ** Parts *)
Lemma total_value_in names prices : names <> [] -> length prices = length names -> Forall (unit_in c objs false) names -> Forall (unit_in c objs false) prices ->
  W true LExpr (tokenize (total_value prices names)).
Proof.
  intros N L Fn Fp. unfold total_value. apply w_sum; [destruct names, prices; try easy; discriminate|]. apply Forall_forall. intros s Is. apply in_map_iff in Is as ((p, f) & <- & I). cbn [fst snd].
  pose proof (in_combine_l _ _ _ _ I) as Ip. pose proof (in_combine_r _ _ _ _ I) as If. rewrite Forall_forall in Fn, Fp. apply w_mul; [apply W_unit_term, unit_Wt; auto|apply W_unit_factor, unit_Wt; auto].
Qed.
Lemma value_definition_in names prices output output_price : names <> [] -> length prices = length names -> Forall (unit_in c objs false) names -> Forall (unit_in c objs false) prices ->
  unit_in c objs false output -> unit_in c objs false output_price -> equation_in c objs (value_definition names prices output output_price).
Proof.
  intros N L Fn Fp Y P. unfold value_definition.
  replace (output ++ " * " ++ output_price ++ " = " ++ total_value prices names)%string with ((output ++ " * " ++ output_price) ++ " = " ++ total_value prices names)%string by sassoc.
  apply w_equation; [apply W_term, w_mul; [now apply W_unit_term, unit_Wt|now apply W_unit_factor, unit_Wt]|now apply total_value_in].
Qed.
Lemma kept_shares names shares : length shares = length names -> add_second_alpha (Many shares) (Many names) = (shares, Many shares).
Proof. intros L. destruct names as [|n1 [|n2 [|]]]; destruct shares as [|s1 [|s2 [|]]]; try discriminate; reflexivity. Qed.
Lemma same_lengths names prices shares : length prices = length names -> length shares = length names -> check_lengths (Many names) (Many prices) (Many shares) = Ok tt.
Proof. intros L1 L2. unfold check_lengths. cbn [at_least_list]. now rewrite L1, L2, !Nat.eqb_refl. Qed.

Lemma eps_minus_1_in b eps : W b LPrim (tokenize eps) -> W b LPrim (tokenize ("(" ++ eps ++ " - 1)")).
Proof.
  intros H. replace ("(" ++ eps ++ " - 1)")%string with ("(" ++ (eps ++ " - " ++ "1") ++ ")")%string by sassoc.
  apply w_paren, w_sub; [now apply W_unit_expr|]. apply W_unit_term, W_one.
Qed.
Lemma inner_exponent_in b eps : W b LPrim (tokenize eps) -> W b LPrim (tokenize ("((" ++ eps ++ " - 1) / " ++ eps ++ ")")).
Proof.
  intros H. replace ("((" ++ eps ++ " - 1) / " ++ eps ++ ")")%string with ("(" ++ (("(" ++ eps ++ " - 1)") ++ " / " ++ eps) ++ ")")%string by sassoc.
  apply w_paren, W_term, w_div; [apply W_unit_term; now apply eps_minus_1_in|now apply W_unit_factor].
Qed.
Lemma outer_exponent_in b eps : W b LPrim (tokenize eps) -> W b LPrim (tokenize ("(" ++ eps ++ " / (" ++ eps ++ " - 1))")).
Proof.
  intros H. replace ("(" ++ eps ++ " / (" ++ eps ++ " - 1))")%string with ("(" ++ (eps ++ " / " ++ ("(" ++ eps ++ " - 1)")) ++ ")")%string by sassoc.
  apply w_paren, W_term, w_div; [now apply W_unit_term|apply W_unit_factor; now apply eps_minus_1_in].
Qed.
End Gen.

Lemma c110_cobb_douglas_text__p :
  forall c objs names prices shares output output_price TFP use_value eqs,
    names <> [] -> length prices = length names -> length shares = length names ->
    Forall (unit_in c objs false) names -> Forall (unit_in c objs false) prices -> Forall (expr_in c objs false) shares ->
    unit_in c objs false output -> unit_in c objs false output_price -> unit_in c objs false TFP ->
    fst (cobb_douglass (Many names) (Many prices) output output_price (Many shares) TFP use_value) = Ok eqs -> Forall (equation_in c objs) eqs.
Proof.
  intros c objs names prices shares output output_price TFP uv eqs N L1 L2 Fn Fp Fs Y P A E. unfold cobb_douglass in E. rewrite kept_shares in E by exact L2. cbn [fst] in E.
  rewrite same_lengths in E by assumption. cbn [bind iter] in E. apply ok_eq in E. subst eqs. constructor.
  - destruct uv; [now apply value_definition_in|]. unfold cd_production. apply w_equation; [now apply W_unit_expr, unit_Wt|].
    destruct (combine names shares) as [|fs0 fss] eqn:EC; [destruct names, shares; try easy; discriminate|]. rewrite <- EC.
    replace (TFP ++ " * " ++ join " * " (map (fun fs => (fst fs ++ " ** (" ++ snd fs ++ ")")%string) (combine names shares)))%string
      with (join " * " (TFP :: map (fun fs => (fst fs ++ " ** (" ++ snd fs ++ ")")%string) (combine names shares))) by (rewrite EC; reflexivity).
    apply W_term, w_prod; [now apply W_unit_term, unit_Wt|]. apply Forall_forall. intros s Is. apply in_map_iff in Is as ((f, sh) & <- & I). cbn [fst snd].
    pose proof (in_combine_l _ _ _ _ I) as If. pose proof (in_combine_r _ _ _ _ I) as Ish. rewrite Forall_forall in Fn, Fs.
    replace (f ++ " ** (" ++ sh ++ ")")%string with (f ++ " ** " ++ ("(" ++ sh ++ ")"))%string by sassoc.
    apply W_power, w_pow; [apply unit_Wt; auto|]. apply W_unit_factor, w_paren, expr_Wt; auto.
  - apply Forall_forall. intros s Is. apply in_map_iff in Is as (((f, p), sh) & <- & I). apply in_zip3 in I as (If & Ip & Ish). rewrite Forall_forall in Fn, Fp, Fs. unfold cd_demand.
    replace (f ++ " = (" ++ sh ++ ") * " ++ output ++ " * (" ++ output_price ++ ") / (" ++ p ++ ")")%string
      with (f ++ " = " ++ ((((("(" ++ sh ++ ")") ++ " * " ++ output) ++ " * " ++ ("(" ++ output_price ++ ")")) ++ " / " ++ ("(" ++ p ++ ")"))))%string by sassoc.
    apply w_equation; [apply W_unit_expr, unit_Wt; auto|]. apply W_term, w_div; [|apply W_unit_factor, w_paren, W_unit_expr, unit_Wt; auto].
    apply w_mul; [|now apply W_unit_factor, w_paren, W_unit_expr, unit_Wt]. apply w_mul; [|now apply W_unit_factor, unit_Wt]. apply W_unit_term, w_paren, expr_Wt; auto.
Qed.

Lemma c110_ces_text__p :
  forall c objs names prices shares output output_price TFP epsilon use_value eqs,
    names <> [] -> length prices = length names -> length shares = length names ->
    Forall (unit_in c objs false) names -> Forall (unit_in c objs false) prices -> Forall (expr_in c objs false) shares ->
    unit_in c objs false output -> unit_in c objs false output_price -> unit_in c objs false TFP -> unit_in c objs false epsilon ->
    fst (CES (Many names) (Many prices) output output_price TFP (Many shares) epsilon None use_value) = Ok eqs -> Forall (equation_in c objs) eqs.
Proof.
  intros c objs names prices shares output output_price TFP eps uv eqs N L1 L2 Fn Fp Fs Y P A Ep E. unfold CES in E. rewrite kept_shares in E by exact L2. cbn [fst] in E.
  rewrite same_lengths in E by assumption. cbn [bind iter expand] in E. rewrite map_id in E. apply ok_eq in E. subst eqs. constructor.
  - destruct uv; [now apply value_definition_in|]. unfold ces_production. set (inner := join " + " _).
    replace (output ++ " = " ++ TFP ++ " * (" ++ inner ++ ") ** (" ++ eps ++ " / (" ++ eps ++ " - 1))")%string
      with (output ++ " = " ++ (TFP ++ " * " ++ (("(" ++ inner ++ ")") ++ " ** " ++ ("(" ++ eps ++ " / (" ++ eps ++ " - 1))"))))%string by sassoc.
    apply w_equation; [now apply W_unit_expr, unit_Wt|]. apply W_term, w_mul; [now apply W_unit_term, unit_Wt|]. apply W_power, w_pow; [|now apply W_unit_factor, outer_exponent_in, unit_Wt].
    apply w_paren. unfold inner. apply w_sum; [destruct names, shares; try easy; discriminate|]. apply Forall_forall. intros s Is. apply in_map_iff in Is as ((f, sh) & <- & I). cbn [fst snd].
    pose proof (in_combine_l _ _ _ _ I) as If. pose proof (in_combine_r _ _ _ _ I) as Ish. rewrite Forall_forall in Fn, Fs.
    replace ("(" ++ sh ++ ") * " ++ f ++ " ** ((" ++ eps ++ " - 1) / " ++ eps ++ ")")%string with (("(" ++ sh ++ ")") ++ " * " ++ (f ++ " ** " ++ ("((" ++ eps ++ " - 1) / " ++ eps ++ ")")))%string by sassoc.
    apply w_mul; [apply W_unit_term, w_paren, expr_Wt; auto|]. apply W_power, w_pow; [apply unit_Wt; auto|now apply W_unit_factor, inner_exponent_in, unit_Wt].
  - apply Forall_forall. intros s Is. apply in_map_iff in Is as (((f, p), sh) & <- & I). apply in_zip3 in I as (If & Ip & Ish). rewrite Forall_forall in Fn, Fp, Fs. unfold ces_demand.
    replace (f ++ " = " ++ output ++ " / " ++ TFP ++ " * ((" ++ sh ++ ") * " ++ output_price ++ " * " ++ TFP ++ " / (" ++ p ++ ")) ** " ++ eps)%string
      with (f ++ " = " ++ ((output ++ " / " ++ TFP) ++ " * " ++ (("(" ++ (((("(" ++ sh ++ ")") ++ " * " ++ output_price) ++ " * " ++ TFP) ++ " / " ++ ("(" ++ p ++ ")")) ++ ")") ++ " ** " ++ eps)))%string by sassoc.
    apply w_equation; [apply W_unit_expr, unit_Wt; auto|]. apply W_term, w_mul.
    + apply w_div; [now apply W_unit_term, unit_Wt|now apply W_unit_factor, unit_Wt].
    + apply W_power, w_pow; [|now apply W_unit_factor, unit_Wt]. apply w_paren, W_term, w_div; [|apply W_unit_factor, w_paren, W_unit_expr, unit_Wt; auto].
      apply w_mul; [|now apply W_unit_factor, unit_Wt]. apply w_mul; [|now apply W_unit_factor, unit_Wt]. apply W_unit_term, w_paren, expr_Wt; auto.
Qed.

Lemma c110_leontief_text__p :
  forall c objs names prices shares output output_price d coords sum_dim expand_price_dim transpose_output backend eqs,
    2 <= length names -> length prices = length names -> length shares = length names ->
    Forall (unit_in c objs false) names -> Forall (unit_in c objs false) prices -> Forall (unit_in c objs false) shares ->
    unit_in c objs false output -> expr_in c objs false output_price ->
    leontief (Many names) (Many prices) output output_price (Many shares) (One d) coords sum_dim expand_price_dim transpose_output backend = Ok eqs ->
    Forall (equation_in c objs) eqs.
Proof.
  intros c objs names prices shares output output_price d coords sd ep tr be eqs N L1 L2 Fn Fp Fs Y P E. unfold leontief in E. rewrite same_lengths in E by assumption. cbn [bind at_least_list iter] in E.
  destruct (Nat.eqb_spec (length names) 1) as [Q|_]; [lia|]. apply ok_eq in E. subst eqs. unfold leontief_1d. constructor.
  - unfold leontief_profit. set (tv := total_value _ _).
    replace (output ++ " = (" ++ tv ++ ") / (" ++ output_price ++ ")")%string with (output ++ " = " ++ (("(" ++ tv ++ ")") ++ " / " ++ ("(" ++ output_price ++ ")")))%string by sassoc.
    apply w_equation; [now apply W_unit_expr, unit_Wt|]. apply W_term, w_div; [|now apply W_unit_factor, w_paren, expr_Wt]. apply W_unit_term, w_paren. apply total_value_in; auto. intros ->. cbn in N. lia.
  - apply Forall_forall. intros s Is. apply in_map_iff in Is as ((f, sh) & <- & I). cbn [fst snd]. pose proof (in_combine_l _ _ _ _ I) as If. pose proof (in_combine_r _ _ _ _ I) as Ish. rewrite Forall_forall in Fn, Fs.
    unfold leontief_demand. apply w_equation; [apply W_unit_expr, unit_Wt; auto|]. apply W_term, w_mul; [now apply W_unit_term, unit_Wt|apply W_unit_factor, unit_Wt; auto].
Qed.

(** ** Sums and changes of index *)
Lemma w_summation c objs i n labels body : is_name i -> dget i c = Some labels -> 0 < n -> n <= length labels -> ~ In "Sum" (map o_name objs ++ dkeys c) ->
  W c objs false LExpr (tokenize body) -> W c objs true LPrim (tokenize (Sum_str i n body)).
Proof.
  intros I D N L NS (e & H & E). rewrite Sum_tokens by assumption. exists (sum_over e i "0" (str_of_Z (Z.of_nat (n - 1)))). split.
  - apply G_call; [apply G_word|]. apply G_cons; [apply G_item, H|]. apply G_one, G_item, G_term, G_factor, G_power, G_prim.
    apply G_tuple; [apply G_item, G_term, G_factor, G_power, G_prim, G_word|]. apply G_cons; [apply G_item, G_term, G_factor, G_power, G_prim, G_word|].
    apply G_one, G_item, G_term, G_factor, G_power, G_prim, G_word.
  - apply (@in_sum c objs e i "0" (str_of_Z (Z.of_nat (n - 1))) 0 (n - 1) labels E NS D); [reflexivity|apply number_str|lia|lia].
Qed.
Lemma w_swapaxes c objs i j s : is_name i -> is_name j -> is_name s -> In i (dkeys c) -> In j (dkeys c) -> dget i c = dget j c -> W c objs false LPrim (tokenize s) -> W c objs true LPrim (tokenize (swapaxes s i j)).
Proof.
  intros I J N Ii Ij Q (e & H & E). unfold swapaxes.
  change (s ++ ".subs({" ++ i ++ ":" ++ j ++ "})")%string with (s ++ String "." (String "s" ("ubs({" ++ i ++ ":" ++ j ++ "})")))%string.
  rewrite name_dot by (assumption || reflexivity). change (String "s" ("ubs({" ++ i ++ ":" ++ j ++ "})")) with ("subs({" ++ i ++ ":" ++ j ++ "})")%string.
  replace (tokenize ("subs({" ++ i ++ ":" ++ j ++ "})")) with [Word "subs"; LP; LC; Word i; Colon; Word j; RC; RP].
  - rewrite (name_tok N) in H. exists (index_changed e i j). split; [|now apply in_subs].
    change (Word s :: Dot :: [Word "subs"; LP; LC; Word i; Colon; Word j; RC; RP]) with (([Word s] ++ [Dot; Word "subs"]) ++ LP :: (LC :: ([Word i] ++ Colon :: [Word j]) ++ [RC]) ++ [RP]).
    apply G_call; [now apply G_attr|]. apply G_one, G_item, G_term, G_factor, G_power, G_prim, G_dict, G_one, G_pair;
      apply G_term, G_factor, G_power, G_prim, G_word.
  - symmetry. rewrite (@tok_last "subs({") by reflexivity. rewrite (@tok_head i) by reflexivity. rewrite (@tok_last ":") by reflexivity. rewrite (@tok_head j) by reflexivity.
    now rewrite (name_tok I), (name_tok J).
Qed.

Lemma c110_leontief_matrix_text__p :
  forall c objs (core batch : string) labels dims sum_dim expand_price_dim (transpose_output : bool) factor price output output_price share eqs,
    is_name core -> is_name batch -> core <> batch -> In core (dkeys c) -> dget batch c = Some labels -> labels <> [] ->
    (transpose_output = true -> dget core c = Some labels) ->
    dims = [core; batch] /\ (sum_dim = None \/ sum_dim = Some batch) \/ dims = [batch; core] /\ sum_dim = Some batch ->
    ~ In "Sum" (map o_name objs ++ dkeys c) -> is_name output -> is_name output_price ->
    Forall (unit_in c objs false) [factor; price; output; output_price; share] ->
    leontief (One factor) (One price) output output_price (One share) (Many dims) c sum_dim expand_price_dim transpose_output "numba" = Ok eqs ->
    Forall (equation_in c objs) eqs.
Proof.
  intros c objs core d labels dims sum_dim ep tr factor price output output_price share eqs C D N Ic Ed Nd TR HD NS No Np F E.
  inversion F as [|? ? Ff F1]; subst. inversion F1 as [|? ? Fp F2]; subst. inversion F2 as [|? ? Fo F3]; subst. inversion F3 as [|? ? Fop F4]; subst. inversion F4 as [|? ? Fs _]; subst. clear F F1 F2 F3 F4.
  set (t := fun s => if tr then swapaxes s d core else s). set (n := length labels).
  assert (n0 : 0 < n) by (unfold n; destruct labels; [congruence|simpl; lia]).
  assert (EQ : eqs = [(t output ++ " = Sum(" ++ price ++ " * " ++ factor ++ ", (" ++ d ++ ", 0, " ++ str_of_Z (Z.of_nat n - 1) ++ ")) / " ++ t output_price)%string; (factor ++ " = " ++ share ++ " * " ++ output)%string]).
  { apply ok_eq. rewrite <- E. unfold leontief, check_lengths. cbn [at_least_list length Nat.eqb andb bind].
    assert (L : length dims = 2) by (destruct HD as [(-> & _)|(-> & _)]; reflexivity). rewrite L. cbn [Nat.eqb single bind]. unfold leontief_2d.
    assert (S : exists k, (match sum_dim with Some d0 => Ok d0 | None => match dims with [] => Err IndexError | _ => Ok (last dims "") end end) = Ok d /\
              index_of d dims = Some k /\ pop k dims = [core]).
    { destruct HD as [(-> & [-> | ->])|(-> & ->)]; cbn [last index_of option_map]; rewrite ?String.eqb_refl; destruct (String.eqb_spec d core); try congruence; eexists; repeat split. }
    destruct S as (k & S1 & S2 & S3). rewrite S1. cbn [bind]. rewrite S2. cbn [bind]. change (String.eqb "numba" "numba") with true. cbv iota. rewrite S3. cbn [bind].
    unfold dgetitem. apply (proj1 (dget_Some_key core c)) in Ic as (lc & Ec). rewrite Ec, Ed. reflexivity. }
  subst eqs.
  assert (T : forall s, is_name s -> unit_in c objs false s -> W c objs true LPrim (tokenize (t s))).
  { intros s Hs U. unfold t. destruct tr; [|now apply unit_Wt]. apply w_swapaxes; auto; [apply dget_Some_key; eauto|]. now rewrite Ed, (TR eq_refl). }
  constructor; [|constructor; [|constructor]].
  - replace (t output ++ " = Sum(" ++ price ++ " * " ++ factor ++ ", (" ++ d ++ ", 0, " ++ str_of_Z (Z.of_nat n - 1) ++ ")) / " ++ t output_price)%string
      with (t output ++ " = " ++ (Sum_str d n (price ++ " * " ++ factor) ++ " / " ++ t output_price))%string by (unfold Sum_str; sassoc).
    apply w_equation; [now apply W_unit_expr, T|]. apply W_term, w_div; [|now apply W_unit_factor, T]. apply W_unit_term. apply w_summation with (labels := labels); auto.
    apply W_term, w_mul; [now apply W_unit_term, unit_W|now apply W_unit_factor, unit_W].
  - apply w_equation; [now apply W_unit_expr, unit_Wt|]. apply W_term, w_mul; [now apply W_unit_term, unit_Wt|now apply W_unit_factor, unit_Wt].
Qed.


Lemma c110_dixit_stiglitz_text__p :
  forall c objs i labels factor price output output_price epsilon (TFP shares : option string) definition demand,
    is_name i -> dget i c = Some labels -> labels <> [] -> ~ In "Sum" (map o_name objs ++ dkeys c) ->
    Forall (unit_in c objs false) [factor; price; output; output_price; epsilon] ->
    (forall s, TFP = Some s \/ shares = Some s -> unit_in c objs false s) ->
    dixit_stiglitz (One factor) (One price) output output_price epsilon i c "numba" TFP (option_map One shares) false = Ok (definition, demand) ->
    equation_in c objs definition /\ equation_in c objs demand.
Proof.
  intros c objs i labels factor price output output_price eps TFP sh def dem I D Nl NS F OP E.
  inversion F as [|? ? Ff F1]; subst. inversion F1 as [|? ? Fp F2]; subst. inversion F2 as [|? ? Fo F3]; subst. inversion F3 as [|? ? Fop F4]; subst. inversion F4 as [|? ? Fe _]; subst. clear F F1 F2 F3 F4.
  set (n := length labels). assert (n0 : 0 < n) by (unfold n; destruct labels; [congruence|simpl; lia]).
  destruct (@ds_call factor price output output_price eps i labels c TFP sh D Nl) as (rhs & Er & Ed). rewrite E in Ed. apply ok_eq in Ed. injection Ed as -> ->. unfold ds_rhs in Er. change (String.eqb "numba" "numba") with true in Er. cbv iota in Er. apply ok_eq in Er. subst rhs.
  assert (K : W c objs false LExpr (tokenize (ds_kernel factor eps sh))).
  { unfold ds_kernel. assert (Q : W c objs false LFactor (tokenize (factor ++ " ** ((" ++ eps ++ " - 1) / " ++ eps ++ ")"))) by (apply W_power, w_pow; [now apply unit_W|now apply W_unit_factor, inner_exponent_in, unit_W]).
    destruct sh as [s|]; cbn [times]; [|now apply W_term, W_factor].
    replace ((s ++ " * ") ++ factor ++ " ** ((" ++ eps ++ " - 1) / " ++ eps ++ ")")%string with (s ++ " * " ++ (factor ++ " ** ((" ++ eps ++ " - 1) / " ++ eps ++ ")"))%string by sassoc.
    apply W_term, w_mul; [apply W_unit_term, unit_W; auto|exact Q]. }
  split.
  - set (power := ("Sum(" ++ ds_kernel factor eps sh ++ ", (" ++ i ++ ", 0, " ++ str_of_Z (Z.of_nat (length labels) - 1) ++ ")) ** (" ++ eps ++ " / (" ++ eps ++ " - 1))")%string).
    assert (PW : W c objs true LFactor (tokenize power)).
    { unfold power. replace ("Sum(" ++ ds_kernel factor eps sh ++ ", (" ++ i ++ ", 0, " ++ str_of_Z (Z.of_nat (length labels) - 1) ++ ")) ** (" ++ eps ++ " / (" ++ eps ++ " - 1))")%string
        with (Sum_str i n (ds_kernel factor eps sh) ++ " ** " ++ ("(" ++ eps ++ " / (" ++ eps ++ " - 1))"))%string by (unfold Sum_str, n; sassoc).
      apply W_power, w_pow; [apply w_summation with (labels := labels); auto|now apply W_unit_factor, outer_exponent_in, unit_Wt]. }
    destruct TFP as [a|]; cbn [times].
    + match goal with |- equation_in _ _ ?x => replace x with (output ++ " = " ++ (a ++ " * " ++ power))%string by (unfold power; sassoc) end.
      apply w_equation; [now apply W_unit_expr, unit_Wt|]. apply W_term, w_mul; [apply W_unit_term, unit_Wt; auto|exact PW].
    + match goal with |- equation_in _ _ ?x => replace x with (output ++ " = " ++ power)%string by (unfold power; sassoc) end.
      apply w_equation; [now apply W_unit_expr, unit_Wt|]. now apply W_term, W_factor.
  - unfold ds_demand.
    assert (IN : W c objs true LPrim (tokenize ("(" ++ times TFP ++ times sh ++ output_price ++ " / " ++ price ++ ")"))).
    { replace ("(" ++ times TFP ++ times sh ++ output_price ++ " / " ++ price ++ ")")%string with ("(" ++ ((times TFP ++ times sh ++ output_price) ++ " / " ++ price) ++ ")")%string by sassoc.
      apply w_paren, W_term, w_div; [|now apply W_unit_factor, unit_Wt].
      destruct TFP as [a|], sh as [s|]; cbn [times].
      - replace ((a ++ " * ") ++ (s ++ " * ") ++ output_price)%string with ((a ++ " * " ++ s) ++ " * " ++ output_price)%string by sassoc.
        apply w_mul; [apply w_mul; [apply W_unit_term, unit_Wt; auto|apply W_unit_factor, unit_Wt; auto]|now apply W_unit_factor, unit_Wt].
      - replace ((a ++ " * ") ++ "" ++ output_price)%string with (a ++ " * " ++ output_price)%string by sassoc.
        apply w_mul; [apply W_unit_term, unit_Wt; auto|now apply W_unit_factor, unit_Wt].
      - replace ("" ++ (s ++ " * ") ++ output_price)%string with (s ++ " * " ++ output_price)%string by (cbn; sassoc).
        apply w_mul; [apply W_unit_term, unit_Wt; auto|now apply W_unit_factor, unit_Wt].
      - now apply W_unit_term, unit_Wt. }
    set (ins := ("(" ++ times TFP ++ times sh ++ output_price ++ " / " ++ price ++ ")")%string) in *.
    replace (factor ++ " = " ++ output ++ " / " ++ times TFP ++ "(" ++ times TFP ++ times sh ++ output_price ++ " / " ++ price ++ ") ** " ++ eps)%string
      with (factor ++ " = " ++ (output ++ " / " ++ times TFP ++ (ins ++ " ** " ++ eps)))%string by (unfold ins; sassoc).
    apply w_equation; [now apply W_unit_expr, unit_Wt|]. apply W_term.
    assert (PW : W c objs true LFactor (tokenize (ins ++ " ** " ++ eps))) by (apply W_power, w_pow; [exact IN|now apply W_unit_factor, unit_Wt]).
    destruct TFP as [a|]; cbn [times].
    + replace (output ++ " / " ++ (a ++ " * ") ++ ins ++ " ** " ++ eps)%string with ((output ++ " / " ++ a) ++ " * " ++ (ins ++ " ** " ++ eps))%string by sassoc.
      apply w_mul; [apply w_div; [now apply W_unit_term, unit_Wt|apply W_unit_factor, unit_Wt; auto]|exact PW].
    + apply w_div; [now apply W_unit_term, unit_Wt|exact PW].
Qed.
