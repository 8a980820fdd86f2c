(** Values of the equations of production_functions.py. *)
From Coq Require Import Ascii Reals ZArith Lra.
From Verif Require Import Py PyStr M_PyExpr S_PyExpr L_PyExpr S_Meaning L_Meaning M_Production S_Production.
Local Open Scope string_scope.
Local Open Scope list_scope.

Lemma combine_map {A B C} (f : A -> B) (g : A -> C) l : combine (map f l) (map g l) = map (fun x => (f x, g x)) l.
Proof. induction l; simpl; congruence. Qed.
Lemma zip3_map {A B C D} (f : A -> B) (g : A -> C) (h : A -> D) l : zip3 (map f l) (map g l) (map h l) = map (fun x => (f x, g x, h x)) l.
Proof. induction l; simpl; congruence. Qed.
Lemma Forall2_map {A B C} (P : B -> C -> Prop) (f : A -> B) (g : A -> C) l : (forall x, In x l -> P (f x) (g x)) -> Forall2 P (map f l) (map g l).
Proof. induction l as [|a l IH]; intros H; constructor; [apply H; now left|apply IH; intros; apply H; now right]. Qed.
Lemma sum_map f (l : list factor) : fold_right Rplus 0%R (map f l) = sum_over f l.
Proof. induction l; simpl; congruence. Qed.
Lemma prod_map f (l : list factor) : fold_right Rmult 1%R (map f l) = prod_over f l.
Proof. induction l; simpl; congruence. Qed.

Section Eqs.
Variables (rho : valuation) (ix : indices).
Local Notation V := (V rho ix).
Local Notation unit_val := (unit_val rho ix).
Local Notation expr_val := (expr_val rho ix).
Local Notation holds := (holds rho ix).
Local Notation ok := (factor_ok rho ix).

Lemma total_value_val l : l <> [] -> Forall ok l ->
  expr_val (total_value (map f_price l) (map f_name l)) (sum_over (fun f => price f * qty f)%R l).
Proof.
  intros N F. unfold total_value. rewrite combine_map, map_map. cbn [fst snd]. destruct l as [|f l]; [congruence|].
  inversion F as [|f' l' (Hx & Hq & _) Fl]; subst. cbn [map sum_over fold_right]. fold (sum_over (fun f => price f * qty f)%R l). rewrite <- sum_map.
  apply sv_sum.
  - apply sv_mul; [now apply V_unit_term|now apply V_unit_factor].
  - apply Forall2_map. intros g Hg. rewrite Forall_forall in Fl. destruct (Fl g Hg) as (Gx & Gq & _).
    apply sv_mul; [now apply V_unit_term|now apply V_unit_factor].
Qed.

Lemma value_holds l output y output_price p : l <> [] -> Forall ok l -> unit_val output y -> unit_val output_price p -> no_eq output -> no_eq output_price ->
  (holds (value_definition (map f_name l) (map f_price l) output output_price) <-> (y * p = sum_over (fun f => price f * qty f) l)%R).
Proof.
  intros N F Y Pv N1 N2. unfold value_definition.
  replace (output ++ " * " ++ output_price ++ " = " ++ total_value (map f_price l) (map f_name l))%string
    with ((output ++ " * " ++ output_price) ++ " = " ++ total_value (map f_price l) (map f_name l))%string by sassoc.
  apply equation_holds.
  - apply no_eq_app; [exact N1|]. apply no_eq_app; [reflexivity|exact N2].
  - apply expr_V, V_term, sv_mul; [now apply V_unit_term|now apply V_unit_factor].
  - now apply total_value_val.
Qed.

(** Cobb-Douglas *)
Lemma cd_inner_val f : ok f -> (0 < qty f)%R -> V LFactor (tokenize (f_name f ++ " ** (" ++ f_share f ++ ")")) (Rpower (qty f) (share f)).
Proof.
  intros (Hx & _ & Hs & _) P. replace (f_name f ++ " ** (" ++ f_share f ++ ")")%string with (f_name f ++ " ** " ++ ("(" ++ f_share f ++ ")"))%string by sassoc.
  apply V_power, sv_pow; [exact Hx| |exact P]. now apply V_unit_factor, sv_paren.
Qed.
Lemma cd_production_holds l output y TFP a : l <> [] -> Forall ok l -> (forall f, In f l -> 0 < qty f)%R -> expr_val output y -> no_eq output -> unit_val TFP a ->
  (holds (cd_production (map f_name l) (map f_share l) output TFP) <-> (y = a * prod_over (fun f => Rpower (qty f) (share f)) l)%R).
Proof.
  intros N F P Y N1 A. unfold cd_production. rewrite combine_map, map_map. cbn [fst snd]. apply equation_holds; [exact N1|exact Y|].
  destruct l as [|f l]; [congruence|]. rewrite <- prod_map.
  replace (TFP ++ " * " ++ join " * " (map (fun x => (f_name x ++ " ** (" ++ f_share x ++ ")")%string) (f :: l)))%string
    with (join " * " (TFP :: map (fun x => (f_name x ++ " ** (" ++ f_share x ++ ")")%string) (f :: l))) by reflexivity.
  apply expr_V, V_term, sv_prod; [now apply V_unit_term|]. apply Forall2_map. intros g Hg. rewrite Forall_forall in F. apply cd_inner_val; auto.
Qed.
Lemma cd_demand_holds f output y output_price p : ok f -> unit_val output y -> expr_val output_price p ->
  (holds (cd_demand output output_price (f_name f) (f_price f) (f_share f)) <-> (qty f = share f * y * p / price f)%R).
Proof.
  intros (Hx & Hq & Hs & Hn & Pq) Y Pv. unfold cd_demand.
  replace (f_name f ++ " = (" ++ f_share f ++ ") * " ++ output ++ " * (" ++ output_price ++ ") / (" ++ f_price f ++ ")")%string
    with (f_name f ++ " = " ++ ((((("(" ++ f_share f ++ ")") ++ " * " ++ output) ++ " * " ++ ("(" ++ output_price ++ ")")) ++ " / " ++ ("(" ++ f_price f ++ ")"))))%string by sassoc.
  apply equation_holds; [exact Hn|now apply unit_expr|]. apply expr_V, V_term.
  apply sv_div; [|now apply V_unit_factor, sv_paren, V_unit_expr|lra].
  apply sv_mul; [|now apply V_unit_factor, sv_paren]. apply sv_mul; [|now apply V_unit_factor].
  now apply V_unit_term, sv_paren.
Qed.

(** CES *)
Lemma eps_minus_1 eps e : unit_val eps e -> V LPrim (tokenize ("(" ++ eps ++ " - 1)")) (e - 1)%R.
Proof.
  intros H. replace ("(" ++ eps ++ " - 1)")%string with ("(" ++ (eps ++ " - " ++ "1") ++ ")")%string by sassoc.
  apply sv_paren, sv_sub; [now apply V_unit_expr|]. apply V_unit_term, sv_one.
Qed.
Lemma inner_exponent eps e : unit_val eps e -> e <> 0%R -> V LPrim (tokenize ("((" ++ eps ++ " - 1) / " ++ eps ++ ")")) ((e - 1) / e)%R.
Proof.
  intros H N. replace ("((" ++ eps ++ " - 1) / " ++ eps ++ ")")%string with ("(" ++ (("(" ++ eps ++ " - 1)") ++ " / " ++ eps) ++ ")")%string by sassoc.
  apply sv_paren, V_term, sv_div; [apply V_unit_term; now apply eps_minus_1|now apply V_unit_factor|exact N].
Qed.
Lemma outer_exponent eps e : unit_val eps e -> e <> 1%R -> V LPrim (tokenize ("(" ++ eps ++ " / (" ++ eps ++ " - 1))")) (e / (e - 1))%R.
Proof.
  intros H N. replace ("(" ++ eps ++ " / (" ++ eps ++ " - 1))")%string with ("(" ++ (eps ++ " / " ++ ("(" ++ eps ++ " - 1)")) ++ ")")%string by sassoc.
  apply sv_paren, V_term, sv_div; [now apply V_unit_term|apply V_unit_factor; now apply eps_minus_1|lra].
Qed.

Lemma ces_inner_val f eps e : ok f -> (0 < qty f)%R -> unit_val eps e -> e <> 0%R ->
  V LTerm (tokenize ("(" ++ f_share f ++ ") * " ++ f_name f ++ " ** ((" ++ eps ++ " - 1) / " ++ eps ++ ")")) (share f * Rpower (qty f) ((e - 1) / e)).
Proof.
  intros (Hx & _ & Hs & _) P E N.
  replace ("(" ++ f_share f ++ ") * " ++ f_name f ++ " ** ((" ++ eps ++ " - 1) / " ++ eps ++ ")")%string
    with (("(" ++ f_share f ++ ")") ++ " * " ++ (f_name f ++ " ** " ++ ("((" ++ eps ++ " - 1) / " ++ eps ++ ")")))%string by sassoc.
  apply sv_mul; [now apply V_unit_term, sv_paren|]. apply V_power, sv_pow; [exact Hx|apply V_unit_factor; now apply inner_exponent|exact P].
Qed.
Lemma ces_production_holds l output y TFP a eps e : l <> [] -> Forall ok l -> (forall f, In f l -> 0 < qty f /\ 0 < share f)%R ->
  expr_val output y -> no_eq output -> unit_val TFP a -> unit_val eps e -> e <> 0%R -> e <> 1%R ->
  (holds (ces_production (map f_name l) (map f_share l) output TFP eps) <->
   (y = a * Rpower (sum_over (fun f => share f * Rpower (qty f) ((e - 1) / e)) l) (e / (e - 1)))%R).
Proof.
  intros N F P Y N1 A E E0 E1. unfold ces_production. rewrite combine_map, map_map. cbn [fst snd].
  set (inner := join " + " (map _ l)).
  replace (output ++ " = " ++ TFP ++ " * (" ++ inner ++ ") ** (" ++ eps ++ " / (" ++ eps ++ " - 1))")%string
    with (output ++ " = " ++ (TFP ++ " * " ++ (("(" ++ inner ++ ")") ++ " ** " ++ ("(" ++ eps ++ " / (" ++ eps ++ " - 1))"))))%string by sassoc.
  apply equation_holds; [exact N1|exact Y|]. apply expr_V, V_term, sv_mul; [now apply V_unit_term|].
  apply V_power, sv_pow.
  - apply sv_paren. unfold inner. destruct l as [|f l]; [congruence|]. cbn [map]. unfold sum_over. cbn [fold_right].
    fold (sum_over (fun f => share f * Rpower (qty f) ((e - 1) / e))%R l). rewrite <- sum_map. rewrite Forall_forall in F.
    apply sv_sum; [apply ces_inner_val; auto; [apply F; now left|apply P; now left]|].
    apply Forall2_map. intros g Hg. apply ces_inner_val; auto; [apply F; now right|apply P; now right].
  - apply V_unit_factor. now apply outer_exponent.
  - clear -N P. destruct l as [|f l]; [congruence|]. clear N.
    assert (Q : forall g, In g (f :: l) -> (0 < share g * Rpower (qty g) ((e - 1) / e))%R).
    { intros g Hg. destruct (P g Hg). apply Rmult_lt_0_compat; [assumption|apply exp_pos]. }
    clear P. revert f Q. induction l as [|g l IH]; intros f Q; unfold sum_over in *; cbn [fold_right] in *.
    + specialize (Q f (or_introl eq_refl)). lra.
    + pose proof (Q f (or_introl eq_refl)). assert (0 < share g * Rpower (qty g) ((e - 1) / e) + fold_right (fun x acc => share x * Rpower (qty x) ((e - 1) / e) + acc) 0 l)%R.
      { apply IH. intros h Hh. apply Q. now right. } lra.
Qed.
Lemma ces_demand_holds f output y output_price p TFP a eps e : ok f -> (0 < share f)%R ->
  unit_val output y -> unit_val output_price p -> unit_val TFP a -> unit_val eps e -> (0 < p)%R -> (0 < a)%R ->
  (holds (ces_demand output output_price TFP eps (f_name f) (f_price f) (f_share f)) <->
   (qty f = y / a * Rpower (share f * p * a / price f) e)%R).
Proof.
  intros (Hx & Hq & Hs & Hn & Pq) Ps Y Pv A E Pp Pa. unfold ces_demand.
  replace (f_name f ++ " = " ++ output ++ " / " ++ TFP ++ " * ((" ++ f_share f ++ ") * " ++ output_price ++ " * " ++ TFP ++ " / (" ++ f_price f ++ ")) ** " ++ eps)%string
    with (f_name f ++ " = " ++ ((output ++ " / " ++ TFP) ++ " * " ++
            (("(" ++ (((("(" ++ f_share f ++ ")") ++ " * " ++ output_price) ++ " * " ++ TFP) ++ " / " ++ ("(" ++ f_price f ++ ")")) ++ ")") ++ " ** " ++ eps)))%string by sassoc.
  apply equation_holds; [exact Hn|now apply unit_expr|]. apply expr_V, V_term, sv_mul.
  - apply sv_div; [now apply V_unit_term|now apply V_unit_factor|lra].
  - apply V_power, sv_pow; [|now apply V_unit_factor|].
    + apply sv_paren, V_term, sv_div; [|now apply V_unit_factor, sv_paren, V_unit_expr|lra].
      apply sv_mul; [|now apply V_unit_factor]. apply sv_mul; [|now apply V_unit_factor]. now apply V_unit_term, sv_paren.
    + apply Rdiv_lt_0_compat; [|exact Pq]. apply Rmult_lt_0_compat; [|exact Pa]. now apply Rmult_lt_0_compat.
Qed.

(** Leontief *)
Lemma leontief_profit_holds l output y output_price p : l <> [] -> Forall ok l -> expr_val output y -> no_eq output -> expr_val output_price p -> p <> 0%R ->
  (holds (leontief_profit (map f_name l) (map f_price l) output output_price) <-> (y = sum_over (fun f => price f * qty f) l / p)%R).
Proof.
  intros N F Y N1 Pv Np. unfold leontief_profit. set (tv := total_value _ _).
  replace (output ++ " = (" ++ tv ++ ") / (" ++ output_price ++ ")")%string with (output ++ " = " ++ (("(" ++ tv ++ ")") ++ " / " ++ ("(" ++ output_price ++ ")")))%string by sassoc.
  apply equation_holds; [exact N1|exact Y|]. apply expr_V, V_term, sv_div; [|now apply V_unit_factor, sv_paren|exact Np].
  apply V_unit_term, sv_paren. now apply total_value_val.
Qed.
Lemma leontief_demand_holds f output y : ok f -> unit_val (f_share f) (share f) -> unit_val output y ->
  (holds (leontief_demand output (f_name f) (f_share f)) <-> (qty f = y * share f)%R).
Proof.
  intros (Hx & _ & _ & Hn & _) Hs Y. unfold leontief_demand. apply equation_holds; [exact Hn|now apply unit_expr|].
  apply expr_V, V_term, sv_mul; [now apply V_unit_term|now apply V_unit_factor].
Qed.
End Eqs.
