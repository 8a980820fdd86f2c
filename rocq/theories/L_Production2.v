(** C55-C57: what the equations say about a producer. *)
From Coq Require Import Ascii Reals ZArith Lra.
From Verif Require Import Py PyStr M_PyExpr S_PyExpr L_PyExpr S_Meaning L_Meaning M_Production S_Production L_Production.
Local Open Scope string_scope.
Local Open Scope list_scope.

(** ** Sums and powers *)
Lemma sum_ext f g l : (forall x, In x l -> f x = g x) -> sum_over f l = sum_over g l.
Proof. induction l as [|a l IH]; intros H; [reflexivity|]. unfold sum_over in *. cbn [fold_right]. rewrite H by now left. f_equal. apply IH. intros; apply H; now right. Qed.
Lemma prod_ext f g l : (forall x, In x l -> f x = g x) -> prod_over f l = prod_over g l.
Proof. induction l as [|a l IH]; intros H; [reflexivity|]. unfold prod_over in *. cbn [fold_right]. rewrite H by now left. f_equal. apply IH. intros; apply H; now right. Qed.
Lemma sum_scale k f l : (sum_over (fun x => k * f x) l = k * sum_over f l)%R.
Proof. induction l as [|a l IH]; unfold sum_over in *; cbn [fold_right]; [lra|]. rewrite IH. lra. Qed.
Lemma prod_pos f l : (forall x, In x l -> 0 < f x)%R -> (0 < prod_over f l)%R.
Proof.
  induction l as [|a l IH]; intros H; unfold prod_over in *; cbn [fold_right]; [lra|]. apply Rmult_lt_0_compat; [apply H; now left|].
  apply IH. intros; apply H; now right.
Qed.
Lemma sum_pos f l : l <> [] -> (forall x, In x l -> 0 < f x)%R -> (0 < sum_over f l)%R.
Proof.
  destruct l as [|a l]; [congruence|]. intros _. revert a. induction l as [|b l IH]; intros a H; unfold sum_over in *; cbn [fold_right] in *.
  - specialize (H a (or_introl eq_refl)). lra.
  - pose proof (H a (or_introl eq_refl)). assert (0 < f b + fold_right (fun x acc => f x + acc) 0 l)%R by (apply IH; intros x Hx; apply H; now right). lra.
Qed.
Lemma prod_mul f g l : (prod_over (fun x => f x * g x) l = prod_over f l * prod_over g l)%R.
Proof. induction l as [|a l IH]; unfold prod_over in *; cbn [fold_right]; [lra|]. rewrite IH. ring. Qed.
Lemma prod_rpower z f l : (prod_over (fun x => Rpower z (f x)) l = Rpower z (sum_over f l))%R.
Proof.
  induction l as [|a l IH]; unfold prod_over, sum_over in *; cbn [fold_right].
  - unfold Rpower. now rewrite Rmult_0_l, exp_0.
  - rewrite IH, <- Rpower_plus. reflexivity.
Qed.
Lemma rpower_pos x y : (0 < Rpower x y)%R. Proof. apply exp_pos. Qed.
Lemma ln_rpower x y : ln (Rpower x y) = (y * ln x)%R. Proof. unfold Rpower. apply ln_exp. Qed.
Lemma ln_div x y : (0 < x)%R -> (0 < y)%R -> ln (x / y) = (ln x - ln y)%R.
Proof. intros X Y. unfold Rdiv. rewrite ln_mult, ln_Rinv by (try apply Rinv_0_lt_compat; assumption). lra. Qed.
Lemma ln_eq x y : (0 < x)%R -> (0 < y)%R -> (x = y <-> ln x = ln y).
Proof. intros X Y. split; [congruence|]. now apply ln_inv. Qed.

Lemma shares_kept l : add_second_alpha (Many (map f_share l)) (Many (map f_name l)) = (map f_share l, Many (map f_share l)).
Proof. destruct l as [|a [|b [|c l]]]; reflexivity. Qed.
Lemma lengths_ok {A} (f g h : A -> string) l : check_lengths (Many (map f l)) (Many (map g l)) (Many (map h l)) = Ok tt.
Proof. unfold check_lengths. cbn [at_least_list]. rewrite !map_length, Nat.eqb_refl. reflexivity. Qed.

(** ** C55 *)
Lemma c55_meaning__p :
  forall (rho : valuation) (ix : indices) (l : list factor) (output output_price TFP : string) (y p a : R) (use_value : bool),
  l <> [] -> Forall (factor_ok rho ix) l -> (forall f, In f l -> 0 < qty f)%R ->
  unit_val rho ix output y -> no_eq output -> unit_val rho ix output_price p -> no_eq output_price -> unit_val rho ix TFP a ->
  exists eqs, fst (cobb_douglass (Many (map f_name l)) (Many (map f_price l)) output output_price (Many (map f_share l)) TFP use_value) = Ok eqs /\
    length eqs = S (length l) /\
    (Forall (holds rho ix) eqs <->
     ((if use_value then y * p = sum_over (fun f => price f * qty f) l else y = a * prod_over (fun f => Rpower (qty f) (share f)) l)%R /\
      forall f, In f l -> (price f * qty f = share f * (p * y))%R)).
Proof.
  intros rho ix l output output_price TFP y p a uv N F Pq Y N1 Pp N2 A. unfold cobb_douglass. rewrite shares_kept, lengths_ok. cbn [bind fst iter].
  eexists. split; [reflexivity|]. rewrite zip3_map, map_map. split; [cbn [length]; now rewrite map_length|].
  assert (D : Forall (holds rho ix) (map (fun x => cd_demand output output_price (f_name x) (f_price x) (f_share x)) l) <->
              forall f, In f l -> (price f * qty f = share f * (p * y))%R).
  { rewrite Forall_map, Forall_forall. rewrite Forall_forall in F.
    assert (E : forall f, In f l -> (holds rho ix (cd_demand output output_price (f_name f) (f_price f) (f_share f)) <-> (price f * qty f = share f * (p * y))%R)).
    { intros f Hf. rewrite (@cd_demand_holds rho ix f output y output_price p (F f Hf) Y (unit_expr Pp)). destruct (F f Hf) as (_ & _ & _ & _ & Q).
      split; intros H; [rewrite H; field; lra|]. apply Rmult_eq_reg_l with (price f); [|lra]. rewrite H. field. lra. }
    split; intros H f Hf; apply E; auto. }
  rewrite Forall_cons_iff, D. destruct uv.
  - rewrite (@value_holds rho ix l output y output_price p N F Y Pp N1 N2). reflexivity.
  - rewrite (@cd_production_holds rho ix l output y TFP a N F Pq (unit_expr Y) N1 A). reflexivity.
Qed.

Lemma demands_zero_profit l y p : (sum_over share l = 1)%R -> (forall f, In f l -> (price f * qty f = share f * (p * y))%R) ->
  (y * p = sum_over (fun f => price f * qty f) l)%R.
Proof.
  intros S D. rewrite (@sum_ext (fun f => price f * qty f)%R (fun f => (p * y) * share f)%R) by (intros f Hf; rewrite D by exact Hf; ring).
  rewrite sum_scale, S. ring.
Qed.
Lemma c55_zero_profit__p :
  forall (rho : valuation) (ix : indices) (l : list factor) (output output_price TFP : string) (y p a : R) (use_value : bool) eqs,
  l <> [] -> Forall (factor_ok rho ix) l -> (forall f, In f l -> 0 < qty f)%R ->
  unit_val rho ix output y -> no_eq output -> unit_val rho ix output_price p -> no_eq output_price -> unit_val rho ix TFP a ->
  fst (cobb_douglass (Many (map f_name l)) (Many (map f_price l)) output output_price (Many (map f_share l)) TFP use_value) = Ok eqs ->
  (sum_over share l = 1)%R -> Forall (holds rho ix) eqs -> (y * p = sum_over (fun f => price f * qty f) l)%R.
Proof.
  intros rho ix l output output_price TFP y p a uv eqs N F Pq Y N1 Pp N2 A E S H.
  destruct (@c55_meaning__p rho ix l output output_price TFP y p a uv N F Pq Y N1 Pp N2 A) as (eqs' & E' & _ & M).
  rewrite E in E'. injection E' as <-. apply M in H as (_ & D). now apply demands_zero_profit.
Qed.

(** With the production function the output price is the unit cost. *)
Lemma c55_unit_cost__p :
  forall (rho : valuation) (ix : indices) (l : list factor) (output output_price TFP : string) (y p a : R) eqs,
  l <> [] -> Forall (factor_ok rho ix) l -> (forall f, In f l -> 0 < qty f /\ 0 < share f)%R -> (0 < y /\ 0 < p /\ 0 < a)%R ->
  unit_val rho ix output y -> no_eq output -> unit_val rho ix output_price p -> no_eq output_price -> unit_val rho ix TFP a ->
  fst (cobb_douglass (Many (map f_name l)) (Many (map f_price l)) output output_price (Many (map f_share l)) TFP false) = Ok eqs ->
  (sum_over share l = 1)%R ->
  (Forall (holds rho ix) eqs <->
   (p = prod_over (fun f => Rpower (price f / share f) (share f)) l / a)%R /\ forall f, In f l -> (price f * qty f = share f * (p * y))%R).
Proof.
  intros rho ix l output output_price TFP y p a eqs N F Pq (Py & Pp0 & Pa) Y N1 Pp N2 A E S.
  destruct (@c55_meaning__p rho ix l output output_price TFP y p a false N F (fun f Hf => proj1 (Pq f Hf)) Y N1 Pp N2 A) as (eqs' & E' & _ & M).
  rewrite E in E'. injection E' as <-. rewrite M. clear M E.
  assert (X : (forall f, In f l -> (price f * qty f = share f * (p * y))%R) ->
              (y = a * prod_over (fun f => Rpower (qty f) (share f)) l <-> p = prod_over (fun f => Rpower (price f / share f) (share f)) l / a)%R).
  { intros D. rewrite Forall_forall in F.
    assert (Pr : forall f, In f l -> (0 < price f)%R) by (intros f Hf; now destruct (F f Hf) as (_ & _ & _ & _ & Q)).
    set (C := prod_over (fun f => Rpower (price f / share f) (share f)) l).
    assert (PC : (0 < C)%R) by (apply prod_pos; intros; apply rpower_pos).
    assert (Q : (prod_over (fun f => Rpower (qty f) (share f)) l * C = p * y)%R).
    { unfold C. rewrite <- prod_mul. rewrite (@prod_ext _ (fun f => Rpower (p * y) (share f))).
      - rewrite prod_rpower, S. apply Rpower_1. now apply Rmult_lt_0_compat.
      - intros f Hf. destruct (Pq f Hf) as (H1 & H2). specialize (Pr f Hf). rewrite Rpower_mult_distr by (try apply Rdiv_lt_0_compat; assumption).
        f_equal. specialize (D f Hf). apply Rmult_eq_reg_l with (share f); [|lra]. rewrite <- D. field. lra. }
    split; intros H.
    - apply Rmult_eq_reg_r with y; [|lra]. rewrite <- Q. rewrite H at 1. field. lra.
    - apply Rmult_eq_reg_r with (C * p)%R; [|apply Rmult_integral_contrapositive_currified; lra].
      replace (a * prod_over (fun f => Rpower (qty f) (share f)) l * (C * p))%R with (a * p * (prod_over (fun f => Rpower (qty f) (share f)) l * C))%R by ring.
      rewrite Q. assert (C = a * p)%R by (rewrite H; field; lra). rewrite H0. ring. }
  split; intros (H1 & H2); split; auto; now apply X.
Qed.

(** ** C56 *)
Section CES.
Variables (l : list factor) (y p a e : R).
Hypotheses (N : l <> []) (Pq : (forall f, In f l -> 0 < qty f /\ 0 < share f /\ 0 < price f)%R)
  (Py : (0 < y)%R) (Pp : (0 < p)%R) (Pa : (0 < a)%R) (E0 : e <> 0%R) (E1 : e <> 1%R).
Hypothesis D : forall f, In f l -> (qty f = y / a * Rpower (share f * p * a / price f) e)%R.
Let S := sum_over (fun f => Rpower (share f) e * Rpower (price f) (1 - e))%R l.
Lemma PS : (0 < S)%R.
Proof. apply sum_pos; [exact N|]. intros f _. apply Rmult_lt_0_compat; apply rpower_pos. Qed.

Ltac pos := solve [repeat first [assumption | exact PS | apply rpower_pos | apply Rmult_lt_0_compat | apply Rdiv_lt_0_compat | apply Rinv_0_lt_compat]].

Lemma ces_cost : (sum_over (fun f => price f * qty f) l = y / a * Rpower (p * a) e * S)%R.
Proof.
  unfold S. rewrite <- sum_scale. apply sum_ext. intros f Hf. destruct (Pq f Hf) as (H1 & H2 & H3). rewrite (D f Hf).
  replace (share f * p * a / price f)%R with (share f * (p * a) * / price f)%R by (field; lra).
  assert (0 < p * a)%R by now apply Rmult_lt_0_compat. assert (0 < / price f)%R by now apply Rinv_0_lt_compat.
  rewrite <- !Rpower_mult_distr by pos.
  unfold Rminus. rewrite Rpower_plus, Rpower_1 by assumption. rewrite Rpower_Ropp.
  replace (Rpower (/ price f) e) with (/ Rpower (price f) e)%R by (unfold Rpower; rewrite ln_Rinv by assumption; rewrite Ropp_mult_distr_r_reverse, exp_Ropp; reflexivity).
  ring.
Qed.
Lemma ces_inner : (sum_over (fun f => share f * Rpower (qty f) ((e - 1) / e)) l = Rpower (y / a) ((e - 1) / e) * Rpower (p * a) (e - 1) * S)%R.
Proof.
  unfold S. rewrite <- sum_scale. apply sum_ext. intros f Hf. destruct (Pq f Hf) as (H1 & H2 & H3). rewrite (D f Hf).
  assert (0 < p * a)%R by now apply Rmult_lt_0_compat. assert (0 < y / a)%R by now apply Rdiv_lt_0_compat.
  replace (share f * p * a / price f)%R with (share f * (p * a) / price f)%R by (field; lra).
  assert (0 < share f * (p * a) / price f)%R by (apply Rdiv_lt_0_compat; [apply Rmult_lt_0_compat|]; assumption).
  apply ln_inv.
  - apply Rmult_lt_0_compat; [assumption|apply rpower_pos].
  - repeat apply Rmult_lt_0_compat; apply rpower_pos.
  - rewrite !ln_mult, !ln_rpower, !ln_mult, !ln_rpower, !ln_div, !ln_mult by pos.
    field. exact E0.
Qed.

Let cost := (Rpower S (1 / (1 - e)) / a)%R.
Lemma ces_value_iff : (y * p = sum_over (fun f => price f * qty f) l <-> p = cost)%R.
Proof.
  rewrite ces_cost. assert (Ppa : (0 < p * a)%R) by now apply Rmult_lt_0_compat.
  pose proof (rpower_pos (p * a) e) as R1.
  transitivity (p * a = Rpower (p * a) e * S)%R.
  { split; intros H.
    - apply Rmult_eq_reg_l with (y / a)%R; [|apply Rgt_not_eq; now apply Rdiv_lt_0_compat]. transitivity (y * p)%R; [field; lra|]. rewrite H. ring.
    - transitivity (y / a * (p * a))%R; [field; lra|]. rewrite H at 1. ring. }
  rewrite (ln_eq Ppa (Rmult_lt_0_compat _ _ R1 PS)). unfold cost.
  rewrite (@ln_eq p (Rpower S (1 / (1 - e)) / a)) by pos.
  rewrite ln_div, !ln_mult, !ln_rpower, ln_mult by pos.
  split; intros H.
  - assert (H' : ((1 - e) * (ln p + ln a) = ln S)%R) by lra. rewrite <- H'. field. lra.
  - assert (H' : (ln p + ln a = 1 / (1 - e) * ln S)%R) by lra. rewrite H'. field. lra.
Qed.
Lemma ces_production_iff : (y = a * Rpower (sum_over (fun f => share f * Rpower (qty f) ((e - 1) / e)) l) (e / (e - 1)) <-> p = cost)%R.
Proof.
  rewrite ces_inner. assert (Ppa : (0 < p * a)%R) by now apply Rmult_lt_0_compat. assert (Pya : (0 < y / a)%R) by now apply Rdiv_lt_0_compat.
  assert (Pin : (0 < Rpower (y / a) ((e - 1) / e) * Rpower (p * a) (e - 1) * S)%R) by (repeat apply Rmult_lt_0_compat; try apply rpower_pos; exact PS).
  rewrite (@ln_eq y) by pos. unfold cost.
  rewrite (@ln_eq p (Rpower S (1 / (1 - e)) / a)) by pos.
  rewrite (ln_mult a), !ln_rpower, (@ln_div (Rpower S _)), ln_rpower by pos.
  rewrite (ln_mult _ S), (ln_mult (Rpower (y / a) _)), !ln_rpower, (ln_mult p a), (@ln_div y a) by pos.
  split; intros H.
  - assert (H' : (e * (ln p + ln a) + e / (e - 1) * ln S = 0)%R).
    { apply Rplus_eq_reg_l with (ln y). rewrite Rplus_0_r. rewrite H at 2. field. split; lra. }
    assert (H2 : (ln p + ln a = - (1 / (e - 1) * ln S))%R).
    { apply Rmult_eq_reg_l with e; [|exact E0]. replace (e * - (1 / (e - 1) * ln S))%R with (- (e / (e - 1) * ln S))%R by (field; lra). lra. }
    replace (1 / (1 - e))%R with (- (1 / (e - 1)))%R by (field; lra). lra.
  - assert (H' : (ln p = 1 / (1 - e) * ln S - ln a)%R) by exact H. rewrite H'. field. repeat split; lra.
Qed.
End CES.

Lemma expand_none opts p : expand opts None p = p. Proof. reflexivity. Qed.

Lemma c56_equivalent__p :
  forall (rho : valuation) (ix : indices) (l : list factor) (output output_price TFP epsilon : string) (y p a e : R),
  l <> [] -> Forall (factor_ok rho ix) l -> (forall f, In f l -> 0 < qty f /\ 0 < share f)%R -> (0 < y /\ 0 < p /\ 0 < a)%R ->
  unit_val rho ix output y -> no_eq output -> unit_val rho ix output_price p -> no_eq output_price ->
  unit_val rho ix TFP a -> unit_val rho ix epsilon e -> e <> 0%R -> e <> 1%R ->
  let ces := CES (Many (map f_name l)) (Many (map f_price l)) output output_price TFP (Many (map f_share l)) epsilon None in
  let unit_cost := (Rpower (sum_over (fun f => Rpower (share f) e * Rpower (price f) (1 - e)) l) (1 / (1 - e)) / a)%R in
  exists value production demands,
    fst (ces true) = Ok (value :: demands) /\ fst (ces false) = Ok (production :: demands) /\
    (Forall (holds rho ix) demands <-> forall f, In f l -> (qty f = y / a * Rpower (share f * p * a / price f) e)%R) /\
    (holds rho ix value <-> (y * p = sum_over (fun f => price f * qty f) l)%R) /\
    (holds rho ix production <-> (y = a * Rpower (sum_over (fun f => share f * Rpower (qty f) ((e - 1) / e)) l) (e / (e - 1)))%R) /\
    (Forall (holds rho ix) demands -> (holds rho ix value <-> holds rho ix production) /\ (holds rho ix value <-> p = unit_cost)).
Proof.
  intros rho ix l output output_price TFP epsilon y p a e N F Pq (Py & Pp & Pa) Y N1 Pv N2 A E E0 E1 ces unit_cost.
  exists (value_definition (map f_name l) (map f_price l) output output_price), (ces_production (map f_name l) (map f_share l) output TFP epsilon),
    (map (fun f => ces_demand output output_price TFP epsilon (f_name f) (f_price f) (f_share f)) l).
  assert (M : map (expand ["input"; "both"] None) (map f_price l) = map f_price l) by (rewrite map_map; apply map_ext; reflexivity).
  split; [unfold ces, CES; rewrite shares_kept, lengths_ok; cbn [bind fst iter]; now rewrite M, zip3_map, map_map|].
  split; [unfold ces, CES; rewrite shares_kept, lengths_ok; cbn [bind fst iter]; now rewrite M, zip3_map, map_map|].
  assert (D : Forall (holds rho ix) (map (fun f => ces_demand output output_price TFP epsilon (f_name f) (f_price f) (f_share f)) l) <->
              forall f, In f l -> (qty f = y / a * Rpower (share f * p * a / price f) e)%R).
  { rewrite Forall_map, Forall_forall. rewrite Forall_forall in F.
    split; intros H f Hf; specialize (H f Hf);
      apply (@ces_demand_holds rho ix f output y output_price p TFP a epsilon e (F f Hf) (proj2 (Pq f Hf)) Y Pv A E Pp Pa); exact H. }
  assert (HV := @value_holds rho ix l output y output_price p N F Y Pv N1 N2).
  assert (HP := @ces_production_holds rho ix l output y TFP a epsilon e N F Pq (unit_expr Y) N1 A E E0 E1).
  split; [exact D|]. split; [exact HV|]. split; [exact HP|]. intros HD. pose proof (proj1 D HD) as HD1. clear HD.
  assert (Q : (forall f, In f l -> 0 < qty f /\ 0 < share f /\ 0 < price f)%R).
  { intros f Hf. destruct (Pq f Hf). rewrite Forall_forall in F. destruct (F f Hf) as (_ & _ & _ & _ & X). auto. }
  pose proof (@ces_value_iff l y p a e N Q Py Pp Pa E0 E1 HD1) as I1.
  pose proof (@ces_production_iff l y p a e N Q Py Pp Pa E0 E1 HD1) as I2. fold unit_cost in I1, I2. tauto.
Qed.

(** ** C57, one dimension *)
Lemma c57_one_dim__p :
  forall (rho : valuation) (ix : indices) (l : list factor) (output output_price d : string) coords sum_dim expand_price_dim transpose_output backend (y p : R),
  2 <= length l -> Forall (factor_ok rho ix) l -> Forall (fun f => unit_val rho ix (f_share f) (share f)) l ->
  unit_val rho ix output y -> no_eq output -> expr_val rho ix output_price p -> p <> 0%R -> y <> 0%R ->
  exists eqs, leontief (Many (map f_name l)) (Many (map f_price l)) output output_price (Many (map f_share l)) (One d) coords sum_dim expand_price_dim transpose_output backend = Ok eqs /\
    (Forall (holds rho ix) eqs <->
     ((p * y = sum_over (fun f => price f * qty f) l)%R /\ forall f, In f l -> (qty f = share f * y)%R)) /\
    (Forall (holds rho ix) eqs <->
     ((p = sum_over (fun f => price f * share f) l)%R /\ forall f, In f l -> (qty f = share f * y)%R)).
Proof.
  intros rho ix l output output_price d coords sd ep tr backend y p L F Fs Y N1 Pv Np Ny. unfold leontief. rewrite lengths_ok. cbn [bind at_least_list iter].
  destruct (Nat.eqb_spec (length (map f_name l)) 1) as [E|_]; [rewrite map_length in E; lia|]. eexists. split; [reflexivity|].
  unfold leontief_1d. rewrite combine_map, map_map. cbn [fst snd].
  assert (N : l <> []) by (destruct l; [simpl in L; lia|discriminate]).
  assert (D : Forall (holds rho ix) (map (fun x => leontief_demand output (f_name x) (f_share x)) l) <-> forall f, In f l -> (qty f = share f * y)%R).
  { rewrite Forall_map, Forall_forall. rewrite Forall_forall in F, Fs.
    split; intros H f Hf; specialize (H f Hf).
    - apply (@leontief_demand_holds rho ix f output y (F f Hf) (Fs f Hf) Y) in H. lra.
    - apply (@leontief_demand_holds rho ix f output y (F f Hf) (Fs f Hf) Y). lra. }
  assert (Z : holds rho ix (leontief_profit (map f_name l) (map f_price l) output output_price) <-> (p * y = sum_over (fun f => price f * qty f) l)%R).
  { rewrite (@leontief_profit_holds rho ix l output y output_price p N F (unit_expr Y) N1 Pv Np).
    split; intros H; [rewrite H; field; exact Np|]. apply Rmult_eq_reg_l with p; [|exact Np]. rewrite H. field. exact Np. }
  rewrite !Forall_cons_iff, D, Z. split; [reflexivity|].
  assert (X : (forall f, In f l -> (qty f = share f * y)%R) -> (sum_over (fun f => price f * qty f) l = y * sum_over (fun f => price f * share f) l)%R).
  { intros H. rewrite <- sum_scale. apply sum_ext. intros f Hf. rewrite (H f Hf). ring. }
  split; intros (H1 & H2); split; auto.
  - rewrite (X H2) in H1. apply Rmult_eq_reg_l with y; [|exact Ny]. lra.
  - rewrite (X H2), H1. ring.
Qed.
