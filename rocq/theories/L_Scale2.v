(** C111: prices and quantities in other units, for the array equations. *)
From Coq Require Import Ascii Reals Lra Lia ZArith.
From Verif Require Import Py PyStr NdArray M_Primitives M_PyExpr M_Equations M_Production M_Tensor S_PyExpr S_Meaning S_Production S_Layout S_Tensor S_Scale.
From Verif Require Import L_Production2 L_Production4 L_Production5 L_Tensor4 L_Tensor5 L_Scale.
Local Open Scope string_scope.
Local Open Scope list_scope.

Lemma c111_pytensor_matrix__p :
  forall number_op C objs data data' names coords (r s : R) (c d : string) (expand_price_dim transpose_output : bool) (factor price output output_price share : string)
         (x q a : nat -> nat -> R) (y p : nat -> R),
  let rho := array_values objs data in let rho' := array_values objs data' in let m := size C c in let n := size C d in
  (0 < r)%R -> (0 < s)%R -> real_arithmetic number_op -> given C objs data -> given C objs data' -> c <> d ->
  array2 C objs rho factor c d x -> array2 C objs rho' factor c d (fun i j => s * x i j)%R -> array2 C objs rho share c d a -> array2 C objs rho' share c d a ->
  array1 C objs rho output d y -> array1 C objs rho' output d (fun j => s * y j)%R -> array1 C objs rho output_price d p -> array1 C objs rho' output_price d (fun j => r * p j)%R ->
  (if expand_price_dim
   then array1 C objs rho price c (fun i => q i 0%nat) /\ array1 C objs rho' price c (fun i => r * q i 0%nat)%R /\ (forall i j, q i j = q i 0%nat)
   else array2 C objs rho price c d q /\ array2 C objs rho' price c d (fun i j => r * q i j)%R) ->
  no_eq factor -> no_eq output -> (forall j, j < n -> y j <> 0%R /\ p j <> 0%R) -> length names = n + m * n ->
  exists eqs residuals residuals', leontief (One factor) (One price) output output_price (One share) (Many [c; d]) coords (Some c) expand_price_dim transpose_output "pytensor" = Ok eqs /\
    pytensor_system number_op C objs eqs names data = Ok residuals /\ pytensor_system number_op C objs eqs names data' = Ok residuals' /\
    (all_zero residuals <-> all_zero residuals').
Proof.
  intros number_op C objs data data' names coords r s c d ep tr factor price output output_price share x q a y p rho rho' m n r0 s0 Ar G G' CD X X' A A' Y Y' P P' Q NF NO NZ L.
  destruct (@c57_pytensor__p number_op C objs data names coords c d ep tr factor price output output_price share x q a y p Ar G CD X A Y P) as (eqs & res & E & S & H); auto.
  { destruct ep; tauto. }
  destruct (@c57_pytensor__p number_op C objs data' names coords c d ep tr factor price output output_price share (fun i j => s * x i j)%R (fun i j => r * q i j)%R a (fun j => s * y j)%R (fun j => r * p j)%R Ar G' CD X' A' Y' P') as (eqs' & res' & E' & S' & H'); auto.
  { destruct ep; [|tauto]. destruct Q as (_ & Q1 & Q2). split; [exact Q1|]. intros i j. now rewrite (Q2 i j). }
  { intros j Hj. destruct (NZ j Hj). split; apply Rmult_integral_contrapositive; split; lra. }
  assert (eqs' = eqs) as -> by congruence. exists eqs, res, res'. split; [exact E|]. split; [exact S|]. split; [exact S'|]. rewrite H, H'.
  assert (SQ : forall j, (sum_n (fun i => r * q i j * a i j) (size C c) = r * sum_n (fun i => q i j * a i j) (size C c))%R).
  { intros j. rewrite <- sum_n_scale. apply sum_n_ext. intros i _. ring. }
  split; intros D j Hj; destruct (D j Hj) as (D1 & D2).
  - split; [rewrite SQ, D1; reflexivity|]. intros i Hi. rewrite (D2 i Hi). ring.
  - rewrite SQ in D1. split; [apply (Rmult_eq_reg_l r); [exact D1|lra]|]. intros i Hi. apply (Rmult_eq_reg_l s); [|lra]. rewrite (D2 i Hi). ring.
Qed.

Lemma c111_pytensor_dixit_stiglitz__p :
  forall number_op C objs data data' names coords labels (k m : R) (i factor price output output_price epsilon TFP : string) (shares : option string) (use_value_definition : bool)
         (x q s : nat -> R) (y p a e : R),
  let rho := array_values objs data in let rho' := array_values objs data' in let n := size C i in
  (0 < k)%R -> (0 < m)%R -> real_arithmetic number_op -> given C objs data -> given C objs data' -> dget i coords = Some labels -> 0 < n ->
  array1 C objs rho factor i x -> array1 C objs rho' factor i (fun j => m * x j)%R -> array1 C objs rho price i q -> array1 C objs rho' price i (fun j => k * q j)%R ->
  opt_array1 C objs rho shares i s -> opt_array1 C objs rho' shares i s -> array0 C objs rho output y -> array0 C objs rho' output (m * y) ->
  array0 C objs rho output_price p -> array0 C objs rho' output_price (k * p) -> array0 C objs rho TFP a -> array0 C objs rho' TFP a -> array0 C objs rho epsilon e -> array0 C objs rho' epsilon e ->
  no_eq factor -> no_eq output -> e <> 0%R -> e <> 1%R ->
  (forall j, j < n -> (0 < x j /\ 0 < q j /\ 0 < s j)%R) -> (0 < p)%R -> (0 < a)%R -> (0 < y)%R -> length names = 1 + n ->
  exists definition demand residuals residuals',
    dixit_stiglitz (One factor) (One price) output output_price epsilon i coords "pytensor" (Some TFP) (option_map One shares) use_value_definition = Ok (definition, demand) /\
    pytensor_system number_op C objs [definition; demand] names data = Ok residuals /\ pytensor_system number_op C objs [definition; demand] names data' = Ok residuals' /\
    (all_zero residuals <-> all_zero residuals').
Proof.
  intros number_op C objs data data' names coords labels k m i factor price output output_price epsilon TFP shares uv x q s y p a e rho rho' n k0 m0 Ar G G' Di n0 X X' Q Q' S S' Y Y' P P' A A' Ep Ep' NF NO E0 E1 POS p0 a0 y0 L.
  destruct (@c58_pytensor__p number_op C objs data names coords labels i factor price output output_price epsilon TFP shares uv x q s y p a e) as (def & dem & res & E & R & H); auto.
  destruct (@c58_pytensor__p number_op C objs data' names coords labels i factor price output output_price epsilon TFP shares uv (fun j => m * x j)%R (fun j => k * q j)%R s (m * y)%R (k * p)%R a e) as (def' & dem' & res' & E' & R' & H'); auto;
    [intros j Hj; destruct (POS j Hj) as (? & ? & ?); repeat split; try apply Rmult_lt_0_compat; assumption|now apply Rmult_lt_0_compat|now apply Rmult_lt_0_compat|].
  assert (def' = def /\ dem' = dem) as (-> & ->) by (rewrite E in E'; apply ok_eq in E'; split; congruence).
  exists def, dem, res, res'. split; [exact E|]. split; [exact R|]. split; [exact R'|]. rewrite H, H'. fold n.
  assert (AG : (m * y = aggregate a e s (fun j => m * x j) n <-> y = aggregate a e s x n)%R).
  { unfold aggregate. set (S0 := sum_n (fun k0 => s k0 * Rpower (x k0) ((e - 1) / e))%R n).
    assert (S1 : (0 < S0)%R). { unfold S0, sum_n. apply total_pos; [destruct n; [lia|discriminate]|]. intros j K. apply in_seq in K. apply Rmult_lt_0_compat; [apply POS; lia|apply exp_pos]. }
    replace (sum_n (fun k0 => s k0 * Rpower (m * x k0) ((e - 1) / e)) n)%R with (Rpower m ((e - 1) / e) * S0)%R.
    + rewrite <- Rpower_mult_distr; [|apply exp_pos|exact S1]. rewrite Rpower_mult. replace ((e - 1) / e * (e / (e - 1)))%R with 1%R by (field; split; lra). rewrite Rpower_1 by exact m0.
      replace (a * (m * Rpower S0 (e / (e - 1))))%R with (m * (a * Rpower S0 (e / (e - 1))))%R by ring. rewrite mult_iff; [reflexivity|lra].
    + unfold S0. rewrite <- sum_n_scale. apply sum_n_ext. intros j' Hj'. rewrite <- Rpower_mult_distr; [ring|exact m0|apply (POS j' Hj')]. }
  rewrite AG. apply and_iff_compat_l.
  assert (D : forall j, j < n -> (m * x j = m * y / a * Rpower (s j * (k * p) * a / (k * q j)) e <-> x j = y / a * Rpower (s j * p * a / q j) e)%R).
  { intros j Hj. destruct (POS j Hj) as (_ & q0 & _). replace (s j * (k * p) * a / (k * q j))%R with (s j * p * a / q j)%R by (field; lra).
    replace (m * y / a * Rpower (s j * p * a / q j) e)%R with (m * (y / a * Rpower (s j * p * a / q j) e))%R by (field; lra). rewrite mult_iff; [reflexivity|lra]. }
  split; intros HD j Hj; apply (D j Hj); auto.
Qed.

(** Without shares that sum to one the production function has no constant returns *)
Definition sc_env (x y : R) : valuation := env [("X", x); ("w", 2%R); ("Y", y); ("P", 1%R); ("A", 1%R)].
Definition sc_factor (x : R) : factor := mkFactor "X" "w" "2" x 2 2.
Lemma c111_shares_refuted__p :
  exists rho rho' ix m l l' output output_price TFP y p a eqs,
    (0 < m)%R /\ Forall2 (rescaled 1 m) l l' /\ Forall (factor_ok rho ix) l /\ Forall (factor_ok rho' ix) l' /\ (forall f, In f l -> 0 < qty f)%R /\
    unit_both rho rho' ix output y (m * y) /\ unit_both rho rho' ix output_price p (1 * p) /\ unit_both rho rho' ix TFP a a /\
    fst (cobb_douglass (Many (map f_name l)) (Many (map f_price l)) output output_price (Many (map f_share l)) TFP false) = Ok eqs /\
    Forall (holds rho ix) eqs /\ ~ Forall (holds rho' ix) eqs.
Proof.
  assert (U : forall x y s v, In (s, v) [("X", x); ("w", 2%R); ("Y", y); ("P", 1%R); ("A", 1%R)] -> unit_val (sc_env x y) (fun _ => 0) s v).
  { intros x y s v I. exists (EWord s). cbn in I. repeat (destruct I as [I|I]; [injection I as <- <-; split; [repeat constructor|reflexivity]|]). destruct I. }
  assert (T : forall x y, expr_val (sc_env x y) (fun _ => 0) "2" 2) by (intros x y; exists (EWord "2"); split; [apply G_term, G_factor, G_power, G_prim, (G_word "2")|change (Some (INR 2) = Some 2%R); f_equal; simpl INR; lra]).
  assert (FO : forall x y, Forall (factor_ok (sc_env x y) (fun _ => 0)) [sc_factor x]).
  { intros x y. constructor; [|constructor]. split; [apply U; cbn; tauto|]. split; [apply U; cbn; tauto|]. split; [apply T|]. split; [reflexivity|cbn; lra]. }
  exists (sc_env 1 1), (sc_env 2 2), (fun _ => 0), 2%R, [sc_factor 1], [sc_factor 2], "Y", "P", "A", 1%R, 1%R, 1%R.
  destruct (@c55_meaning__p (sc_env 1 1) (fun _ => 0) [sc_factor 1] "Y" "P" "A" 1%R 1%R 1%R false) as (eqs & E & _ & H);
    [discriminate|apply FO|intros f [<-|[]]; cbn; lra|apply U; cbn; tauto|reflexivity|apply U; cbn; tauto|reflexivity|apply U; cbn; tauto|].
  destruct (@c55_meaning__p (sc_env 2 2) (fun _ => 0) [sc_factor 2] "Y" "P" "A" 2%R 1%R 1%R false) as (eqs' & E' & _ & H');
    [discriminate|apply FO|intros f [<-|[]]; cbn; lra|apply U; cbn; tauto|reflexivity|apply U; cbn; tauto|reflexivity|apply U; cbn; tauto|].
  cbn [map f_name f_price f_share sc_factor] in E, E'. assert (eqs' = eqs) as -> by congruence. exists eqs.
  split; [lra|]. split; [constructor; [|constructor]; repeat split; cbn; lra|]. split; [apply FO|]. split; [apply FO|]. split; [intros f [<-|[]]; cbn; lra|].
  split; [split; [apply U; cbn; tauto|rewrite Rmult_1_r; apply U; cbn; tauto]|]. split; [split; [apply U; cbn; tauto|rewrite Rmult_1_r; apply U; cbn; tauto]|]. split; [split; apply U; cbn; tauto|].
  split; [exact E|]. assert (P2 : forall x, (0 < x)%R -> Rpower x 2 = (x * x)%R) by (intros x X; replace 2%R with (1 + 1)%R by lra; now rewrite Rpower_plus, Rpower_1).
  split.
  - apply H. split; [cbn; rewrite P2 by lra; lra|]. intros f [<-|[]]. cbn. lra.
  - intros Z. apply H' in Z as (Z & _). cbn in Z. rewrite P2 in Z by lra. lra.
Qed.
