(** C55-C60: production functions. *)
From Coq Require Import Reals Lra Lia.
From Verif Require Import Py PyStr M_PyExpr S_PyExpr S_Meaning L_Meaning M_Production S_Production
  L_Production2 L_Production3 L_Production4 L_Production5 L_Production6 L_Production7 L_ProdExamples.
Local Open Scope string_scope.
Local Open Scope list_scope.

(** ** C55 *)
Theorem c55_meaning :
  forall (rho : valuation) (ix : indices) (l : list factor) (output output_price TFP : string) (y p a : R) (use_value : bool),
  l <> [] -> Forall (factor_ok rho ix) l -> (forall f, In f l -> 0 < qty f)%R ->
  unit_val rho ix output y -> no_eq output -> unit_val rho ix output_price p -> no_eq output_price -> unit_val rho ix TFP a ->
  exists eqs, fst (cobb_douglass (Many (map f_name l)) (Many (map f_price l)) output output_price (Many (map f_share l)) TFP use_value) = Ok eqs /\
    length eqs = S (length l) /\
    (Forall (holds rho ix) eqs <->
     ((if use_value then y * p = sum_over (fun f => price f * qty f) l else y = a * prod_over (fun f => Rpower (qty f) (share f)) l)%R /\
      forall f, In f l -> (price f * qty f = share f * (p * y))%R)).
Proof. exact @c55_meaning__p. Qed.
Print Assumptions c55_meaning.
Example c55_meaning_ex : exists eqs,
  fst (cobb_douglass (Many ["K"; "L"]) (Many ["r"; "w"]) "Y" "P" (Many ["a"; "b"]) "A" false) = Ok eqs /\ length eqs = 3 /\ Forall (holds (ex_env (1 / 2)) ix0) eqs.
Proof.
  destruct (@c55_meaning (ex_env (1 / 2)) ix0 (ex_factors (1 / 2)) "Y" "P" "A" 1 2 1 false) as (eqs & E & L & M);
    [discriminate|apply ex_ok|apply ex_pos; lra|apply ex_Y|reflexivity|apply ex_P|reflexivity|apply ex_A|].
  exists eqs. split; [exact E|]. split; [exact L|]. apply M. unfold prod_over, ex_factors. cbn [fold_right qty share]. rewrite rpower_1_l.
  split; [lra|]. intros f [<-|[<-|[]]]; cbn [price qty share]; lra.
Qed.

Theorem c55_zero_profit :
  forall (rho : valuation) (ix : indices) (l : list factor) (output output_price TFP : string) (y p a : R) (use_value : bool) eqs,
  l <> [] -> Forall (factor_ok rho ix) l -> (forall f, In f l -> 0 < qty f)%R ->
  unit_val rho ix output y -> no_eq output -> unit_val rho ix output_price p -> no_eq output_price -> unit_val rho ix TFP a ->
  fst (cobb_douglass (Many (map f_name l)) (Many (map f_price l)) output output_price (Many (map f_share l)) TFP use_value) = Ok eqs ->
  (sum_over share l = 1)%R -> Forall (holds rho ix) eqs -> (y * p = sum_over (fun f => price f * qty f) l)%R.
Proof. exact @c55_zero_profit__p. Qed.
Print Assumptions c55_zero_profit.
Example c55_zero_profit_ex : (1 * 2 = sum_over (fun f => price f * qty f) (ex_factors (1 / 2)))%R.
Proof.
  destruct c55_meaning_ex as (eqs & E & _ & H).
  apply (@c55_zero_profit (ex_env (1 / 2)) ix0 (ex_factors (1 / 2)) "Y" "P" "A" 1 2 1 false eqs);
    [discriminate|apply ex_ok|apply ex_pos; lra|apply ex_Y|reflexivity|apply ex_P|reflexivity|apply ex_A|exact E| |exact H].
  unfold sum_over, ex_factors. cbn [fold_right share]. lra.
Qed.

Theorem c55_unit_cost :
  forall (rho : valuation) (ix : indices) (l : list factor) (output output_price TFP : string) (y p a : R) eqs,
  l <> [] -> Forall (factor_ok rho ix) l -> (forall f, In f l -> 0 < qty f /\ 0 < share f)%R -> (0 < y /\ 0 < p /\ 0 < a)%R ->
  unit_val rho ix output y -> no_eq output -> unit_val rho ix output_price p -> no_eq output_price -> unit_val rho ix TFP a ->
  fst (cobb_douglass (Many (map f_name l)) (Many (map f_price l)) output output_price (Many (map f_share l)) TFP false) = Ok eqs ->
  (sum_over share l = 1)%R ->
  (Forall (holds rho ix) eqs <->
   (p = prod_over (fun f => Rpower (price f / share f) (share f)) l / a)%R /\ forall f, In f l -> (price f * qty f = share f * (p * y))%R).
Proof. exact @c55_unit_cost__p. Qed.
Print Assumptions c55_unit_cost.
Example c55_unit_cost_ex : (2 = prod_over (fun f => Rpower (price f / share f) (share f)) (ex_factors (1 / 2)) / 1)%R.
Proof.
  destruct c55_meaning_ex as (eqs & E & _ & H).
  apply (@c55_unit_cost (ex_env (1 / 2)) ix0 (ex_factors (1 / 2)) "Y" "P" "A" 1 2 1 eqs);
    [discriminate|apply ex_ok|apply ex_pos; lra|lra|apply ex_Y|reflexivity|apply ex_P|reflexivity|apply ex_A|exact E| |exact H].
  unfold sum_over, ex_factors. cbn [fold_right share]. lra.
Qed.

(** Two units of capital and half a unit of labour make one unit too, at the cost of 5/2. *)
Theorem c55_minimises :
  forall (rho : valuation) (ix : indices) (l : list factor) (output output_price TFP : string) (y p a : R) eqs,
  l <> [] -> Forall (factor_ok rho ix) l -> (forall f, In f l -> 0 < qty f /\ 0 < share f)%R -> (0 < y /\ 0 < p /\ 0 < a)%R ->
  unit_val rho ix output y -> no_eq output -> unit_val rho ix output_price p -> no_eq output_price -> unit_val rho ix TFP a ->
  fst (cobb_douglass (Many (map f_name l)) (Many (map f_price l)) output output_price (Many (map f_share l)) TFP false) = Ok eqs ->
  Forall (holds rho ix) eqs ->
  forall zs, length zs = length l -> Forall (fun z => 0 < z)%R zs -> (y <= a * prod_with (fun f z => Rpower z (share f)) l zs)%R ->
  (sum_over (fun f => price f * qty f) l <= sum_with (fun f z => price f * z) l zs)%R.
Proof. exact @c55_minimises__p. Qed.
Print Assumptions c55_minimises.
Example c55_minimises_ex : (sum_over (fun f => price f * qty f) (ex_factors (1 / 2)) <= sum_with (fun f z => price f * z) (ex_factors (1 / 2)) [2; 1 / 2])%R.
Proof.
  destruct c55_meaning_ex as (eqs & E & _ & H).
  apply (@c55_minimises (ex_env (1 / 2)) ix0 (ex_factors (1 / 2)) "Y" "P" "A" 1 2 1 eqs);
    [discriminate|apply ex_ok|apply ex_pos; lra|lra|apply ex_Y|reflexivity|apply ex_P|reflexivity|apply ex_A|exact E|exact H|reflexivity|repeat constructor; lra|].
  unfold prod_with, ex_factors. cbn [combine map fold_right fst snd share]. rewrite Rmult_1_r, Rpower_mult_distr by lra.
  replace (2 * (1 / 2))%R with 1%R by lra. rewrite rpower_1_l. lra.
Qed.

(** The production form implies the value form... *)
Theorem c55_closures_partial :
  forall (rho : valuation) (ix : indices) (l : list factor) (output output_price TFP : string) (y p a : R) production_form value_form,
  l <> [] -> Forall (factor_ok rho ix) l -> (forall f, In f l -> 0 < qty f)%R ->
  unit_val rho ix output y -> no_eq output -> unit_val rho ix output_price p -> no_eq output_price -> unit_val rho ix TFP a ->
  let cd := cobb_douglass (Many (map f_name l)) (Many (map f_price l)) output output_price (Many (map f_share l)) TFP in
  fst (cd false) = Ok production_form -> fst (cd true) = Ok value_form -> (sum_over share l = 1)%R ->
  Forall (holds rho ix) production_form -> Forall (holds rho ix) value_form.
Proof. exact @c55_closures_partial__p. Qed.
Print Assumptions c55_closures_partial.
Example c55_closures_partial_ex : exists eqs, fst (cobb_douglass (Many ["K"; "L"]) (Many ["r"; "w"]) "Y" "P" (Many ["a"; "b"]) "A" true) = Ok eqs /\ Forall (holds (ex_env (1 / 2)) ix0) eqs.
Proof.
  destruct c55_meaning_ex as (eqs & E & _ & H). eexists. split; [reflexivity|].
  apply (@c55_closures_partial (ex_env (1 / 2)) ix0 (ex_factors (1 / 2)) "Y" "P" "A" 1 2 1 eqs);
    [discriminate|apply ex_ok|apply ex_pos; lra|apply ex_Y|reflexivity|apply ex_P|reflexivity|apply ex_A|exact E|reflexivity| |exact H].
  unfold sum_over, ex_factors. cbn [fold_right share]. lra.
Qed.
(** ... but not the other way: with the value form output is not tied to the inputs. *)
Theorem c55_closures_refuted :
  exists rho ix production_form value_form,
    let cd := cobb_douglass (Many ["K"; "L"]) (Many ["r"; "w"]) "Y" "P" (Many ["a"; "b"]) "A" in
    fst (cd false) = Ok production_form /\ fst (cd true) = Ok value_form /\
    (exists a b, rho "a" ix = Some a /\ rho "b" ix = Some b /\ 0 < a /\ 0 < b /\ a + b = 1)%R /\
    (forall v, In v ["K"; "L"; "r"; "w"; "Y"; "P"; "A"] -> exists x, rho v ix = Some x /\ (0 < x)%R) /\
    Forall (holds rho ix) value_form /\ ~ Forall (holds rho ix) production_form.
Proof. exact @c55_closures_refuted__p. Qed.
Print Assumptions c55_closures_refuted.

(** ** C56 *)
Theorem c56_equivalent :
  forall (rho : valuation) (ix : indices) (l : list factor) (output output_price TFP epsilon : string) (y p a e : R),
  l <> [] -> Forall (factor_ok rho ix) l -> (forall f, In f l -> 0 < qty f /\ 0 < share f)%R -> (0 < y /\ 0 < p /\ 0 < a)%R ->
  unit_val rho ix output y -> no_eq output -> unit_val rho ix output_price p -> no_eq output_price ->
  unit_val rho ix TFP a -> unit_val rho ix epsilon e -> e <> 0%R -> e <> 1%R ->
  let ces := CES (Many (map f_name l)) (Many (map f_price l)) output output_price TFP (Many (map f_share l)) epsilon None in
  let unit_cost := (Rpower (sum_over (fun f => Rpower (share f) e * Rpower (price f) (1 - e)) l) (1 / (1 - e)) / a)%R in
  exists value production demands,
    fst (ces true) = Ok (value :: demands) /\ fst (ces false) = Ok (production :: demands) /\
    (Forall (holds rho ix) demands <-> forall f, In f l -> (qty f = y / a * Rpower (share f * p * a / price f) e)%R) /\
    (holds rho ix value <-> (y * p = sum_over (fun f => price f * qty f) l)%R) /\
    (holds rho ix production <-> (y = a * Rpower (sum_over (fun f => share f * Rpower (qty f) ((e - 1) / e)) l) (e / (e - 1)))%R) /\
    (Forall (holds rho ix) demands -> (holds rho ix value <-> holds rho ix production) /\ (holds rho ix value <-> p = unit_cost)).
Proof. exact @c56_equivalent__p. Qed.
Print Assumptions c56_equivalent.
Lemma ces_ex use_value : exists eqs, fst (CES (Many ["K"; "L"]) (Many ["r"; "w"]) "Y" "P" "A" (Many ["a"; "b"]) "eps" None use_value) = Ok eqs /\ Forall (holds (ex_env (1 / 2)) ix0) eqs.
Proof.
  destruct (@c56_equivalent (ex_env (1 / 2)) ix0 (ex_factors (1 / 2)) "Y" "P" "A" "eps" 1 2 1 2) as (v & pr & d & C1 & C2 & D & V & _ & Eq);
    [discriminate|apply ex_ok|apply ex_pos; lra|lra|apply ex_Y|reflexivity|apply ex_P|reflexivity|apply ex_A|apply ex_eps|lra|lra|].
  assert (Hd : Forall (holds (ex_env (1 / 2)) ix0) d).
  { apply (proj2 D). intros f [<-|[<-|[]]]; cbn [price qty share]; replace (1 / 2 * 2 * 1 / 1)%R with 1%R by lra; rewrite rpower_1_l; lra. }
  assert (Hv : holds (ex_env (1 / 2)) ix0 v) by (apply V; unfold sum_over, ex_factors; cbn [fold_right price qty]; lra).
  destruct use_value; [exists (v :: d); split; [exact C1|now constructor]|exists (pr :: d); split; [exact C2|constructor; [now apply (Eq Hd)|exact Hd]]].
Qed.
Example c56_equivalent_ex : exists eqs, fst (CES (Many ["K"; "L"]) (Many ["r"; "w"]) "Y" "P" "A" (Many ["a"; "b"]) "eps" None false) = Ok eqs /\ Forall (holds (ex_env (1 / 2)) ix0) eqs.
Proof. exact (ces_ex false). Qed.

(** Three units of capital and one of labour make more, and cost more. *)
Theorem c56_minimises :
  forall (rho : valuation) (ix : indices) (l : list factor) (output output_price TFP epsilon : string) (y p a e : R) use_value eqs,
  l <> [] -> Forall (factor_ok rho ix) l -> (forall f, In f l -> 0 < qty f /\ 0 < share f)%R -> (0 < y /\ 0 < p /\ 0 < a)%R ->
  unit_val rho ix output y -> no_eq output -> unit_val rho ix output_price p -> no_eq output_price ->
  unit_val rho ix TFP a -> unit_val rho ix epsilon e -> (0 < e)%R -> e <> 1%R ->
  fst (CES (Many (map f_name l)) (Many (map f_price l)) output output_price TFP (Many (map f_share l)) epsilon None use_value) = Ok eqs ->
  Forall (holds rho ix) eqs ->
  forall zs, length zs = length l -> Forall (fun z => 0 < z)%R zs ->
  (y <= a * Rpower (sum_with (fun f z => share f * Rpower z ((e - 1) / e)) l zs) (e / (e - 1)))%R ->
  (sum_over (fun f => price f * qty f) l <= sum_with (fun f z => price f * z) l zs)%R.
Proof. exact @c56_minimises__p. Qed.
Print Assumptions c56_minimises.
Example c56_minimises_ex : (sum_over (fun f => price f * qty f) (ex_factors (1 / 2)) <= sum_with (fun f z => price f * z) (ex_factors (1 / 2)) [3; 1])%R.
Proof.
  destruct (ces_ex true) as (eqs & E & H).
  apply (@c56_minimises (ex_env (1 / 2)) ix0 (ex_factors (1 / 2)) "Y" "P" "A" "eps" 1 2 1 2 true eqs);
    [discriminate|apply ex_ok|apply ex_pos; lra|lra|apply ex_Y|reflexivity|apply ex_P|reflexivity|apply ex_A|apply ex_eps|lra|lra|exact E|exact H|reflexivity|repeat constructor; lra|].
  unfold sum_with, ex_factors. cbn [combine map fold_right fst snd share]. rewrite rpower_1_l.
  replace (2 / (2 - 1))%R with 2%R by lra. replace ((2 - 1) / 2)%R with (1 / 2)%R by lra.
  assert (X : (1 <= Rpower 3 (1 / 2))%R) by (apply Rle_trans with (Rpower 1 (1 / 2)); [rewrite rpower_1_l; lra|apply Rle_Rpower_l; lra]).
  rewrite Rmult_1_l. apply Rle_trans with (Rpower 1 2); [rewrite rpower_1_l; lra|apply Rle_Rpower_l; lra].
Qed.

(** ** C57 *)
Theorem c57_one_dim :
  forall (rho : valuation) (ix : indices) (l : list factor) (output output_price d : string) coords sum_dim expand_price_dim transpose_output backend (y p : R),
  2 <= length l -> Forall (factor_ok rho ix) l -> Forall (fun f => unit_val rho ix (f_share f) (share f)) l ->
  unit_val rho ix output y -> no_eq output -> expr_val rho ix output_price p -> p <> 0%R -> y <> 0%R ->
  exists eqs, leontief (Many (map f_name l)) (Many (map f_price l)) output output_price (Many (map f_share l)) (One d) coords sum_dim expand_price_dim transpose_output backend = Ok eqs /\
    (Forall (holds rho ix) eqs <->
     ((p * y = sum_over (fun f => price f * qty f) l)%R /\ forall f, In f l -> (qty f = share f * y)%R)) /\
    (Forall (holds rho ix) eqs <->
     ((p = sum_over (fun f => price f * share f) l)%R /\ forall f, In f l -> (qty f = share f * y)%R)).
Proof. exact @c57_one_dim__p. Qed.
Print Assumptions c57_one_dim.
Example c57_one_dim_ex : exists eqs,
  leontief (Many ["K"; "L"]) (Many ["r"; "w"]) "Y" "P" (Many ["a"; "b"]) (One "i") [("i", ["A"])] None true true "numba" = Ok eqs /\ Forall (holds (ex_env 1) ix0) eqs.
Proof.
  destruct (@c57_one_dim (ex_env 1) ix0 (ex_factors 1) "Y" "P" "i" [("i", ["A"])] None true true "numba" 1 2) as (eqs & E & _ & M);
    [simpl; lia|apply ex_ok|repeat constructor; unit_tac|apply ex_Y|reflexivity|apply unit_expr, ex_P|lra|lra|].
  exists eqs. split; [exact E|]. apply M. unfold sum_over, ex_factors. cbn [fold_right price share]. split; [lra|]. intros f [<-|[<-|[]]]; cbn [qty share]; lra.
Qed.

Theorem c57_two_dims :
  forall (rho : valuation) (ix : indices) (c d : string) (labels_c labels_d : list string) coords dims sum_dim expand_price_dim transpose_output
         (factor price output output_price share : string) (x q a : nat -> nat -> R) (y p : nat -> R),
  is_name c -> is_name d -> c <> d -> dget c coords = Some labels_c -> dget d coords = Some labels_d -> labels_d <> [] ->
  dims = [c; d] /\ (sum_dim = None \/ sum_dim = Some d) \/ dims = [d; c] /\ sum_dim = Some d ->
  let m := length labels_c in let n := length labels_d in
  unit_at2 rho ix c d m n factor x -> no_eq factor -> unit_at2 rho ix c d m n price q -> unit_at2 rho ix c d m n share a ->
  name_at rho ix c d m output y -> name_at rho ix c d m output_price p ->
  (forall i, i < m -> y i <> 0%R /\ p i <> 0%R) ->
  exists eqs, leontief (One factor) (One price) output output_price (One share) (Many dims) coords sum_dim expand_price_dim transpose_output "numba" = Ok eqs /\
    ((forall i k, i < m -> k < n -> Forall (holds rho (at2 ix c d i k)) eqs) <->
     (forall i, i < m -> p i = sum_n (fun k => q i k * a i k)%R n /\ forall k, k < n -> x i k = (a i k * y i)%R)).
Proof. exact @c57_two_dims__p. Qed.
Print Assumptions c57_two_dims.
Example c57_two_dims_ex : exists eqs,
  leontief (One "X") (One "q") "Y" "P" (One "a") (Many ["i"; "j"]) [("i", ["A"; "B"; "C"]); ("j", ["A"; "B"])] None true true "numba" = Ok eqs /\
  forall i k, i < 3 -> k < 2 -> Forall (holds (ex_env 1) (at2 ix0 "i" "j" i k)) eqs.
Proof.
  destruct (@c57_two_dims (ex_env 1) ix0 "i" "j" ["A"; "B"; "C"] ["A"; "B"] [("i", ["A"; "B"; "C"]); ("j", ["A"; "B"])] ["i"; "j"] None true true
    "X" "q" "Y" "P" "a" (fun _ _ => 1%R) (fun _ _ => 1%R) (fun _ _ => 1%R) (fun _ => 1%R) (fun _ => 2%R)) as (eqs & E & M);
    try (repeat split; discriminate); try discriminate; try reflexivity; try (apply word_at2; reflexivity); try (repeat split; (discriminate || reflexivity)).
  - left. auto.
  - intros; lra.
  - exists eqs. split; [exact E|]. apply M. intros i Hi. unfold sum_n. cbn [map seq fold_right length]. split; [lra|]. intros; lra.
Qed.

(** With default arguments and outputs along the second dimension *)
Theorem c57_default_refuted :
  exists (rho : valuation) (x a : nat -> nat -> R) (q y p : nat -> R) eqs,
    leontief (One "X") (One "q") "Y" "P" (One "a") (Many ["i"; "j"]) [("i", ["A"; "B"]); ("j", ["A"; "B"])] None true true "numba" = Ok eqs /\
    (forall ix i k, i < 2 -> k < 2 ->
       let here := at2 ix "i" "j" i k in
       rho "X" here = Some (x i k) /\ rho "q" here = Some (q i) /\ rho "a" here = Some (a i k) /\ rho "Y" here = Some (y k) /\ rho "P" here = Some (p k) /\
       Forall (holds rho here) eqs) /\
    ~ forall k, k < 2 -> p k = sum_n (fun i => q i * a i k)%R 2.
Proof. exact @c57_default_refuted__p. Qed.
Print Assumptions c57_default_refuted.

(** ** C58 *)
Theorem c58_meaning :
  forall (rho : valuation) (ix : indices) (i : string) (labels : list string) coords (factor price output output_price epsilon : string) (TFP shares : option string)
         (x q s : nat -> R) (y p a e : R),
  let n := length labels in
  is_name i -> dget i coords = Some labels -> labels <> [] ->
  unit_at rho ix i n factor x -> unit_at rho ix i n price q -> opt_at rho ix i n shares s -> unit_at rho ix i n output (fun _ => y) ->
  unit_at rho ix i n output_price (fun _ => p) -> opt_at rho ix i n TFP (fun _ => a) -> unit_at rho ix i n epsilon (fun _ => e) ->
  no_eq factor -> no_eq output -> e <> 0%R -> e <> 1%R ->
  (forall k, k < n -> (0 < x k /\ 0 < q k /\ 0 < s k)%R) -> (0 < p)%R -> (0 < a)%R ->
  exists definition demand,
    dixit_stiglitz (One factor) (One price) output output_price epsilon i coords "numba" TFP (option_map One shares) false = Ok (definition, demand) /\
    (forall k, k < n -> (holds rho (upd ix i k) definition <-> y = aggregate a e s x n)) /\
    (TFP <> None -> forall k, k < n -> (holds rho (upd ix i k) demand <-> x k = (y / a * Rpower (s k * p * a / q k) e)%R)).
Proof. exact @c58_meaning__p. Qed.
Print Assumptions c58_meaning.
Lemma ds_ex : exists definition demand,
  dixit_stiglitz (One "X") (One "q") "Y" "P" "eps" "i" [("i", ["A"; "B"])] "numba" (Some "A") (Some (One "a")) false = Ok (definition, demand) /\
  forall k, k < 2 -> holds (ex_env (1 / 2)) (upd ix0 "i" k) definition /\ holds (ex_env (1 / 2)) (upd ix0 "i" k) demand.
Proof.
  destruct (@c58_meaning (ex_env (1 / 2)) ix0 "i" ["A"; "B"] [("i", ["A"; "B"])] "X" "q" "Y" "P" "eps" (Some "A") (Some "a")
    (fun _ => 1%R) (fun _ => 1%R) (fun _ => (1 / 2)%R) 1 2 1 2) as (def & dem & E & M1 & M2);
    try discriminate; try reflexivity; try lra; try (apply word_at; reflexivity); try (repeat split; (discriminate || reflexivity)).
  - intros; lra.
  - exists def, dem. split; [exact E|]. intros k K. split; [apply M1; [exact K|]|apply M2; [discriminate|exact K|]].
    + unfold aggregate, sum_n. cbn [map seq fold_right length]. rewrite rpower_1_l. replace (1 / 2 * 1 + (1 / 2 * 1 + 0))%R with 1%R by lra. rewrite rpower_1_l. lra.
    + replace (1 / 2 * 2 * 1 / 1)%R with 1%R by lra. rewrite rpower_1_l. lra.
Qed.
Example c58_meaning_ex : exists definition demand,
  dixit_stiglitz (One "X") (One "q") "Y" "P" "eps" "i" [("i", ["A"; "B"])] "numba" (Some "A") (Some (One "a")) false = Ok (definition, demand) /\
  forall k, k < 2 -> holds (ex_env (1 / 2)) (upd ix0 "i" k) definition /\ holds (ex_env (1 / 2)) (upd ix0 "i" k) demand.
Proof. exact ds_ex. Qed.

Theorem c58_minimises :
  forall (rho : valuation) (ix : indices) (i : string) (labels : list string) coords (factor price output output_price epsilon TFP : string) (shares : option string)
         (x q s : nat -> R) (y p a e : R) definition demand,
  let n := length labels in
  is_name i -> dget i coords = Some labels -> labels <> [] ->
  unit_at rho ix i n factor x -> unit_at rho ix i n price q -> opt_at rho ix i n shares s -> unit_at rho ix i n output (fun _ => y) ->
  unit_at rho ix i n output_price (fun _ => p) -> unit_at rho ix i n TFP (fun _ => a) -> unit_at rho ix i n epsilon (fun _ => e) ->
  no_eq factor -> no_eq output -> (0 < e)%R -> e <> 1%R ->
  (forall k, k < n -> (0 < x k /\ 0 < q k /\ 0 < s k)%R) -> (0 < p)%R -> (0 < a)%R -> (0 < y)%R ->
  dixit_stiglitz (One factor) (One price) output output_price epsilon i coords "numba" (Some TFP) (option_map One shares) false = Ok (definition, demand) ->
  (forall k, k < n -> holds rho (upd ix i k) definition /\ holds rho (upd ix i k) demand) ->
  aggregate a e s x n = y /\ (sum_n (fun k => q k * x k) n = p * y)%R /\
  forall z, (forall k, k < n -> (0 < z k)%R) -> (y <= aggregate a e s z n)%R -> (sum_n (fun k => q k * x k) n <= sum_n (fun k => q k * z k) n)%R.
Proof. exact @c58_minimises__p. Qed.
Print Assumptions c58_minimises.
Example c58_minimises_ex : aggregate 1 2 (fun _ => 1 / 2)%R (fun _ => 1%R) 2 = 1%R /\ (sum_n (fun _ => 1 * 1) 2 = 2 * 1)%R.
Proof.
  destruct ds_ex as (def & dem & E & H).
  destruct (@c58_minimises (ex_env (1 / 2)) ix0 "i" ["A"; "B"] [("i", ["A"; "B"])] "X" "q" "Y" "P" "eps" "A" (Some "a")
    (fun _ => 1%R) (fun _ => 1%R) (fun _ => (1 / 2)%R) 1 2 1 2 def dem) as (H1 & H2 & _);
    try discriminate; try reflexivity; try lra; try (apply word_at; reflexivity); try (repeat split; (discriminate || reflexivity)); try assumption.
  - intros; lra.
  - now split.
Qed.

(** Without TFP the demand rises with the price of the variety and falls with that of the aggregate. *)
Theorem c58_without_tfp :
  forall (rho : valuation) (ix : indices) (i : string) (labels : list string) coords (factor price output output_price epsilon : string) (shares : option string)
         (x q s : nat -> R) (y p e : R) definition demand,
  let n := length labels in
  is_name i -> dget i coords = Some labels -> labels <> [] ->
  unit_at rho ix i n factor x -> unit_at rho ix i n price q -> opt_at rho ix i n shares s -> unit_at rho ix i n output (fun _ => y) ->
  unit_at rho ix i n output_price (fun _ => p) -> unit_at rho ix i n epsilon (fun _ => e) ->
  no_eq factor -> no_eq output -> e <> 0%R -> e <> 1%R ->
  (forall k, k < n -> (0 < x k /\ 0 < q k /\ 0 < s k)%R) -> (0 < p)%R ->
  dixit_stiglitz (One factor) (One price) output output_price epsilon i coords "numba" None (option_map One shares) false = Ok (definition, demand) ->
  forall k, k < n -> (holds rho (upd ix i k) demand <-> x k = (y * Rpower (q k / (s k * p)) e)%R).
Proof. exact @c58_without_tfp__p. Qed.
Print Assumptions c58_without_tfp.
Example c58_without_tfp_ex : forall definition demand,
  dixit_stiglitz (One "X") (One "q") "Y" "P" "eps" "i" [("i", ["A"; "B"])] "numba" None None false = Ok (definition, demand) ->
  (holds (ex_env 1) (upd ix0 "i" 0) demand <-> 1%R = (1 * Rpower (1 / (1 * 2)) 2)%R).
Proof.
  intros def dem E.
  apply (@c58_without_tfp (ex_env 1) ix0 "i" ["A"; "B"] [("i", ["A"; "B"])] "X" "q" "Y" "P" "eps" None (fun _ => 1%R) (fun _ => 1%R) (fun _ => 1%R) 1 2 2 def dem);
    try discriminate; try reflexivity; try lra; try (apply word_at; reflexivity); try (repeat split; (discriminate || reflexivity)); try assumption; try (simpl; lia).
  intros; lra.
Qed.
Theorem c58_tfp_refuted :
  exists rho ix def1 demand_without def2 demand_with_one,
    let ds TFP := dixit_stiglitz (One "X") (One "q") "Y" "P" "eps" "i" [("i", ["A"])] "numba" TFP None false in
    ds None = Ok (def1, demand_without) /\ ds (Some "1") = Ok (def2, demand_with_one) /\
    (forall v, In v ["X"; "q"; "Y"; "P"; "eps"] -> exists x, rho v ix = Some x /\ (0 < x)%R) /\
    holds rho ix demand_without /\ ~ holds rho ix demand_with_one.
Proof. exact @c58_tfp_refuted__p. Qed.
Print Assumptions c58_tfp_refuted.
(** The default call: the definition has no value, whatever the variables are. *)
Theorem c58_default_refuted :
  exists definition demand,
    dixit_stiglitz (One "X") (One "q") "Y" "P" "eps" "i" [("i", ["A"; "B"])] "numba" None None true = Ok (definition, demand) /\
    forall rho ix, ~ holds rho ix definition.
Proof. exact @c58_default_refuted__p. Qed.
Print Assumptions c58_default_refuted.

(** ** C59 *)
Theorem c59_accepts :
  forall (factors prices shares : list string) (output output_price TFP epsilon : string) (expand_price_dim : option string) (use_value : bool),
  ((exists eqs, fst (cobb_douglass (Many factors) (Many prices) output output_price (Many shares) TFP use_value) = Ok eqs) <->
   length prices = length factors /\ (length shares = length factors \/ length factors = 2 /\ length shares = 1)) /\
  ((exists eqs, fst (CES (Many factors) (Many prices) output output_price TFP (Many shares) epsilon expand_price_dim use_value) = Ok eqs) <->
   length prices = length factors /\ (length shares = length factors \/ length factors = 2 /\ length shares = 1)).
Proof. exact @c59_accepts__p. Qed.
Print Assumptions c59_accepts.
Example c59_accepts_ex : exists eqs, fst (cobb_douglass (Many ["K"; "L"; "E"]) (Many ["r"; "w"; "pe"]) "Y" "P" (Many ["a"; "b"; "c"]) "A" true) = Ok eqs.
Proof. apply (c59_accepts ["K"; "L"; "E"] ["r"; "w"; "pe"] ["a"; "b"; "c"] "Y" "P" "A" "eps" None true). simpl. auto. Qed.
Theorem c59_equations :
  forall (factors prices shares : list string) (output output_price TFP epsilon : string) (expand_price_dim : option string) (use_value : bool) eqs,
  fst (cobb_douglass (Many factors) (Many prices) output output_price (Many shares) TFP use_value) = Ok eqs \/
  fst (CES (Many factors) (Many prices) output output_price TFP (Many shares) epsilon expand_price_dim use_value) = Ok eqs ->
  length eqs = S (length factors).
Proof. exact @c59_equations__p. Qed.
Print Assumptions c59_equations.
Example c59_equations_ex : exists eqs, fst (cobb_douglass (Many ["K"; "L"; "E"]) (Many ["r"; "w"; "pe"]) "Y" "P" (Many ["a"; "b"; "c"]) "A" true) = Ok eqs /\ length eqs = 4.
Proof. eexists. split; [reflexivity|]. refine (@c59_equations ["K"; "L"; "E"] ["r"; "w"; "pe"] ["a"; "b"; "c"] "Y" "P" "A" "eps" None true _ _). left. reflexivity. Qed.
Theorem c59_expand :
  forall (factors prices : list string) (shares : names) (output output_price TFP epsilon which : string) (use_value : bool),
  let wide p := (p ++ "[:, None]")%string in
  let ces prices output_price expand := fst (CES (Many factors) (Many prices) output output_price TFP shares epsilon expand use_value) in
  forall eqs, ces prices output_price (Some which) = Ok eqs ->
  exists plain demands, ces prices output_price None = Ok plain /\
    ces (if (String.eqb which "input" || String.eqb which "both")%bool then map wide prices else prices)
        (if (String.eqb which "output" || String.eqb which "both")%bool then wide output_price else output_price) None = Ok demands /\
    eqs = firstn 1 plain ++ skipn 1 demands.
Proof. exact @c59_expand__p. Qed.
Print Assumptions c59_expand.
Example c59_expand_ex : fst (CES (Many ["K"; "L"]) (Many ["r"; "w"]) "Y" "P" "A" (One "a") "e" (Some "output") true) =
  Ok ["Y * P = r * K + w * L"; "K = Y / A * ((a) * P[:, None] * A / (r)) ** e"; "L = Y / A * ((1 - a) * P[:, None] * A / (w)) ** e"].
Proof. reflexivity. Qed.
Theorem c59_inferred :
  forall (f1 f2 p1 p2 a output output_price TFP epsilon : string) (expand_price_dim : option string) (use_value : bool),
  let full := Many [a; ("1 - " ++ a)%string] in
  fst (cobb_douglass (Many [f1; f2]) (Many [p1; p2]) output output_price (Many [a]) TFP use_value) =
    fst (cobb_douglass (Many [f1; f2]) (Many [p1; p2]) output output_price full TFP use_value) /\
  fst (cobb_douglass (Many [f1; f2]) (Many [p1; p2]) output output_price (One a) TFP use_value) =
    fst (cobb_douglass (Many [f1; f2]) (Many [p1; p2]) output output_price full TFP use_value) /\
  fst (CES (Many [f1; f2]) (Many [p1; p2]) output output_price TFP (Many [a]) epsilon expand_price_dim use_value) =
    fst (CES (Many [f1; f2]) (Many [p1; p2]) output output_price TFP full epsilon expand_price_dim use_value) /\
  fst (CES (Many [f1; f2]) (Many [p1; p2]) output output_price TFP (One a) epsilon expand_price_dim use_value) =
    fst (CES (Many [f1; f2]) (Many [p1; p2]) output output_price TFP full epsilon expand_price_dim use_value).
Proof. exact @c59_inferred__p. Qed.
Print Assumptions c59_inferred.
Example c59_inferred_ex :
  fst (cobb_douglass (Many ["K"; "L"]) (Many ["r"; "w"]) "Y" "P" (One "a") "A" false) =
  Ok ["Y = A * K ** (a) * L ** (1 - a)"; "K = (a) * Y * (P) / (r)"; "L = (1 - a) * Y * (P) / (w)"].
Proof. rewrite (proj1 (proj2 (c59_inferred "K" "L" "r" "w" "a" "Y" "P" "A" "eps" None false))). reflexivity. Qed.
(** Two shares of three are rejected, though the documentation has the last share inferred. *)
Theorem c59_inferred_refuted :
  fst (cobb_douglass (Many ["K"; "L"; "E"]) (Many ["r"; "w"; "pe"]) "Y" "P" (Many ["a"; "b"]) "A" true) = Err ValueError /\
  fst (CES (Many ["K"; "L"; "E"]) (Many ["r"; "w"; "pe"]) "Y" "P" "A" (Many ["a"; "b"]) "eps" None true) = Err ValueError.
Proof. exact @c59_inferred_refuted__p. Qed.
Print Assumptions c59_inferred_refuted.
Theorem c59_unmodified :
  forall (factors prices shares : names) (output output_price TFP epsilon : string) (expand_price_dim : option string) (use_value : bool),
  (forall f1 f2 a, factors = Many [f1; f2] -> shares <> Many [a]) ->
  snd (cobb_douglass factors prices output output_price shares TFP use_value) = shares /\
  snd (CES factors prices output output_price TFP shares epsilon expand_price_dim use_value) = shares.
Proof. exact @c59_unmodified__p. Qed.
Print Assumptions c59_unmodified.
Example c59_unmodified_ex : snd (cobb_douglass (Many ["K"; "L"]) (Many ["r"; "w"]) "Y" "P" (Many ["a"; "b"]) "A" false) = Many ["a"; "b"].
Proof. apply (@c59_unmodified (Many ["K"; "L"]) (Many ["r"; "w"]) (Many ["a"; "b"]) "Y" "P" "A" "eps" None false). discriminate. Qed.
(** The caller's list gets a second element. *)
Theorem c59_mutation_refuted :
  snd (cobb_douglass (Many ["K"; "L"]) (Many ["r"; "w"]) "Y" "P" (Many ["a"]) "A" true) = Many ["a"; "1 - a"] /\
  snd (CES (Many ["K"; "L"]) (Many ["r"; "w"]) "Y" "P" "A" (Many ["a"]) "eps" None true) = Many ["a"; "1 - a"].
Proof. exact @c59_mutation_refuted__p. Qed.
Print Assumptions c59_mutation_refuted.
Theorem c59_shared_list_refuted :
  exists shares, let first := cobb_douglass (Many ["K"; "L"]) (Many ["r"; "w"]) "Y" "P" shares "A" true in
    let second shares := fst (cobb_douglass (Many ["E"]) (Many ["pe"]) "Z" "Q" shares "B" true) in
    (exists eqs, second shares = Ok eqs) /\ second (snd first) = Err ValueError.
Proof. exact @c59_shared_list_refuted__p. Qed.
Print Assumptions c59_shared_list_refuted.
Theorem c59_again :
  forall (factors prices shares : names) (output output_price TFP epsilon : string) (expand_price_dim : option string) (use_value : bool),
  (let cd s := cobb_douglass factors prices output output_price s TFP use_value in fst (cd (snd (cd shares))) = fst (cd shares)) /\
  (let ces s := CES factors prices output output_price TFP s epsilon expand_price_dim use_value in fst (ces (snd (ces shares))) = fst (ces shares)).
Proof. exact @c59_again__p. Qed.
Print Assumptions c59_again.
Example c59_again_ex : let cd s := cobb_douglass (Many ["K"; "L"]) (Many ["r"; "w"]) "Y" "P" s "A" true in
  snd (cd (Many ["a"])) <> Many ["a"] /\ fst (cd (snd (cd (Many ["a"])))) = fst (cd (Many ["a"])).
Proof. split; [discriminate|]. apply (c59_again (Many ["K"; "L"]) (Many ["r"; "w"]) (Many ["a"]) "Y" "P" "A" "eps" None true). Qed.
(** A single factor called Labor, given as a string, becomes the factor L. *)
Theorem c59_string_refuted :
  fst (cobb_douglass (One "Labor") (One "wage") "Y" "P" (One "a") "A" false) =
    Ok ["Y = A * L ** (a)"; "L = (a) * Y * (P) / (w)"].
Proof. exact @c59_string_refuted__p. Qed.
Print Assumptions c59_string_refuted.
Theorem c59_leontief :
  forall (factors prices shares : list string) (output output_price dim : string) coords sum_dim expand_price_dim transpose_output backend,
  (exists eqs, leontief (Many factors) (Many prices) output output_price (Many shares) (One dim) coords sum_dim expand_price_dim transpose_output backend = Ok eqs) <->
  length prices = length factors /\ length shares = length factors /\ length factors <> 1.
Proof. exact @c59_leontief__p. Qed.
Print Assumptions c59_leontief.
Example c59_leontief_ex : exists eqs, leontief (Many ["K"; "L"]) (Many ["r"; "w"]) "Y" "P" (Many ["a"; "b"]) (One "i") [] None true true "numba" = Ok eqs.
Proof. apply (c59_leontief ["K"; "L"] ["r"; "w"] ["a"; "b"] "Y" "P" "i" [] None true true "numba"). simpl. auto. Qed.
Theorem c59_dixit_stiglitz :
  forall (factors prices : list string) (shares : option (list string)) (output output_price epsilon dim : string) coords backend TFP use_value,
  (exists eqs, dixit_stiglitz (Many factors) (Many prices) output output_price epsilon dim coords backend TFP (option_map Many shares) use_value = Ok eqs) <->
  length factors = 1 /\ length prices = 1 /\ (forall s, shares = Some s -> length s = 1) /\ dget dim coords <> None /\ (backend = "numba" \/ backend = "pytensor").
Proof. exact @c59_dixit_stiglitz__p. Qed.
Print Assumptions c59_dixit_stiglitz.
Example c59_dixit_stiglitz_ex : exists eqs, dixit_stiglitz (Many ["X"]) (Many ["q"]) "Y" "P" "eps" "i" [("i", ["A"])] "pytensor" None (Some (Many ["a"])) true = Ok eqs.
Proof.
  apply (c59_dixit_stiglitz ["X"] ["q"] (Some ["a"]) "Y" "P" "eps" "i" [("i", ["A"])] "pytensor" None true).
  repeat split; auto; [|discriminate]. intros s H. injection H as <-. reflexivity.
Qed.

(** ** C60 *)
Theorem c60_cobb_douglass :
  forall (rho : valuation) (ix : indices) (l l' : list factor) (output output' output_price output_price' TFP TFP' : string) (y p a : R) (use_value : bool) eqs eqs',
  l <> [] -> Forall2 same_values l l' -> Forall (factor_ok rho ix) l -> Forall (factor_ok rho ix) l' -> (forall f, In f l -> 0 < qty f)%R ->
  unit_val rho ix output y -> unit_val rho ix output' y -> no_eq output -> no_eq output' ->
  unit_val rho ix output_price p -> unit_val rho ix output_price' p -> no_eq output_price -> no_eq output_price' ->
  unit_val rho ix TFP a -> unit_val rho ix TFP' a ->
  fst (cobb_douglass (Many (map f_name l)) (Many (map f_price l)) output output_price (Many (map f_share l)) TFP use_value) = Ok eqs ->
  fst (cobb_douglass (Many (map f_name l')) (Many (map f_price l')) output' output_price' (Many (map f_share l')) TFP' use_value) = Ok eqs' ->
  (Forall (holds rho ix) eqs <-> Forall (holds rho ix) eqs').
Proof. exact @c60_cobb_douglass__p. Qed.
Print Assumptions c60_cobb_douglass.
Example c60_cobb_douglass_ex : exists eqs,
  fst (cobb_douglass (Many ["K"; "(L)"]) (Many ["(2 - w)"; "w"]) "Y" "P" (Many ["a + r - 1"; "b"]) "A" false) = Ok eqs /\ Forall (holds (ex_env (1 / 2)) ix0) eqs.
Proof.
  destruct c55_meaning_ex as (eqs & E & _ & H). eexists. split; [reflexivity|].
  apply (@c60_cobb_douglass (ex_env (1 / 2)) ix0 (ex_factors (1 / 2)) (ex_factors' (1 / 2)) "Y" "Y" "P" "P" "A" "A" 1 2 1 false eqs);
    [discriminate|apply ex_same|apply ex_ok|apply ex_ok'|apply ex_pos; lra|apply ex_Y|apply ex_Y|reflexivity|reflexivity|apply ex_P|apply ex_P|reflexivity|reflexivity|apply ex_A|apply ex_A|exact E|reflexivity|exact H].
Qed.
Theorem c60_CES :
  forall (rho : valuation) (ix : indices) (l l' : list factor) (output output' output_price output_price' TFP TFP' epsilon epsilon' : string) (y p a e : R) (use_value : bool) eqs eqs',
  l <> [] -> Forall2 same_values l l' -> Forall (factor_ok rho ix) l -> Forall (factor_ok rho ix) l' -> (forall f, In f l -> 0 < qty f /\ 0 < share f)%R ->
  (0 < y /\ 0 < p /\ 0 < a)%R -> e <> 0%R -> e <> 1%R ->
  unit_val rho ix output y -> unit_val rho ix output' y -> no_eq output -> no_eq output' ->
  unit_val rho ix output_price p -> unit_val rho ix output_price' p -> no_eq output_price -> no_eq output_price' ->
  unit_val rho ix TFP a -> unit_val rho ix TFP' a -> unit_val rho ix epsilon e -> unit_val rho ix epsilon' e ->
  fst (CES (Many (map f_name l)) (Many (map f_price l)) output output_price TFP (Many (map f_share l)) epsilon None use_value) = Ok eqs ->
  fst (CES (Many (map f_name l')) (Many (map f_price l')) output' output_price' TFP' (Many (map f_share l')) epsilon' None use_value) = Ok eqs' ->
  (Forall (holds rho ix) eqs <-> Forall (holds rho ix) eqs').
Proof. exact @c60_CES__p. Qed.
Print Assumptions c60_CES.
Example c60_CES_ex : exists eqs,
  fst (CES (Many ["K"; "(L)"]) (Many ["(2 - w)"; "w"]) "Y" "P" "A" (Many ["a + r - 1"; "b"]) "eps" None false) = Ok eqs /\ Forall (holds (ex_env (1 / 2)) ix0) eqs.
Proof.
  destruct (ces_ex false) as (eqs & E & H). eexists. split; [reflexivity|].
  apply (@c60_CES (ex_env (1 / 2)) ix0 (ex_factors (1 / 2)) (ex_factors' (1 / 2)) "Y" "Y" "P" "P" "A" "A" "eps" "eps" 1 2 1 2 false eqs);
    [discriminate|apply ex_same|apply ex_ok|apply ex_ok'|apply ex_pos; lra|lra|lra|lra|apply ex_Y|apply ex_Y|reflexivity|reflexivity|apply ex_P|apply ex_P|reflexivity|reflexivity|apply ex_A|apply ex_A|apply ex_eps|apply ex_eps|exact E|reflexivity|exact H].
Qed.
Theorem c60_leontief :
  forall (rho : valuation) (ix : indices) (l l' : list factor) (output output' output_price output_price' d : string) coords sum_dim expand_price_dim transpose_output backend (y p : R) eqs eqs',
  2 <= length l -> Forall2 same_values l l' -> Forall (factor_ok rho ix) l -> Forall (factor_ok rho ix) l' ->
  Forall (fun f => unit_val rho ix (f_share f) (share f)) l -> Forall (fun f => unit_val rho ix (f_share f) (share f)) l' ->
  unit_val rho ix output y -> unit_val rho ix output' y -> no_eq output -> no_eq output' ->
  expr_val rho ix output_price p -> expr_val rho ix output_price' p -> p <> 0%R -> y <> 0%R ->
  let le l output output_price := leontief (Many (map f_name l)) (Many (map f_price l)) output output_price (Many (map f_share l)) (One d) coords sum_dim expand_price_dim transpose_output backend in
  le l output output_price = Ok eqs -> le l' output' output_price' = Ok eqs' ->
  (Forall (holds rho ix) eqs <-> Forall (holds rho ix) eqs').
Proof. exact @c60_leontief__p. Qed.
Print Assumptions c60_leontief.
Example c60_leontief_ex : exists eqs,
  leontief (Many ["K"; "L"]) (Many ["r"; "w"]) "Y" "P * 1" (Many ["a"; "b"]) (One "i") [] None true true "numba" = Ok eqs /\ Forall (holds (ex_env 1) ix0) eqs.
Proof.
  destruct c57_one_dim_ex as (eqs & E & H). eexists. split; [reflexivity|].
  refine (proj1 (@c60_leontief (ex_env 1) ix0 (ex_factors 1) (ex_factors 1) "Y" "Y" "P" "P * 1" "i" [] None true true "numba" 1 2 eqs _ _ _ _ _ _ _ _ _ _ _ _ _ _ _ E eq_refl) H);
    [simpl; lia|repeat constructor|apply ex_ok|apply ex_ok|repeat constructor; unit_tac|repeat constructor; unit_tac|apply ex_Y|apply ex_Y|reflexivity|reflexivity|apply unit_expr, ex_P| |lra|lra].
  replace 2%R with (2 * 1)%R by lra. apply expr_V, V_term. change "P * 1" with ("P" ++ " * " ++ "1")%string. apply sv_mul; [apply V_unit_term, unit_V, ex_P|apply V_unit_factor, unit_V; unit_tac].
Qed.
(** Sums and differences elsewhere are torn apart: an output u + v, a single share b - c, a coefficient b - c. *)
Theorem c60_output_refuted :
  exists rho ix eqs eqs',
    let cd output := fst (cobb_douglass (Many ["K"; "L"]) (Many ["r"; "w"]) output "P" (Many ["a"; "a"]) "A" true) in
    cd "z" = Ok eqs /\ cd "u + v" = Ok eqs' /\ meaning rho ix "u + v" = rho "z" ix /\ Forall (holds rho ix) eqs /\ ~ Forall (holds rho ix) eqs'.
Proof. exact @c60_output_refuted__p. Qed.
Print Assumptions c60_output_refuted.
Theorem c60_share_refuted :
  exists rho ix eqs eqs',
    let cd share := fst (cobb_douglass (Many ["K"; "L"]) (Many ["r"; "w"]) "Y" "P" (One share) "A" true) in
    cd "z" = Ok eqs /\ cd "b - c" = Ok eqs' /\ meaning rho ix "b - c" = rho "z" ix /\ Forall (holds rho ix) eqs /\ ~ Forall (holds rho ix) eqs'.
Proof. exact @c60_share_refuted__p. Qed.
Print Assumptions c60_share_refuted.
Theorem c60_coefficient_refuted :
  exists rho ix eqs eqs',
    let le share := leontief (Many ["K"; "L"]) (Many ["r"; "w"]) "Y" "P" (Many [share; "d"]) (One "i") [("i", ["A"])] None true true "numba" in
    le "z" = Ok eqs /\ le "b - c" = Ok eqs' /\ meaning rho ix "b - c" = rho "z" ix /\ Forall (holds rho ix) eqs /\ ~ Forall (holds rho ix) eqs'.
Proof. exact @c60_coefficient_refuted__p. Qed.
Print Assumptions c60_coefficient_refuted.
