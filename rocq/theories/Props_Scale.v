(** C111: prices and quantities in other units. *)
From Coq Require Import Ascii Reals Lra Lia ZArith.
From Verif Require Import Py PyStr NdArray M_Primitives M_Utilities M_PyExpr M_Expand M_Graph M_SymExpr M_Calculus M_Simplify M_Lambdify M_NumbaModel M_SympyTensor M_Equations M_Tensor M_Production M_Parse.
From Verif Require Import S_PyExpr S_Meaning S_Layout S_Tensor S_Calculus S_Reduce S_Simplify S_Lambdify S_NumbaModel S_SympyTensor S_Parse S_Written S_Production S_Scale.
From Verif Require Import L_Markers L_Reduce L_Reduce5 L_PyExpr L_Production L_Production2 L_Production3 L_Production4 L_Production5 L_Production6 L_ArrayModel L_Simplify L_Simplify2 L_Lambdify L_NumbaModel L_SympyTensor2 L_Solved L_Tensor3 L_Tensor5 L_Tensor6 L_Parse L_Parse2 L_Parse3 L_Parse4 L_Written L_Written2 L_Written3 L_Scale L_Scale2 Props_ProdTensor Props_Parse.
Local Open Scope string_scope.
Local Open Scope list_scope.

(** Two inputs X and Z at prices w and r: prices times [k], quantities times [m] *)
Definition sx_values (k m : R) : list (string * R) :=
  [("X", m * 1)%R; ("Z", m * 1)%R; ("w", k * / 2)%R; ("r", k * / 2)%R; ("Y", m * 1)%R; ("P", k * 1)%R; ("s", / 2)%R; ("B", 1)%R; ("A", 1)%R; ("eps", 2)%R;
   ("M", m * 1)%R; ("Q", k * / 2)%R; ("D", 1)%R; ("U", m * 1)%R; ("V", k * 1)%R].
Definition sx_env (k m : R) : valuation := env (sx_values k m).
Definition sx_at : indices := fun _ => 0.
Lemma sx_unit k m s v : In (s, v) (sx_values k m) -> unit_val (sx_env k m) sx_at s v.
Proof. intros I. exists (EWord s). cbn in I. repeat (destruct I as [I|I]; [injection I as <- <-; split; [repeat constructor|reflexivity]|]). destruct I. Qed.
Lemma sx_expr k m s v : In (s, v) (sx_values k m) -> expr_val (sx_env k m) sx_at s v.
Proof. intros I. destruct (@sx_unit k m s v I) as (e & U & V). exists e. split; [|exact V]. unfold is_expr, is_unit in *. now apply G_term, G_factor, G_power, G_prim. Qed.
Definition sx_l (k m : R) (s : string) (v : R) : list factor := [mkFactor "X" "w" s (m * 1) (k * / 2) v; mkFactor "Z" "r" s (m * 1) (k * / 2) v].
Lemma sx_factors k m s v : (0 < k)%R -> In (s, v) (sx_values k m) -> Forall (factor_ok (sx_env k m) sx_at) (sx_l k m s v).
Proof.
  intros K I. repeat (constructor; [split; [apply sx_unit; cbn; tauto|]; split; [apply sx_unit; cbn; tauto|]; split; [now apply sx_expr|]; split; [reflexivity|cbn; lra]|]). constructor.
Qed.
Lemma sx_rescaled k m s v : Forall2 (rescaled k m) (sx_l 1 1 s v) (sx_l k m s v).
Proof. repeat (constructor; [repeat split; cbn; lra|]). constructor. Qed.
Lemma sx_value k m s v v' : In (s, v) (sx_values k m) -> v' = v -> unit_val (sx_env k m) sx_at s v'.
Proof. intros I ->. now apply sx_unit. Qed.
Ltac val := eapply sx_value; [cbn; auto 20|lra].
Lemma sx_value_e k m s v v' : In (s, v) (sx_values k m) -> v' = v -> expr_val (sx_env k m) sx_at s v'.
Proof. intros I ->. now apply sx_expr. Qed.
Ltac vale := eapply sx_value_e; [cbn; auto 20|lra].
Ltac both := split; val.

Theorem c111_cobb_douglas :
  forall rho rho' ix k m l l' output output_price TFP y p a use_value eqs,
    (0 < k)%R -> (0 < m)%R -> Forall2 (rescaled k m) l l' -> Forall (factor_ok rho ix) l -> Forall (factor_ok rho' ix) l' -> l <> [] -> (forall f, In f l -> 0 < qty f)%R ->
    unit_both rho rho' ix output y (m * y) -> no_eq output -> unit_both rho rho' ix output_price p (k * p) -> no_eq output_price -> unit_both rho rho' ix TFP a a ->
    use_value = true \/ m = 1%R \/ sum_over share l = 1%R ->
    fst (cobb_douglass (Many (map f_name l)) (Many (map f_price l)) output output_price (Many (map f_share l)) TFP use_value) = Ok eqs ->
    (Forall (holds rho ix) eqs <-> Forall (holds rho' ix) eqs).
Proof. exact @c111_cobb_douglas__p. Qed.
Print Assumptions c111_cobb_douglas.
Example c111_cobb_douglas_ex : exists eqs, fst (cobb_douglass (Many ["X"; "Z"]) (Many ["w"; "r"]) "Y" "P" (Many ["s"; "s"]) "A" false) = Ok eqs /\
  Forall (holds (sx_env 1 1) sx_at) eqs /\ Forall (holds (sx_env 3 2) sx_at) eqs.
Proof.
  destruct (@c55_meaning__p (sx_env 1 1) sx_at (sx_l 1 1 "s" (/ 2)) "Y" "P" "A" 1%R 1%R 1%R false) as (eqs & E & _ & H);
    [discriminate|apply sx_factors; [lra|cbn; tauto]|intros f [<-|[<-|[]]]; cbn; lra|val|reflexivity|val|reflexivity|val|].
  exists eqs. split; [exact E|]. assert (S : Forall (holds (sx_env 1 1) sx_at) eqs).
  { apply H. split; [|intros f [<-|[<-|[]]]; cbn; lra]. cbn. rewrite !Rmult_1_r, <- Rpower_plus. replace (/ 2 + / 2)%R with 1%R by lra. rewrite Rpower_1; lra. }
  split; [exact S|]. revert S. apply (@c111_cobb_douglas (sx_env 1 1) (sx_env 3 2) sx_at 3 2 (sx_l 1 1 "s" (/ 2)) (sx_l 3 2 "s" (/ 2)) "Y" "P" "A" 1 1 1 false eqs); try lra; try reflexivity; try exact E.
  - apply sx_rescaled.
  - apply sx_factors; [lra|cbn; tauto].
  - apply sx_factors; [lra|cbn; tauto].
  - discriminate.
  - intros f [<-|[<-|[]]]; cbn; lra.
  - both.
  - both.
  - both.
  - right. right. cbn. lra.
Qed.

Lemma Rpower_one x : Rpower 1 x = 1%R. Proof. unfold Rpower. now rewrite ln_1, Rmult_0_r, exp_0. Qed.
Theorem c111_ces :
  forall rho rho' ix k m l l' output output_price TFP epsilon y p a e use_value eqs,
    (0 < k)%R -> (0 < m)%R -> Forall2 (rescaled k m) l l' -> Forall (factor_ok rho ix) l -> Forall (factor_ok rho' ix) l' -> l <> [] ->
    (forall f, In f l -> 0 < qty f /\ 0 < share f)%R -> (0 < y /\ 0 < p /\ 0 < a)%R -> e <> 0%R -> e <> 1%R ->
    unit_both rho rho' ix output y (m * y) -> no_eq output -> unit_both rho rho' ix output_price p (k * p) -> no_eq output_price -> unit_both rho rho' ix TFP a a -> unit_both rho rho' ix epsilon e e ->
    fst (CES (Many (map f_name l)) (Many (map f_price l)) output output_price TFP (Many (map f_share l)) epsilon None use_value) = Ok eqs ->
    (Forall (holds rho ix) eqs <-> Forall (holds rho' ix) eqs).
Proof. exact @c111_ces__p. Qed.
Print Assumptions c111_ces.
Example c111_ces_ex : exists eqs, fst (CES (Many ["X"; "Z"]) (Many ["w"; "r"]) "Y" "P" "A" (Many ["s"; "s"]) "eps" None false) = Ok eqs /\
  Forall (holds (sx_env 1 1) sx_at) eqs /\ Forall (holds (sx_env 3 2) sx_at) eqs.
Proof.
  destruct (@c56_equivalent__p (sx_env 1 1) sx_at (sx_l 1 1 "s" (/ 2)) "Y" "P" "A" "eps" 1%R 1%R 1%R 2%R) as (value & production & demands & EV & EP & HD & HV & HP & HE);
    [discriminate|apply sx_factors; [lra|cbn; tauto]|intros f [<-|[<-|[]]]; cbn; lra|lra|val|reflexivity|val|reflexivity|val|val|lra|lra|].
  exists (production :: demands). split; [exact EP|]. assert (S : Forall (holds (sx_env 1 1) sx_at) (production :: demands)).
  { constructor.
    - apply HP. cbn. rewrite !Rmult_1_r, !Rpower_one. replace (/ 2 * 1 + (/ 2 * 1 + 0))%R with 1%R by lra. rewrite Rpower_one. lra.
    - apply HD. intros f [<-|[<-|[]]]; cbn; (replace (/ 2 * 1 * 1 / (1 * / 2))%R with 1%R by lra; rewrite Rpower_one; lra). }
  split; [exact S|]. revert S.
  apply (@c111_ces (sx_env 1 1) (sx_env 3 2) sx_at 3 2 (sx_l 1 1 "s" (/ 2)) (sx_l 3 2 "s" (/ 2)) "Y" "P" "A" "eps" 1 1 1 2 false (production :: demands)); try lra; try reflexivity; try exact EP; try both.
  - apply sx_rescaled.
  - apply sx_factors; [lra|cbn; tauto].
  - apply sx_factors; [lra|cbn; tauto].
  - discriminate.
  - intros f [<-|[<-|[]]]; cbn; lra.
Qed.

Theorem c111_leontief :
  forall rho rho' ix k m l l' output output_price d coords sum_dim expand_price_dim transpose_output backend y p eqs,
    (0 < k)%R -> (0 < m)%R -> Forall2 (rescaled k m) l l' -> Forall (factor_ok rho ix) l -> Forall (factor_ok rho' ix) l' -> 2 <= length l ->
    Forall (fun f => unit_both rho rho' ix (f_share f) (share f) (share f)) l -> p <> 0%R -> y <> 0%R ->
    unit_both rho rho' ix output y (m * y) -> no_eq output -> expr_val rho ix output_price p -> expr_val rho' ix output_price (k * p) ->
    leontief (Many (map f_name l)) (Many (map f_price l)) output output_price (Many (map f_share l)) (One d) coords sum_dim expand_price_dim transpose_output backend = Ok eqs ->
    (Forall (holds rho ix) eqs <-> Forall (holds rho' ix) eqs).
Proof. exact @c111_leontief__p. Qed.
Print Assumptions c111_leontief.
Example c111_leontief_ex : exists eqs, leontief (Many ["X"; "Z"]) (Many ["w"; "r"]) "Y" "P" (Many ["B"; "B"]) (One "i") [] None false false "pytensor" = Ok eqs /\
  Forall (holds (sx_env 1 1) sx_at) eqs /\ Forall (holds (sx_env 3 2) sx_at) eqs.
Proof.
  destruct (@c57_one_dim__p (sx_env 1 1) sx_at (sx_l 1 1 "B" 1) "Y" "P" "i" [] None false false "pytensor" 1%R 1%R) as (eqs & E & _ & H);
    [cbn; lia|apply sx_factors; [lra|cbn; tauto]|repeat (constructor; [cbn [f_share share]; val|]); constructor|val|reflexivity|vale|lra|lra|].
  exists eqs. split; [exact E|]. assert (S : Forall (holds (sx_env 1 1) sx_at) eqs).
  { apply H. split; [cbn; lra|]. intros f [<-|[<-|[]]]; cbn; lra. }
  split; [exact S|]. revert S. apply (@c111_leontief (sx_env 1 1) (sx_env 3 2) sx_at 3 2 (sx_l 1 1 "B" 1) (sx_l 3 2 "B" 1) "Y" "P" "i" [] None false false "pytensor" 1 1 eqs); try lra; try reflexivity; try exact E; try both.
  - apply sx_rescaled.
  - apply sx_factors; [lra|cbn; tauto].
  - apply sx_factors; [lra|cbn; tauto].
  - repeat (constructor; [cbn [f_share share]; both|]). constructor.
  - vale.
  - vale.
Qed.

Definition sx_c : dict (list string) := [("i", ["a"; "b"]); ("j", ["p"; "q"])].
Lemma sx_unit2 k m s v v' : In (s, v) (sx_values k m) -> v' = v -> unit_at2 (sx_env k m) sx_at "i" "j" 2 2 s (fun _ _ => v').
Proof. intros I ->. exists (EWord s). cbn in I. repeat (destruct I as [I|I]; [injection I as <- <-; split; [repeat constructor|reflexivity]|]). destruct I. Qed.
Lemma sx_unit1 k m s v v' : In (s, v) (sx_values k m) -> v' = v -> unit_at (sx_env k m) sx_at "i" 2 s (fun _ => v').
Proof. intros I ->. exists (EWord s). cbn in I. repeat (destruct I as [I|I]; [injection I as <- <-; split; [repeat constructor|reflexivity]|]). destruct I. Qed.
Lemma sx_name k m s v v' : In (s, v) (sx_values k m) -> v' = v -> name_at (sx_env k m) sx_at "i" "j" 2 s (fun _ => v').
Proof. intros I ->. cbn in I. repeat (destruct I as [I|I]; [injection I as <- <-; split; [split; [discriminate|split; reflexivity]|split; reflexivity]|]). destruct I. Qed.
Ltac val2 := eapply sx_unit2; [cbn; auto 20|lra].
Ltac val1 := eapply sx_unit1; [cbn; auto 20|lra].
Ltac nameat := eapply sx_name; [cbn; auto 20|lra].
Ltac name := split; [discriminate|split; reflexivity].

Theorem c111_leontief_matrix :
  forall (rho rho' : valuation) (ix : indices) (r s : R) (c d : string) (labels_c labels_d : list string) coords dims sum_dim expand_price_dim transpose_output
         (factor price output output_price share : string) (x q a : nat -> nat -> R) (y p : nat -> R) eqs,
  (0 < r)%R -> (0 < s)%R ->
  is_name c -> is_name d -> c <> d -> dget c coords = Some labels_c -> dget d coords = Some labels_d -> labels_d <> [] ->
  dims = [c; d] /\ (sum_dim = None \/ sum_dim = Some d) \/ dims = [d; c] /\ sum_dim = Some d ->
  let m := length labels_c in let n := length labels_d in
  unit_at2 rho ix c d m n factor x -> unit_at2 rho' ix c d m n factor (fun i k => s * x i k)%R -> no_eq factor ->
  unit_at2 rho ix c d m n price q -> unit_at2 rho' ix c d m n price (fun i k => r * q i k)%R ->
  unit_at2 rho ix c d m n share a -> unit_at2 rho' ix c d m n share a ->
  name_at rho ix c d m output y -> name_at rho' ix c d m output (fun i => s * y i)%R ->
  name_at rho ix c d m output_price p -> name_at rho' ix c d m output_price (fun i => r * p i)%R ->
  (forall i, i < m -> y i <> 0%R /\ p i <> 0%R) ->
  leontief (One factor) (One price) output output_price (One share) (Many dims) coords sum_dim expand_price_dim transpose_output "numba" = Ok eqs ->
  ((forall i k, i < m -> k < n -> Forall (holds rho (at2 ix c d i k)) eqs) <-> (forall i k, i < m -> k < n -> Forall (holds rho' (at2 ix c d i k)) eqs)).
Proof. exact @c111_leontief_matrix__p. Qed.
Print Assumptions c111_leontief_matrix.
Example c111_leontief_matrix_ex : exists eqs, leontief (One "M") (One "Q") "Y" "P" (One "D") (Many ["i"; "j"]) sx_c None false false "numba" = Ok eqs /\
  (forall i k, i < 2 -> k < 2 -> Forall (holds (sx_env 1 1) (at2 sx_at "i" "j" i k)) eqs) /\ (forall i k, i < 2 -> k < 2 -> Forall (holds (sx_env 3 2) (at2 sx_at "i" "j" i k)) eqs).
Proof.
  destruct (@c57_two_dims__p (sx_env 1 1) sx_at "i" "j" ["a"; "b"] ["p"; "q"] sx_c ["i"; "j"] None false false "M" "Q" "Y" "P" "D" (fun _ _ => 1%R) (fun _ _ => (/ 2)%R) (fun _ _ => 1%R) (fun _ => 1%R) (fun _ => 1%R)) as (eqs & E & H);
    try reflexivity; try discriminate; try name; try val2; try nameat; [left; auto|intros; split; lra|].
  exists eqs. split; [exact E|]. assert (S : forall i k, i < 2 -> k < 2 -> Forall (holds (sx_env 1 1) (at2 sx_at "i" "j" i k)) eqs).
  { apply H. intros i Hi. split; [cbn; lra|]. intros k Hk. cbv beta. lra. }
  split; [exact S|]. revert S.
  apply (@c111_leontief_matrix (sx_env 1 1) (sx_env 3 2) sx_at 3 2 "i" "j" ["a"; "b"] ["p"; "q"] sx_c ["i"; "j"] None false false "M" "Q" "Y" "P" "D" (fun _ _ => 1%R) (fun _ _ => (/ 2)%R) (fun _ _ => 1%R) (fun _ => 1%R) (fun _ => 1%R) eqs);
    try reflexivity; try discriminate; try name; try val2; try nameat; try lra; try exact E; [left; auto|intros; split; lra].
Qed.

Theorem c111_dixit_stiglitz :
  forall (rho rho' : valuation) (ix : indices) (k m : R) (i : string) (labels : list string) coords (factor price output output_price epsilon TFP : string) (shares : option string)
         (x q s : nat -> R) (y p a e : R) definition demand,
  let n := length labels in
  (0 < k)%R -> (0 < m)%R -> is_name i -> dget i coords = Some labels -> labels <> [] ->
  unit_at rho ix i n factor x -> unit_at rho' ix i n factor (fun j => m * x j)%R -> unit_at rho ix i n price q -> unit_at rho' ix i n price (fun j => k * q j)%R ->
  opt_at rho ix i n shares s -> opt_at rho' ix i n shares s -> unit_at rho ix i n output (fun _ => y) -> unit_at rho' ix i n output (fun _ => m * y)%R ->
  unit_at rho ix i n output_price (fun _ => p) -> unit_at rho' ix i n output_price (fun _ => k * p)%R ->
  unit_at rho ix i n TFP (fun _ => a) -> unit_at rho' ix i n TFP (fun _ => a) -> unit_at rho ix i n epsilon (fun _ => e) -> unit_at rho' ix i n epsilon (fun _ => e) ->
  no_eq factor -> no_eq output -> e <> 0%R -> e <> 1%R ->
  (forall j, j < n -> (0 < x j /\ 0 < q j /\ 0 < s j)%R) -> (0 < p)%R -> (0 < a)%R ->
  dixit_stiglitz (One factor) (One price) output output_price epsilon i coords "numba" (Some TFP) (option_map One shares) false = Ok (definition, demand) ->
  forall j, j < n -> (holds rho (upd ix i j) definition <-> holds rho' (upd ix i j) definition) /\ (holds rho (upd ix i j) demand <-> holds rho' (upd ix i j) demand).
Proof. exact @c111_dixit_stiglitz__p. Qed.
Print Assumptions c111_dixit_stiglitz.
Example c111_dixit_stiglitz_ex : exists definition demand, dixit_stiglitz (One "X") (One "w") "U" "V" "eps" "i" sx_c "numba" (Some "A") (Some (One "s")) false = Ok (definition, demand) /\
  forall j, j < 2 -> holds (sx_env 1 1) (upd sx_at "i" j) definition /\ holds (sx_env 3 2) (upd sx_at "i" j) definition /\ holds (sx_env 1 1) (upd sx_at "i" j) demand /\ holds (sx_env 3 2) (upd sx_at "i" j) demand.
Proof.
  destruct (@c58_meaning__p (sx_env 1 1) sx_at "i" ["a"; "b"] sx_c "X" "w" "U" "V" "eps" (Some "A") (Some "s") (fun _ => 1%R) (fun _ => (/ 2)%R) (fun _ => (/ 2)%R) 1%R 1%R 1%R 2%R) as (def & dem & E & H1 & H2);
    try reflexivity; try discriminate; try name; cbn [opt_at]; try val1; try lra; [intros; lra|]. exists def, dem. split; [exact E|]. intros j Hj.
  destruct (@c111_dixit_stiglitz (sx_env 1 1) (sx_env 3 2) sx_at 3 2 "i" ["a"; "b"] sx_c "X" "w" "U" "V" "eps" "A" (Some "s") (fun _ => 1%R) (fun _ => (/ 2)%R) (fun _ => (/ 2)%R) 1%R 1%R 1%R 2%R def dem) with (j := j) as (A & B);
    try reflexivity; try discriminate; try name; cbn [opt_at]; try val1; try lra; try exact E; try exact Hj; [intros; lra|].
  rewrite <- A, <- B. assert (D : holds (sx_env 1 1) (upd sx_at "i" j) def).
  { apply (H1 j Hj). unfold aggregate, sum_n. cbn. rewrite !Rpower_one. replace (/ 2 * 1 + (/ 2 * 1 + 0))%R with 1%R by lra. rewrite Rpower_one. lra. }
  assert (D2 : holds (sx_env 1 1) (upd sx_at "i" j) dem).
  { apply (H2 ltac:(discriminate) j Hj). replace (/ 2 * 1 * 1 / / 2)%R with 1%R by lra. rewrite Rpower_one. lra. }
  auto.
Qed.

Theorem c111_shares_refuted :
  exists rho rho' ix m l l' output output_price TFP y p a eqs,
    (0 < m)%R /\ Forall2 (rescaled 1 m) l l' /\ Forall (factor_ok rho ix) l /\ Forall (factor_ok rho' ix) l' /\ (forall f, In f l -> 0 < qty f)%R /\
    unit_both rho rho' ix output y (m * y) /\ unit_both rho rho' ix output_price p (1 * p) /\ unit_both rho rho' ix TFP a a /\
    fst (cobb_douglass (Many (map f_name l)) (Many (map f_price l)) output output_price (Many (map f_share l)) TFP false) = Ok eqs /\
    Forall (holds rho ix) eqs /\ ~ Forall (holds rho' ix) eqs.
Proof. exact @c111_shares_refuted__p. Qed.
Print Assumptions c111_shares_refuted.

Theorem c111_model :
  forall other sub_into set_order dict_order evaluates cse order c vars params texts d x theta d' x' theta' r r',
    numba_model other set_order dict_order evaluates cse order c vars params texts d x theta ->
    numba_model other set_order dict_order evaluates cse order c vars params texts d' x' theta' ->
    (forall s ix, In s texts -> everywhere c ix -> (holds (array_values (vars ++ params) d) ix s <-> holds (array_values (vars ++ params) d') ix s)) ->
    numba_returns other sub_into set_order dict_order evaluates cse order c vars params texts x theta r ->
    numba_returns other sub_into set_order dict_order evaluates cse order c vars params texts x' theta' r' ->
    (vanishes r <-> vanishes r').
Proof. exact @c111_model__p. Qed.
Print Assumptions c111_model.
(** Y = Sum(A, (i, 0, 1)) with Y = 4 and the columns of A summing to 4, in units [t] *)
Definition sy_d (t : R) : dict (arr R) := [("Y", mkArr [] [4 * t]%R); ("A", mkArr [2; 2] [t; 2 * t; 3 * t; 2 * t]%R)].
Lemma sy_value t ix : ix "j" < 2 -> eval (array_values px_objs (sy_d t)) ix (EBin Sub (fst px_sides) (snd px_sides)) = Some 0%R.
Proof.
  intros H. destruct (ix "j") as [|[|]] eqn:E; [| |lia].
  - transitivity (Some (4 * t - (t + (3 * t + 0)))%R); [|f_equal; lra]. unfold px_sides, sum_over. cbn. rewrite E. reflexivity.
  - transitivity (Some (4 * t - (2 * t + (2 * t + 0)))%R); [|f_equal; lra]. unfold px_sides, sum_over. cbn. rewrite E. reflexivity.
Qed.
Lemma sy_equation : equation_in or_c px_objs px_text.
Proof. split; [eexists; eexists; exact px_indexed|]. change px_text with ("Y" ++ " = " ++ "Sum(A, (i, 0, 1))")%string. apply no_axis_sign; reflexivity. Qed.
Lemma sy_meaning t ix : everywhere or_c ix -> meaning (array_values px_objs (sy_d t)) ix (normalize_eq px_text) = Some 0%R.
Proof. intros E. destruct sy_equation as (_ & NA). rewrite (@equation_meaning _ _ _ _ _ px_indexed NA). apply sy_value. apply (E "j"). right. now left. Qed.
Lemma sy_model cse t : eliminates cse ->
  numba_model (fun _ => Err ValueError) (uniq sexpr_eqb) (uniq pair_eqb) sexpr_eqb cse (fun l => l) or_c or_vars px_params [px_text] (sy_d t) [4 * t]%R [t; 2 * t; 3 * t; 2 * t]%R.
Proof.
  intros EC. destruct px_setup as (up & EU & NM & NH & DC & _).
  destruct (@or_setup px_params (sy_d t) [4 * t]%R [t; 2 * t; 3 * t; 2 * t]%R) with (up := up) as (DC' & v & w & AR); auto.
  + cbn. nodup.
  + intros o [<-|[]]. split; [cbn; nodup|]. split; [reflexivity|]. split; [reflexivity|]. cbn. intuition.
  + intros o [<-|[<-|[]]]; (eexists; split; [reflexivity|split; [reflexivity|unfold has_shape; cbn; repeat (constructor; [eexists; split; reflexivity|]); constructor]]).
  + clear - EU. vm_compute in EU. apply ok_eq in EU. subst up. vm_compute. nodup.
  + split; [exact (@uniq_walks _ _ sexpr_eqb_eq)|]. split; [exact (@uniq_walks _ _ pair_eqb_eq)|]. split; [exact EC|]. split; [discriminate|]. split; [discriminate|]. split; [exists v, w, [px_Y], up; auto|].
    split; [constructor; [exact sy_equation|constructor]|]. split.
    * intros eqs lr E I. apply ok_eq in E. subst eqs. destruct I as [<-|[]]. reflexivity.
    * intros s ix [<-|[]] E. change (or_vars ++ px_params) with px_objs. rewrite (@sy_meaning t ix E). discriminate.
Qed.
Example c111_model_ex : forall cse, eliminates cse ->
  numba_model (fun _ => Err ValueError) (uniq sexpr_eqb) (uniq pair_eqb) sexpr_eqb cse (fun l => l) or_c or_vars px_params [px_text] (sy_d 1) [4 * 1]%R [1; 2 * 1; 3 * 1; 2 * 1]%R /\
  numba_model (fun _ => Err ValueError) (uniq sexpr_eqb) (uniq pair_eqb) sexpr_eqb cse (fun l => l) or_c or_vars px_params [px_text] (sy_d 2) [4 * 2]%R [2; 2 * 2; 3 * 2; 2 * 2]%R /\
  forall ix, everywhere or_c ix -> holds (array_values px_objs (sy_d 1)) ix px_text /\ holds (array_values px_objs (sy_d 2)) ix px_text.
Proof. intros cse EC. split; [now apply sy_model|]. split; [now apply sy_model|]. intros ix E. split; unfold holds; now apply sy_meaning. Qed.

Theorem c111_pytensor_matrix :
  forall number_op C objs data data' names coords (r s : R) (c d : string) (expand_price_dim transpose_output : bool) (factor price output output_price share : string)
         (x q a : nat -> nat -> R) (y p : nat -> R),
  let rho := array_values objs data in let rho' := array_values objs data' in let m := size C c in let n := size C d in
  (0 < r)%R -> (0 < s)%R -> real_arithmetic number_op -> given C objs data -> given C objs data' -> c <> d ->
  array2 C objs rho factor c d x -> array2 C objs rho' factor c d (fun i j => s * x i j)%R -> array2 C objs rho share c d a -> array2 C objs rho' share c d a ->
  array1 C objs rho output d y -> array1 C objs rho' output d (fun j => s * y j)%R -> array1 C objs rho output_price d p -> array1 C objs rho' output_price d (fun j => r * p j)%R ->
  (if expand_price_dim
   then array1 C objs rho price c (fun i => q i 0%nat) /\ array1 C objs rho' price c (fun i => r * q i 0%nat)%R /\ (forall i j, q i j = q i 0%nat)
   else array2 C objs rho price c d q /\ array2 C objs rho' price c d (fun i j => r * q i j)%R) ->
  no_eq factor -> no_eq output -> (forall j, j < n -> y j <> 0%R /\ p j <> 0%R) -> length names = n + m * n ->
  exists eqs residuals residuals', leontief (One factor) (One price) output output_price (One share) (Many [c; d]) coords (Some c) expand_price_dim transpose_output "pytensor" = Ok eqs /\
    pytensor_system number_op C objs eqs names data = Ok residuals /\ pytensor_system number_op C objs eqs names data' = Ok residuals' /\
    (all_zero residuals <-> all_zero residuals').
Proof. exact @c111_pytensor_matrix__p. Qed.
Print Assumptions c111_pytensor_matrix.
(** The data of the example of C57 with prices times 2 and quantities times 3 *)
Definition sp_data : dict (arr R) :=
  [("X", mkArr [2; 2] [3 * 2; 3 * 1; 3 * 1; 3 * 1]%R); ("q", mkArr [2] [2 * 1; 2 * 2]%R); ("Y", mkArr [2] [3 * 1; 3 * 1]%R); ("P", mkArr [2] [2 * 4; 2 * 3]%R); ("a", mkArr [2; 2] [2; 1; 1; 1]%R)].
Example c111_pytensor_matrix_ex number_op : real_arithmetic number_op -> exists eqs residuals residuals',
  leontief (One "X") (One "q") "Y" "P" (One "a") (Many ["i"; "j"]) [] (Some "i") true true "pytensor" = Ok eqs /\
  pytensor_system number_op al_c lt_objs eqs ["Y_u"; "Y_v"; "X_a_u"; "X_a_v"; "X_b_u"; "X_b_v"] lp_data = Ok residuals /\
  pytensor_system number_op al_c lt_objs eqs ["Y_u"; "Y_v"; "X_a_u"; "X_a_v"; "X_b_u"; "X_b_v"] sp_data = Ok residuals' /\ all_zero residuals /\ all_zero residuals'.
Proof.
  intros H. destruct (@c57_pytensor_ex number_op H) as (eqs & residuals & E1 & E2 & Z).
  destruct (@c111_pytensor_matrix number_op al_c lt_objs lp_data sp_data ["Y_u"; "Y_v"; "X_a_u"; "X_a_v"; "X_b_u"; "X_b_v"] [] 2 3 "i" "j" true true "X" "q" "Y" "P" "a"
    lt_a (fun i _ => lt_q i) lt_a (fun _ => 1%R) (fun j => match j with 0 => 4 | _ => 3 end)%R) as (eqs' & r1 & r2 & E1' & R1 & R2 & S).
  - lra.
  - lra.
  - exact H.
  - give.
  - give.
  - discriminate.
  - arr2 (exobj KVar "X" ["i"; "j"]); at2.
  - arr2 (exobj KVar "X" ["i"; "j"]); at2.
  - arr2 (exobj KPar "a" ["i"; "j"]); at2.
  - arr2 (exobj KPar "a" ["i"; "j"]); at2.
  - arr1 (exobj KVar "Y" ["j"]); at1 "j".
  - arr1 (exobj KVar "Y" ["j"]); at1 "j".
  - arr1 (exobj KVar "P" ["j"]); at1 "j".
  - arr1 (exobj KVar "P" ["j"]); at1 "j".
  - split; [arr1 (exobj KVar "q" ["i"]); at1 "i"|]. split; [|reflexivity]. arr1 (exobj KVar "q" ["i"]); at1 "i".
  - reflexivity.
  - reflexivity.
  - intros [|j] _; split; lra.
  - reflexivity.
  - rewrite E1 in E1'. apply ok_eq in E1'. subst eqs'. rewrite E2 in R1. apply ok_eq in R1. subst r1. exists eqs, residuals, r2. repeat (split; [assumption|]). now apply S.
Qed.

Theorem c111_pytensor_dixit_stiglitz :
  forall number_op C objs data data' names coords labels (k m : R) (i factor price output output_price epsilon TFP : string) (shares : option string) (use_value_definition : bool)
         (x q s : nat -> R) (y p a e : R),
  let rho := array_values objs data in let rho' := array_values objs data' in let n := size C i in
  (0 < k)%R -> (0 < m)%R -> real_arithmetic number_op -> given C objs data -> given C objs data' -> dget i coords = Some labels -> 0 < n ->
  array1 C objs rho factor i x -> array1 C objs rho' factor i (fun j => m * x j)%R -> array1 C objs rho price i q -> array1 C objs rho' price i (fun j => k * q j)%R ->
  opt_array1 C objs rho shares i s -> opt_array1 C objs rho' shares i s -> array0 C objs rho output y -> array0 C objs rho' output (m * y) ->
  array0 C objs rho output_price p -> array0 C objs rho' output_price (k * p) -> array0 C objs rho TFP a -> array0 C objs rho' TFP a -> array0 C objs rho epsilon e -> array0 C objs rho' epsilon e ->
  no_eq factor -> no_eq output -> e <> 0%R -> e <> 1%R ->
  (forall j, j < n -> (0 < x j /\ 0 < q j /\ 0 < s j)%R) -> (0 < p)%R -> (0 < a)%R -> (0 < y)%R -> length names = 1 + n ->
  exists definition demand residuals residuals',
    dixit_stiglitz (One factor) (One price) output output_price epsilon i coords "pytensor" (Some TFP) (option_map One shares) use_value_definition = Ok (definition, demand) /\
    pytensor_system number_op C objs [definition; demand] names data = Ok residuals /\ pytensor_system number_op C objs [definition; demand] names data' = Ok residuals' /\
    (all_zero residuals <-> all_zero residuals').
Proof. exact @c111_pytensor_dixit_stiglitz__p. Qed.
Print Assumptions c111_pytensor_dixit_stiglitz.
Definition sp_dp : dict (arr R) :=
  [("X", mkArr [2] [3 * 1; 3 * 1]%R); ("q", mkArr [2] [2 * 1; 2 * 1]%R); ("Y", mkArr [] [3 * 1]%R); ("P", mkArr [] [2 * 2]%R); ("A", mkArr [] [1]%R); ("eps", mkArr [] [2]%R); ("a", mkArr [2] [1 / 2; 1 / 2]%R)].
Example c111_pytensor_dixit_stiglitz_ex number_op value : real_arithmetic number_op -> exists definition demand residuals residuals',
  dixit_stiglitz (One "X") (One "q") "Y" "P" "eps" "i" [("i", ["a"; "b"])] "pytensor" (Some "A") (Some (One "a")) value = Ok (definition, demand) /\
  pytensor_system number_op al_c dp_objs [definition; demand] ["Y"; "X_a"; "X_b"] dp_data = Ok residuals /\
  pytensor_system number_op al_c dp_objs [definition; demand] ["Y"; "X_a"; "X_b"] sp_dp = Ok residuals' /\ all_zero residuals /\ all_zero residuals'.
Proof.
  intros H. destruct (@c58_pytensor_ex number_op value H) as (def & dem & residuals & E1 & E2 & Z).
  destruct (@c111_pytensor_dixit_stiglitz number_op al_c dp_objs dp_data sp_dp ["Y"; "X_a"; "X_b"] [("i", ["a"; "b"])] ["a"; "b"] 2 3 "i" "X" "q" "Y" "P" "eps" "A" (Some "a") value
    (fun _ => 1%R) (fun _ => 1%R) (fun _ => (1 / 2)%R) 1 2 1 2) as (def' & dem' & r1 & r2 & E1' & R1 & R2 & S);
    try exact H; try give; try solve [cbn; lia]; try (cbn [opt_array1]; dp); try reflexivity; try lra; try (intros; lra).
  cbn [option_map] in E1'. rewrite E1 in E1'. apply ok_eq in E1'. injection E1' as <- <-. rewrite E2 in R1. apply ok_eq in R1. subst r1. exists def, dem, residuals, r2. repeat (split; [assumption|]). now apply S.
Qed.
