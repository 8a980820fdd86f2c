(** C110: what a solution of the compiled system says about the producers whose
    blocks were generated. *)
From Coq Require Import Ascii Reals Lra Lia ZArith.
From Verif Require Import Py PyStr NdArray M_Primitives M_PyExpr M_Production M_Parse M_NumbaModel.
From Verif Require Import S_PyExpr S_Meaning S_Layout S_Tensor S_Parse S_Written S_Production.
From Verif Require Import L_PyExpr L_Meaning L_Production L_Production2 L_Production3 L_Production4 L_Production5 L_Parse L_Parse2 L_Written L_Written2.
Local Open Scope string_scope.
Local Open Scope list_scope.

Lemma c110_cobb_douglas__p :
  forall other sub_into set_order dict_order evaluates cse order c vars params texts d x theta r names prices shares output output_price TFP use_value eqs,
    numba_model other set_order dict_order evaluates cse order c vars params texts d x theta ->
    numba_returns other sub_into set_order dict_order evaluates cse order c vars params texts x theta r -> vanishes r ->
    fst (cobb_douglass (Many names) (Many prices) output output_price (Many shares) TFP use_value) = Ok eqs -> incl eqs texts ->
    let rho := array_values (vars ++ params) d in
    forall ix l y p a, everywhere c ix -> inputs_at rho ix names prices shares l -> l <> [] -> (forall f, In f l -> 0 < qty f)%R ->
      unit_val rho ix output y -> no_eq output -> unit_val rho ix output_price p -> no_eq output_price -> unit_val rho ix TFP a ->
      (if use_value then y * p = sum_over (fun f => price f * qty f) l else y = a * prod_over (fun f => Rpower (qty f) (share f)) l)%R /\
      forall f, In f l -> (price f * qty f = share f * (p * y))%R.
Proof.
  intros other sub_into so do_ ev cse order c vars params texts d x theta r names prices shares output output_price TFP uv eqs M NR Z E I rho ix l y p a Ev (<- & <- & <- & F) N Q Y NY P NP A.
  destruct (@c55_meaning__p rho ix l output output_price TFP y p a uv N F Q Y NY P NP A) as (eqs' & E' & _ & H). assert (eqs' = eqs) as -> by congruence.
  apply H. apply Forall_forall. intros s Is. eapply zero_holds; eauto.
Qed.

Lemma c110_ces__p :
  forall other sub_into set_order dict_order evaluates cse order c vars params texts d x theta r names prices shares output output_price TFP epsilon use_value eqs,
    numba_model other set_order dict_order evaluates cse order c vars params texts d x theta ->
    numba_returns other sub_into set_order dict_order evaluates cse order c vars params texts x theta r -> vanishes r ->
    fst (CES (Many names) (Many prices) output output_price TFP (Many shares) epsilon None use_value) = Ok eqs -> incl eqs texts ->
    let rho := array_values (vars ++ params) d in
    forall ix l y p a e, everywhere c ix -> inputs_at rho ix names prices shares l -> l <> [] -> (forall f, In f l -> 0 < qty f /\ 0 < share f)%R -> (0 < y /\ 0 < p /\ 0 < a)%R ->
      unit_val rho ix output y -> no_eq output -> unit_val rho ix output_price p -> no_eq output_price -> unit_val rho ix TFP a -> unit_val rho ix epsilon e -> e <> 0%R -> e <> 1%R ->
      (y = a * Rpower (sum_over (fun f => share f * Rpower (qty f) ((e - 1) / e)) l) (e / (e - 1)))%R /\
      (y * p = sum_over (fun f => price f * qty f) l)%R /\
      (p = Rpower (sum_over (fun f => Rpower (share f) e * Rpower (price f) (1 - e)) l) (1 / (1 - e)) / a)%R /\
      forall f, In f l -> (qty f = y / a * Rpower (share f * p * a / price f) e)%R.
Proof.
  intros other sub_into so do_ ev cse order c vars params texts d x theta r names prices shares output output_price TFP epsilon uv eqs M NR Z E I rho ix l y p a e Ev (<- & <- & <- & F) N Q PO Y NY P NP A Ep E0 E1.
  destruct (@c56_equivalent__p rho ix l output output_price TFP epsilon y p a e N F Q PO Y NY P NP A Ep E0 E1) as (value & production & demands & EV & EP & HD & HV & HP & HE).
  assert (ZH : forall s, In s eqs -> holds rho ix s) by (intros s Is; eapply zero_holds; eauto).
  assert (D : Forall (holds rho ix) demands).
  { apply Forall_forall. intros s Is. apply ZH. destruct uv; [rewrite EV in E|rewrite EP in E]; apply ok_eq in E; subst eqs; now right. }
  destruct (HE D) as (VP & VU). assert (V : holds rho ix value).
  { destruct uv; [|apply VP]; apply ZH; [rewrite EV in E|rewrite EP in E]; apply ok_eq in E; subst eqs; now left. }
  split; [now apply HP, VP|]. split; [now apply HV|]. split; [now apply VU|now apply HD].
Qed.

Lemma c110_leontief__p :
  forall other sub_into set_order dict_order evaluates cse order c vars params texts d x theta r names prices shares output output_price dim coords sum_dim expand_price_dim transpose_output backend eqs,
    numba_model other set_order dict_order evaluates cse order c vars params texts d x theta ->
    numba_returns other sub_into set_order dict_order evaluates cse order c vars params texts x theta r -> vanishes r ->
    leontief (Many names) (Many prices) output output_price (Many shares) (One dim) coords sum_dim expand_price_dim transpose_output backend = Ok eqs -> incl eqs texts ->
    let rho := array_values (vars ++ params) d in
    forall ix l y p, everywhere c ix -> inputs_at rho ix names prices shares l -> 2 <= length l -> Forall (fun f => unit_val rho ix (f_share f) (share f)) l ->
      unit_val rho ix output y -> no_eq output -> expr_val rho ix output_price p -> p <> 0%R -> y <> 0%R ->
      (p = sum_over (fun f => price f * share f) l)%R /\ forall f, In f l -> (qty f = share f * y)%R.
Proof.
  intros other sub_into so do_ ev cse order c vars params texts d x theta r names prices shares output output_price dim coords sd ep tr be eqs M NR Z E I rho ix l y p Ev (<- & <- & <- & F) N Fs Y NY P P0 Y0.
  destruct (@c57_one_dim__p rho ix l output output_price dim coords sd ep tr be y p N F Fs Y NY P P0 Y0) as (eqs' & E' & _ & H). assert (eqs' = eqs) as -> by congruence.
  apply H. apply Forall_forall. intros s Is. eapply zero_holds; eauto.
Qed.

Lemma everywhere_upd c ix i labels k : everywhere c ix -> dget i c = Some labels -> k < length labels -> everywhere c (upd ix i k).
Proof. intros E D K x Ix. unfold upd. destruct (String.eqb_spec i x) as [<-|]; [|now apply E]. now rewrite (size_lab _ _ D). Qed.

Lemma c110_leontief_matrix__p :
  forall other sub_into set_order dict_order evaluates cse order c vars params texts d x theta r (core batch : string) labels_c labels_b dims sum_dim expand_price_dim transpose_output
         factor price output output_price share eqs,
    numba_model other set_order dict_order evaluates cse order c vars params texts d x theta ->
    numba_returns other sub_into set_order dict_order evaluates cse order c vars params texts x theta r -> vanishes r ->
    is_name core -> is_name batch -> core <> batch -> dget core c = Some labels_c -> dget batch c = Some labels_b -> labels_b <> [] ->
    dims = [core; batch] /\ (sum_dim = None \/ sum_dim = Some batch) \/ dims = [batch; core] /\ sum_dim = Some batch ->
    leontief (One factor) (One price) output output_price (One share) (Many dims) c sum_dim expand_price_dim transpose_output "numba" = Ok eqs -> incl eqs texts ->
    let rho := array_values (vars ++ params) d in let m := length labels_c in let n := length labels_b in
    forall ix (quantity prices coefficient : nat -> nat -> R) (y p : nat -> R), everywhere c ix ->
      unit_at2 rho ix core batch m n factor quantity -> no_eq factor -> unit_at2 rho ix core batch m n price prices -> unit_at2 rho ix core batch m n share coefficient ->
      name_at rho ix core batch m output y -> name_at rho ix core batch m output_price p -> (forall i, i < m -> y i <> 0%R /\ p i <> 0%R) ->
      forall i, i < m -> p i = sum_n (fun k => prices i k * coefficient i k)%R n /\ forall k, k < n -> quantity i k = (coefficient i k * y i)%R.
Proof.
  intros other sub_into so do_ ev cse order c vars params texts d x theta r core batch lc lb dims sd ep tr factor price output output_price share eqs M NR Z Nc Nb CB Dc Db Lb HD E I rho m n ix q pr co y p Ev Q NQ P S O OP NZ.
  destruct (@c57_two_dims__p rho ix core batch lc lb c dims sd ep tr factor price output output_price share q pr co y p Nc Nb CB Dc Db Lb HD Q NQ P S O OP NZ) as (eqs' & E' & H).
  assert (eqs' = eqs) as -> by congruence. apply H. intros i k Hi Hk. apply Forall_forall. intros s Is. eapply zero_holds; eauto. unfold at2. eapply everywhere_upd; eauto. eapply everywhere_upd; eauto.
Qed.

Lemma c110_dixit_stiglitz__p :
  forall other sub_into set_order dict_order evaluates cse order c vars params texts d x theta r i labels factor price output output_price epsilon (TFP shares : option string) definition demand,
    numba_model other set_order dict_order evaluates cse order c vars params texts d x theta ->
    numba_returns other sub_into set_order dict_order evaluates cse order c vars params texts x theta r -> vanishes r ->
    is_name i -> dget i c = Some labels -> labels <> [] ->
    dixit_stiglitz (One factor) (One price) output output_price epsilon i c "numba" TFP (option_map One shares) false = Ok (definition, demand) -> In definition texts -> In demand texts ->
    let rho := array_values (vars ++ params) d in let n := length labels in
    forall ix (quantity prices weight : nat -> R) (y p a e : R), everywhere c ix ->
      unit_at rho ix i n factor quantity -> unit_at rho ix i n price prices -> opt_at rho ix i n shares weight -> unit_at rho ix i n output (fun _ => y) ->
      unit_at rho ix i n output_price (fun _ => p) -> opt_at rho ix i n TFP (fun _ => a) -> unit_at rho ix i n epsilon (fun _ => e) ->
      no_eq factor -> no_eq output -> e <> 0%R -> e <> 1%R ->
      (forall k, k < n -> (0 < quantity k /\ 0 < prices k /\ 0 < weight k)%R) -> (0 < p)%R -> (0 < a)%R ->
      y = aggregate a e weight quantity n /\ (TFP <> None -> forall k, k < n -> quantity k = (y / a * Rpower (weight k * p * a / prices k) e)%R).
Proof.
  intros other sub_into so do_ ev cse order c vars params texts d x theta r i labels factor price output output_price epsilon TFP shares def dem M NR Z Ni Di Li E Id Im rho n ix q pr w y p a e Ev Q P S O OP A Ep NF NO E0 E1 POS p0 a0.
  destruct (@c58_meaning__p rho ix i labels c factor price output output_price epsilon TFP shares q pr w y p a e Ni Di Li Q P S O OP A Ep NF NO E0 E1 POS p0 a0) as (def' & dem' & E' & H1 & H2).
  assert (def' = def /\ dem' = dem) as (-> & ->) by (rewrite E in E'; apply ok_eq in E'; split; congruence).
  assert (n0 : 0 < n) by (unfold n; destruct labels; [congruence|cbn; lia]).
  assert (EV : forall k, k < n -> everywhere c (upd ix i k)) by (intros k Hk; eapply everywhere_upd; eauto).
  split; [apply (H1 0 n0); eapply zero_holds; eauto|]. intros T k Hk. apply (H2 T k Hk). eapply zero_holds; eauto.
Qed.
