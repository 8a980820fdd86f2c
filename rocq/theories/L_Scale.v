(** C111: prices and quantities in other units. *)
From Coq Require Import Ascii Reals Lra Lia ZArith.
From Verif Require Import Py PyStr NdArray M_Primitives M_PyExpr M_Production M_Parse M_NumbaModel.
From Verif Require Import S_PyExpr S_Meaning S_Layout S_Tensor S_Parse S_Written S_Production S_Scale.
From Verif Require Import L_PyExpr L_Meaning L_Production L_Production2 L_Production3 L_Production4 L_Production5 L_Parse L_Written.
Local Open Scope string_scope.
Local Open Scope list_scope.

Section Rescaled.
Context (k m : R) (l l' : list factor) (F : Forall2 (rescaled k m) l l').
Lemma rescaled_texts : map f_name l' = map f_name l /\ map f_price l' = map f_price l /\ map f_share l' = map f_share l.
Proof. induction F as [|f f' t t' (A & B & C & _) F' IH]; cbn; [auto|]. destruct IH as (-> & -> & ->); [exact F'|]. now rewrite A, B, C. Qed.
Lemma rescaled_length : length l' = length l. Proof. induction F; cbn; auto. Qed.
Lemma rescaled_left f : In f l -> exists f', In f' l' /\ rescaled k m f f'.
Proof. intros I. induction F as [|g g' t t' R F' IH]; [destruct I|]. destruct I as [<-|I]; [exists g'; split; [now left|exact R]|]. destruct IH as (f' & I' & R'); auto. exists f'. split; [now right|exact R']. Qed.
Lemma rescaled_right f' : In f' l' -> exists f, In f l /\ rescaled k m f f'.
Proof. intros I. induction F as [|g g' t t' R F' IH]; [destruct I|]. destruct I as [<-|I]; [exists g; split; [now left|exact R]|]. destruct IH as (f & I' & R'); auto. exists f. split; [now right|exact R']. Qed.
Lemma rescaled_sum g g' : (forall f f', In f l -> rescaled k m f f' -> g' f' = g f) -> sum_over g' l' = sum_over g l.
Proof.
  intros H. induction F as [|f f' t t' R F' IH]; [reflexivity|]. change (g' f' + sum_over g' t' = g f + sum_over g t)%R. rewrite (H f f' (or_introl eq_refl) R), IH; [reflexivity|exact F'|].
  intros x x' I. apply H. now right.
Qed.
Lemma rescaled_prod g g' : (forall f f', In f l -> rescaled k m f f' -> g' f' = g f) -> prod_over g' l' = prod_over g l.
Proof.
  intros H. induction F as [|f f' t t' R F' IH]; [reflexivity|]. change (g' f' * prod_over g' t' = g f * prod_over g t)%R. rewrite (H f f' (or_introl eq_refl) R), IH; [reflexivity|exact F'|].
  intros x x' I. apply H. now right.
Qed.
Lemma rescaled_nil : l <> [] -> l' <> []. Proof. intros N ->. now inversion F; subst. Qed.
End Rescaled.

Lemma mult_iff c x y : c <> 0%R -> (c * x = c * y <-> x = y)%R.
Proof. intros C. split; [intros H; now apply (Rmult_eq_reg_l c)|now intros ->]. Qed.

Lemma c111_cobb_douglas__p :
  forall rho rho' ix k m l l' output output_price TFP y p a use_value eqs,
    (0 < k)%R -> (0 < m)%R -> Forall2 (rescaled k m) l l' -> Forall (factor_ok rho ix) l -> Forall (factor_ok rho' ix) l' -> l <> [] -> (forall f, In f l -> 0 < qty f)%R ->
    unit_both rho rho' ix output y (m * y) -> no_eq output -> unit_both rho rho' ix output_price p (k * p) -> no_eq output_price -> unit_both rho rho' ix TFP a a ->
    use_value = true \/ m = 1%R \/ sum_over share l = 1%R ->
    fst (cobb_douglass (Many (map f_name l)) (Many (map f_price l)) output output_price (Many (map f_share l)) TFP use_value) = Ok eqs ->
    (Forall (holds rho ix) eqs <-> Forall (holds rho' ix) eqs).
Proof.
  intros rho rho' ix k m l l' output output_price TFP y p a uv eqs K M S F F' N Q (Y & Y') NY (P & P') NP (A & A') C E.
  assert (Q' : forall f, In f l' -> (0 < qty f)%R). { intros f' I. destruct (rescaled_right S _ I) as (f & If & (_ & _ & _ & _ & _ & ->)). apply Rmult_lt_0_compat; auto. }
  destruct (@c55_meaning__p rho ix l output output_price TFP y p a uv N F Q Y NY P NP A) as (e1 & E1 & _ & H). assert (e1 = eqs) as -> by congruence.
  destruct (@c55_meaning__p rho' ix l' output output_price TFP (m * y)%R (k * p)%R a uv (rescaled_nil S N) F' Q' Y' NY P' NP A') as (e2 & E2 & _ & H').
  destruct (rescaled_texts S) as (T1 & T2 & T3). rewrite T1, T2, T3 in E2. assert (e2 = eqs) as -> by congruence. rewrite H, H'. clear H H'.
  assert (D : (forall f, In f l -> (price f * qty f = share f * (p * y))%R) <-> forall f, In f l' -> (price f * qty f = share f * (k * p * (m * y)))%R).
  { split; intros D.
    - intros f' I. destruct (rescaled_right S _ I) as (f & If & (_ & _ & _ & -> & -> & ->)). specialize (D f If). transitivity (k * m * (price f * qty f))%R; [ring|]. rewrite D. ring.
    - intros f I. destruct (rescaled_left S _ I) as (f' & If & (_ & _ & _ & Rs & Rp & Rq)). specialize (D f' If). rewrite Rs, Rp, Rq in D. apply (Rmult_eq_reg_l (k * m)); [|nra].
      transitivity (k * price f * (m * qty f))%R; [ring|]. rewrite D. ring. }
  rewrite D. apply and_iff_compat_r. destruct uv.
  - replace (sum_over (fun f => price f * qty f) l')%R with (k * m * sum_over (fun f => price f * qty f) l)%R.
    + replace (m * y * (k * p))%R with (k * m * (y * p))%R by ring. rewrite mult_iff; [reflexivity|nra].
    + rewrite <- sum_scale. symmetry. apply (rescaled_sum S). intros f f' _ (_ & _ & _ & _ & -> & ->). ring.
  - replace (prod_over (fun f => Rpower (qty f) (share f)) l') with (m * prod_over (fun f => Rpower (qty f) (share f)) l)%R.
    + replace (a * (m * prod_over (fun f => Rpower (qty f) (share f)) l))%R with (m * (a * prod_over (fun f => Rpower (qty f) (share f)) l))%R by ring. rewrite mult_iff; [reflexivity|lra].
    + transitivity (prod_over (fun f => Rpower m (share f) * Rpower (qty f) (share f))%R l).
      * rewrite prod_mul, prod_rpower. f_equal. destruct C as [C|[-> | ->]]; [discriminate| |].
        -- unfold Rpower. now rewrite ln_1, Rmult_0_r, exp_0.
        -- now rewrite Rpower_1.
      * symmetry. apply (rescaled_prod S). intros f f' I (_ & _ & _ & -> & _ & ->). now rewrite <- Rpower_mult_distr by auto.
Qed.

Lemma c111_ces__p :
  forall rho rho' ix k m l l' output output_price TFP epsilon y p a e use_value eqs,
    (0 < k)%R -> (0 < m)%R -> Forall2 (rescaled k m) l l' -> Forall (factor_ok rho ix) l -> Forall (factor_ok rho' ix) l' -> l <> [] ->
    (forall f, In f l -> 0 < qty f /\ 0 < share f)%R -> (0 < y /\ 0 < p /\ 0 < a)%R -> e <> 0%R -> e <> 1%R ->
    unit_both rho rho' ix output y (m * y) -> no_eq output -> unit_both rho rho' ix output_price p (k * p) -> no_eq output_price -> unit_both rho rho' ix TFP a a -> unit_both rho rho' ix epsilon e e ->
    fst (CES (Many (map f_name l)) (Many (map f_price l)) output output_price TFP (Many (map f_share l)) epsilon None use_value) = Ok eqs ->
    (Forall (holds rho ix) eqs <-> Forall (holds rho' ix) eqs).
Proof.
  intros rho rho' ix k m l l' output output_price TFP epsilon y p a e uv eqs K M S F F' N Q (y0 & p0 & a0) E0 E1 (Y & Y') NY (P & P') NP (A & A') (Ep & Ep') E.
  assert (Q' : forall f, In f l' -> (0 < qty f /\ 0 < share f)%R). { intros f' I. destruct (rescaled_right S _ I) as (f & If & (_ & _ & _ & -> & _ & ->)). destruct (Q f If). split; [apply Rmult_lt_0_compat; auto|auto]. }
  assert (PP : forall f, In f l -> (0 < price f)%R) by (intros f I; rewrite Forall_forall in F; apply (F f I)).
  destruct (@c56_equivalent__p rho ix l output output_price TFP epsilon y p a e N F Q (conj y0 (conj p0 a0)) Y NY P NP A Ep E0 E1) as (value & production & demands & EV & EP & HD & HV & HP & _).
  destruct (@c56_equivalent__p rho' ix l' output output_price TFP epsilon (m * y)%R (k * p)%R a e (rescaled_nil S N) F' Q' (conj (Rmult_lt_0_compat _ _ M y0) (conj (Rmult_lt_0_compat _ _ K p0) a0)) Y' NY P' NP A' Ep' E0 E1)
    as (value' & production' & demands' & EV' & EP' & HD' & HV' & HP' & _).
  destruct (rescaled_texts S) as (T1 & T2 & T3). rewrite T1, T2, T3 in EV', EP'.
  assert (value' = value /\ demands' = demands) as (-> & ->) by (split; congruence). assert (production' = production) as -> by congruence.
  assert (D : Forall (holds rho ix) demands <-> Forall (holds rho' ix) demands).
  { rewrite HD, HD'. split; intros D.
    - intros f' I. destruct (rescaled_right S _ I) as (f & If & (_ & _ & _ & -> & -> & ->)). rewrite (D f If) at 1. pose proof (PP f If). replace (share f * (k * p) * a / (k * price f))%R with (share f * p * a / price f)%R by (field; lra). field. lra.
    - intros f I. destruct (rescaled_left S _ I) as (f' & If & (_ & _ & _ & Rs & Rp & Rq)). specialize (D f' If). rewrite Rs, Rp, Rq in D. pose proof (PP f I). apply (Rmult_eq_reg_l m); [|lra]. rewrite D.
      replace (share f * (k * p) * a / (k * price f))%R with (share f * p * a / price f)%R by (field; lra). field. lra. }
  assert (V : holds rho ix value <-> holds rho' ix value).
  { rewrite HV, HV'. replace (sum_over (fun f => price f * qty f) l')%R with (k * m * sum_over (fun f => price f * qty f) l)%R.
    + replace (m * y * (k * p))%R with (k * m * (y * p))%R by ring. rewrite mult_iff; [reflexivity|nra].
    + rewrite <- sum_scale. symmetry. apply (rescaled_sum S). intros f f' _ (_ & _ & _ & _ & -> & ->). ring. }
  assert (R : holds rho ix production <-> holds rho' ix production).
  { rewrite HP, HP'. set (s := sum_over (fun f => share f * Rpower (qty f) ((e - 1) / e))%R l).
    assert (s0 : (0 < s)%R). { apply sum_pos; [exact N|]. intros f I. destruct (Q f I). apply Rmult_lt_0_compat; [assumption|apply exp_pos]. }
    replace (sum_over (fun f => share f * Rpower (qty f) ((e - 1) / e)) l')%R with (Rpower m ((e - 1) / e) * s)%R.
    + rewrite <- Rpower_mult_distr; [|apply exp_pos|exact s0]. rewrite Rpower_mult. replace ((e - 1) / e * (e / (e - 1)))%R with 1%R by (field; split; lra). rewrite Rpower_1 by exact M.
      replace (a * (m * Rpower s (e / (e - 1))))%R with (m * (a * Rpower s (e / (e - 1))))%R by ring. rewrite mult_iff; [reflexivity|lra].
    + unfold s. rewrite <- sum_scale. symmetry. apply (rescaled_sum S). intros f f' I (_ & _ & _ & -> & _ & ->). rewrite <- Rpower_mult_distr; [ring|exact M|apply (Q f I)]. }
  destruct uv; [rewrite EV in E|rewrite EP in E]; apply ok_eq in E; subst eqs; rewrite !Forall_cons_iff; tauto.
Qed.

Lemma c111_leontief__p :
  forall rho rho' ix k m l l' output output_price d coords sum_dim expand_price_dim transpose_output backend y p eqs,
    (0 < k)%R -> (0 < m)%R -> Forall2 (rescaled k m) l l' -> Forall (factor_ok rho ix) l -> Forall (factor_ok rho' ix) l' -> 2 <= length l ->
    Forall (fun f => unit_both rho rho' ix (f_share f) (share f) (share f)) l -> p <> 0%R -> y <> 0%R ->
    unit_both rho rho' ix output y (m * y) -> no_eq output -> expr_val rho ix output_price p -> expr_val rho' ix output_price (k * p) ->
    leontief (Many (map f_name l)) (Many (map f_price l)) output output_price (Many (map f_share l)) (One d) coords sum_dim expand_price_dim transpose_output backend = Ok eqs ->
    (Forall (holds rho ix) eqs <-> Forall (holds rho' ix) eqs).
Proof.
  intros rho rho' ix k m l l' output output_price d coords sd ep tr be y p eqs K M S F F' N U p0 y0 (Y & Y') NY P P' E.
  assert (U1 : Forall (fun f => unit_val rho ix (f_share f) (share f)) l) by (eapply Forall_impl; [|exact U]; intros f H; apply H).
  assert (U2 : Forall (fun f => unit_val rho' ix (f_share f) (share f)) l').
  { apply Forall_forall. intros f' I. destruct (rescaled_right S _ I) as (f & If & (_ & _ & -> & -> & _)). rewrite Forall_forall in U. apply (U f If). }
  destruct (@c57_one_dim__p rho ix l output output_price d coords sd ep tr be y p N F U1 Y NY P p0 y0) as (e1 & E1 & _ & H). assert (e1 = eqs) as -> by congruence.
  destruct (@c57_one_dim__p rho' ix l' output output_price d coords sd ep tr be (m * y)%R (k * p)%R) as (e2 & E2 & _ & H'); auto; [rewrite (rescaled_length S); exact N|apply Rmult_integral_contrapositive; split; lra|apply Rmult_integral_contrapositive; split; lra|].
  destruct (rescaled_texts S) as (T1 & T2 & T3). rewrite T1, T2, T3 in E2. assert (e2 = eqs) as -> by congruence. rewrite H, H'. clear H H'.
  replace (sum_over (fun f => price f * share f) l')%R with (k * sum_over (fun f => price f * share f) l)%R.
  - rewrite mult_iff by lra. apply and_iff_compat_l. split; intros D.
    + intros f' I. destruct (rescaled_right S _ I) as (f & If & (_ & _ & _ & -> & _ & ->)). rewrite (D f If). ring.
    + intros f I. destruct (rescaled_left S _ I) as (f' & If & (_ & _ & _ & Rs & Rp & Rq)). specialize (D f' If). rewrite Rs, Rq in D. apply (Rmult_eq_reg_l m); [|lra]. rewrite D. ring.
  - rewrite <- sum_scale. symmetry. apply (rescaled_sum S). intros f f' _ (_ & _ & _ & -> & -> & _). ring.
Qed.

Lemma c111_leontief_matrix__p :
  forall (rho rho' : valuation) (ix : indices) (r s : R) (c d : string) (labels_c labels_d : list string) coords dims sum_dim expand_price_dim transpose_output
         (factor price output output_price share : string) (x q a : nat -> nat -> R) (y p : nat -> R) eqs,
  (0 < r)%R -> (0 < s)%R ->
  is_name c -> is_name d -> c <> d -> dget c coords = Some labels_c -> dget d coords = Some labels_d -> labels_d <> [] ->
  dims = [c; d] /\ (sum_dim = None \/ sum_dim = Some d) \/ dims = [d; c] /\ sum_dim = Some d ->
  let m := length labels_c in let n := length labels_d in
  unit_at2 rho ix c d m n factor x -> unit_at2 rho' ix c d m n factor (fun i k => s * x i k)%R -> no_eq factor ->
  unit_at2 rho ix c d m n price q -> unit_at2 rho' ix c d m n price (fun i k => r * q i k)%R ->
  unit_at2 rho ix c d m n share a -> unit_at2 rho' ix c d m n share a ->
  name_at rho ix c d m output y -> name_at rho' ix c d m output (fun i => s * y i)%R ->
  name_at rho ix c d m output_price p -> name_at rho' ix c d m output_price (fun i => r * p i)%R ->
  (forall i, i < m -> y i <> 0%R /\ p i <> 0%R) ->
  leontief (One factor) (One price) output output_price (One share) (Many dims) coords sum_dim expand_price_dim transpose_output "numba" = Ok eqs ->
  ((forall i k, i < m -> k < n -> Forall (holds rho (at2 ix c d i k)) eqs) <-> (forall i k, i < m -> k < n -> Forall (holds rho' (at2 ix c d i k)) eqs)).
Proof.
  intros rho rho' ix r s c d lc ld coords dims sd ep tr factor price output output_price share x q a y p eqs r0 s0 Nc Nd CD Dc Dd Ld HD m n X X' NX Q Q' A A' Y Y' P P' NZ E.
  destruct (@c57_two_dims__p rho ix c d lc ld coords dims sd ep tr factor price output output_price share x q a y p Nc Nd CD Dc Dd Ld HD X NX Q A Y P NZ) as (e1 & E1 & H). assert (e1 = eqs) as -> by congruence.
  destruct (@c57_two_dims__p rho' ix c d lc ld coords dims sd ep tr factor price output output_price share (fun i k => s * x i k)%R (fun i k => r * q i k)%R a (fun i => s * y i)%R (fun i => r * p i)%R Nc Nd CD Dc Dd Ld HD X' NX Q' A' Y' P') as (e2 & E2 & H').
  { intros i Hi. destruct (NZ i Hi). split; apply Rmult_integral_contrapositive; split; lra. }
  assert (e2 = eqs) as -> by congruence. unfold m, n. rewrite H, H'. clear H H'.
  assert (SQ : forall i, (sum_n (fun k => r * q i k * a i k) (length ld) = r * sum_n (fun k => q i k * a i k) (length ld))%R).
  { intros i. rewrite <- sum_n_scale. apply sum_n_ext. intros k _. ring. }
  split; intros D i Hi; destruct (D i Hi) as (D1 & D2).
  - split; [rewrite SQ, D1; reflexivity|]. intros k Hk. rewrite (D2 k Hk). ring.
  - rewrite SQ in D1. split; [apply (Rmult_eq_reg_l r); [exact D1|lra]|]. intros k Hk. apply (Rmult_eq_reg_l s); [|lra]. rewrite (D2 k Hk). ring.
Qed.

Lemma c111_dixit_stiglitz__p :
  forall (rho rho' : valuation) (ix : indices) (k m : R) (i : string) (labels : list string) coords (factor price output output_price epsilon TFP : string) (shares : option string)
         (x q s : nat -> R) (y p a e : R) definition demand,
  let n := length labels in
  (0 < k)%R -> (0 < m)%R -> is_name i -> dget i coords = Some labels -> labels <> [] ->
  unit_at rho ix i n factor x -> unit_at rho' ix i n factor (fun j => m * x j)%R -> unit_at rho ix i n price q -> unit_at rho' ix i n price (fun j => k * q j)%R ->
  opt_at rho ix i n shares s -> opt_at rho' ix i n shares s -> unit_at rho ix i n output (fun _ => y) -> unit_at rho' ix i n output (fun _ => m * y)%R ->
  unit_at rho ix i n output_price (fun _ => p) -> unit_at rho' ix i n output_price (fun _ => k * p)%R ->
  unit_at rho ix i n TFP (fun _ => a) -> unit_at rho' ix i n TFP (fun _ => a) -> unit_at rho ix i n epsilon (fun _ => e) -> unit_at rho' ix i n epsilon (fun _ => e) ->
  no_eq factor -> no_eq output -> e <> 0%R -> e <> 1%R ->
  (forall j, j < n -> (0 < x j /\ 0 < q j /\ 0 < s j)%R) -> (0 < p)%R -> (0 < a)%R ->
  dixit_stiglitz (One factor) (One price) output output_price epsilon i coords "numba" (Some TFP) (option_map One shares) false = Ok (definition, demand) ->
  forall j, j < n -> (holds rho (upd ix i j) definition <-> holds rho' (upd ix i j) definition) /\ (holds rho (upd ix i j) demand <-> holds rho' (upd ix i j) demand).
Proof.
  intros rho rho' ix k m i labels coords factor price output output_price epsilon TFP shares x q s y p a e def dem n k0 m0 Ni Di Ln X X' Q Q' S S' Y Y' P P' A A' Ep Ep' NX NY E0 E1 POS p0 a0 E j Hj.
  destruct (@c58_meaning__p rho ix i labels coords factor price output output_price epsilon (Some TFP) shares x q s y p a e Ni Di Ln X Q S Y P A Ep NX NY E0 E1 POS p0 a0) as (d1 & m1 & G1 & H1 & H2).
  destruct (@c58_meaning__p rho' ix i labels coords factor price output output_price epsilon (Some TFP) shares (fun j => m * x j)%R (fun j => k * q j)%R s (m * y)%R (k * p)%R a e Ni Di Ln X' Q' S' Y' P' A' Ep' NX NY E0 E1) as (d2 & m2 & G2 & H1' & H2');
    [intros j' Hj'; destruct (POS j' Hj') as (? & ? & ?); repeat split; try apply Rmult_lt_0_compat; assumption|now apply Rmult_lt_0_compat|exact a0|].
  assert (d1 = def /\ m1 = dem) as (-> & ->) by (rewrite E in G1; apply ok_eq in G1; split; congruence). assert (d2 = def /\ m2 = dem) as (-> & ->) by (rewrite E in G2; apply ok_eq in G2; split; congruence).
  rewrite (H1 j Hj), (H1' j Hj), (H2 ltac:(discriminate) j Hj), (H2' ltac:(discriminate) j Hj). split.
  - unfold aggregate. fold n. set (S0 := sum_n (fun k0 => s k0 * Rpower (x k0) ((e - 1) / e))%R n).
    assert (S1 : (0 < S0)%R). { unfold S0. destruct labels as [|l0 ls]; [congruence|]. eapply (@sum_inner_pos rho ix i n factor price output output_price epsilon (Some TFP) shares x q s y p a e); eauto. unfold n; cbn; lia. }
    replace (sum_n (fun k0 => s k0 * Rpower (m * x k0) ((e - 1) / e)) n)%R with (Rpower m ((e - 1) / e) * S0)%R.
    + rewrite <- Rpower_mult_distr; [|apply exp_pos|exact S1]. rewrite Rpower_mult. replace ((e - 1) / e * (e / (e - 1)))%R with 1%R by (field; split; lra). rewrite Rpower_1 by exact m0.
      replace (a * (m * Rpower S0 (e / (e - 1))))%R with (m * (a * Rpower S0 (e / (e - 1))))%R by ring. rewrite mult_iff; [reflexivity|lra].
    + unfold S0. rewrite <- sum_n_scale. apply sum_n_ext. intros j' Hj'. rewrite <- Rpower_mult_distr; [ring|exact m0|apply (POS j' Hj')].
  - destruct (POS j Hj) as (_ & q0 & _). replace (s j * (k * p) * a / (k * q j))%R with (s j * p * a / q j)%R by (field; lra).
    replace (m * y / a * Rpower (s j * p * a / q j) e)%R with (m * (y / a * Rpower (s j * p * a / q j) e))%R by (field; lra). rewrite mult_iff; [reflexivity|lra].
Qed.

Lemma c111_model__p :
  forall other sub_into set_order dict_order evaluates cse order c vars params texts d x theta d' x' theta' r r',
    numba_model other set_order dict_order evaluates cse order c vars params texts d x theta ->
    numba_model other set_order dict_order evaluates cse order c vars params texts d' x' theta' ->
    (forall s ix, In s texts -> everywhere c ix -> (holds (array_values (vars ++ params) d) ix s <-> holds (array_values (vars ++ params) d') ix s)) ->
    numba_returns other sub_into set_order dict_order evaluates cse order c vars params texts x theta r ->
    numba_returns other sub_into set_order dict_order evaluates cse order c vars params texts x' theta' r' ->
    (vanishes r <-> vanishes r').
Proof.
  intros other si so do_ ev cse order c vars params texts d x theta d' x' theta' r r' M M' H (eqs & f & E & CF & NS) (eqs' & f' & E' & CF' & NS').
  destruct (@c110_solved__p other si _ _ _ _ _ _ _ _ _ _ _ _ M) as (r1 & (q1 & f1 & Q1 & F1 & N1) & H1). destruct (@c110_solved__p other si _ _ _ _ _ _ _ _ _ _ _ _ M') as (r2 & (q2 & f2 & Q2 & F2 & N2) & H2).
  assert (q1 = eqs) as -> by congruence. assert (q2 = eqs) as -> by congruence. assert (eqs' = eqs) as -> by congruence.
  assert (f1 = f) as -> by (rewrite CF in F1; congruence). assert (f2 = f) as -> by (rewrite CF in F2; congruence). assert (f' = f) as -> by (rewrite CF in CF'; congruence).
  assert (r1 = r) as -> by congruence. assert (r2 = r') as -> by congruence. rewrite H1, H2. split; intros Z s ix I Ev; apply (H s ix I Ev); now apply Z.
Qed.
