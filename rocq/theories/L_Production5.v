(** Lemmas for C58. *)
From Coq Require Import Ascii Reals Lra Lia ZArith.
From Verif Require Import Py PyStr M_PyExpr S_PyExpr L_PyExpr S_Meaning L_Meaning M_Production S_Production L_Production L_Production2 L_Production3 L_Production4.
Local Open Scope string_scope.
Local Open Scope list_scope.

Lemma ok_eq {A} (a b : A) : Ok a = Ok b -> a = b.
Proof. intros H. now injection H. Qed.

(** ** Cost minimisation *)
Lemma ln_le_minus_1 z : (0 < z)%R -> (ln z <= z - 1)%R.
Proof. intros H. pose proof (exp_ineq1_le (ln z)) as E. rewrite exp_ln in E by exact H. lra. Qed.
Lemma ln_le_cancel x y : (0 < x)%R -> (0 < y)%R -> (ln x <= ln y)%R -> (x <= y)%R.
Proof. intros X Y [H|H]; [left; now apply ln_lt_inv|right; now apply ln_inv]. Qed.
Lemma ln_le_mono x y : (0 < x)%R -> (x <= y)%R -> (ln x <= ln y)%R.
Proof. intros X [H|H]; [left; now apply ln_increasing|right; now rewrite H]. Qed.

Lemma tangent r t : (r < 1)%R -> r <> 0%R -> (0 < t)%R -> ((Rpower t r - 1) / r <= t - 1)%R.
Proof.
  intros R1 R0 T. destruct (Rlt_or_le 0 r) as [Rp|Rn].
  - assert (M : (0 < 1 + r * (t - 1))%R) by nra.
    assert (L : (Rpower t r <= 1 + r * (t - 1))%R).
    { apply ln_le_cancel; [apply rpower_pos|exact M|]. rewrite ln_rpower. set (m := (1 + r * (t - 1))%R) in *.
      pose proof (ln_le_minus_1 (Rdiv_lt_0_compat _ _ T M)) as A. pose proof (ln_le_minus_1 (Rinv_0_lt_compat _ M)) as B.
      rewrite ln_div in A by assumption. rewrite ln_Rinv in B by assumption.
      assert (C : (r * (t / m - 1) + (1 - r) * (/ m - 1) = 0)%R) by (unfold m in *; field; lra). nra. }
    apply Rmult_le_reg_r with r; [exact Rp|]. replace ((Rpower t r - 1) / r * r)%R with (Rpower t r - 1)%R by (field; lra). lra.
  - assert (Rn' : (r < 0)%R) by (destruct Rn as [H|H]; [exact H|now rewrite H in R0]).
    assert (L : (1 + r * (t - 1) <= Rpower t r)%R).
    { destruct (Rlt_or_le 0 (1 + r * (t - 1))) as [M|M]; [|pose proof (rpower_pos t r); lra].
      apply ln_le_cancel; [exact M|apply rpower_pos|]. rewrite ln_rpower. pose proof (ln_le_minus_1 M) as A. pose proof (ln_le_minus_1 T) as B. nra. }
    replace ((Rpower t r - 1) / r)%R with ((1 - Rpower t r) * / - r)%R by (field; exact R0).
    replace (t - 1)%R with ((- r * (t - 1)) * / - r)%R by (field; exact R0). apply Rmult_le_compat_r; [|lra]. left. apply Rinv_0_lt_compat. lra.
Qed.

(** Anything that makes at least as much costs at least as much. *)
Lemma cheapest {A} (s q x z : A -> R) (r c : R) (l : list A) :
  (r < 1)%R -> r <> 0%R -> (0 < c)%R -> (forall k, In k l -> 0 < s k /\ 0 < x k /\ 0 < z k /\ s k * Rpower (x k) r = c * (q k * x k))%R ->
  let total f := fold_right Rplus 0%R (map f l) in
  (0 <= (total (fun k => s k * Rpower (z k) r) - total (fun k => s k * Rpower (x k) r)) / r ->
   total (fun k => q k * x k) <= total (fun k => q k * z k))%R.
Proof.
  intros R1 R0 C H total I.
  assert (X : ((total (fun k => s k * Rpower (z k) r) - total (fun k => s k * Rpower (x k) r)) / r <= c * (total (fun k => q k * z k) - total (fun k => q k * x k)))%R).
  { unfold total. clear I total. induction l as [|k l IH]; cbn [map fold_right]; [right; field; exact R0|].
    destruct (H k (or_introl eq_refl)) as (S & X & Z & E). specialize (IH (fun k' K => H k' (or_intror K))).
    assert (T : ((s k * Rpower (z k) r - s k * Rpower (x k) r) / r <= c * (q k * z k - q k * x k))%R).
    { replace (z k) with (x k * (z k / x k))%R at 1 by (field; lra). assert (P : (0 < z k / x k)%R) by now apply Rdiv_lt_0_compat.
      rewrite <- Rpower_mult_distr by assumption.
      replace ((s k * (Rpower (x k) r * Rpower (z k / x k) r) - s k * Rpower (x k) r) / r)%R with ((s k * Rpower (x k) r) * ((Rpower (z k / x k) r - 1) / r))%R by (field; exact R0).
      pose proof (tangent R1 R0 P) as T. apply Rle_trans with ((s k * Rpower (x k) r) * (z k / x k - 1))%R.
      - apply Rmult_le_compat_l; [|exact T]. left. apply Rmult_lt_0_compat; [exact S|apply rpower_pos].
      - rewrite E. right. field. lra. }
    match goal with |- ((?u + ?a1 - (?v + ?a2)) / r <= _)%R => replace ((u + a1 - (v + a2)) / r)%R with ((u - v) / r + (a1 - a2) / r)%R by (field; exact R0) end.
    lra. }
  apply Rmult_le_reg_l with c; [exact C|]. lra.
Qed.

Lemma total_pos {A} (f : A -> R) l : l <> [] -> (forall k, In k l -> 0 < f k)%R -> (0 < fold_right Rplus 0 (map f l))%R.
Proof.
  induction l as [|k l IH]; intros N H; [congruence|]. cbn [map fold_right]. pose proof (H k (or_introl eq_refl)).
  destruct l as [|k' l]; [cbn; lra|]. specialize (IH ltac:(discriminate) (fun k K => H k (or_intror K))). lra.
Qed.

(** The demands of a CES aggregate are cost minimising. *)
Lemma ces_cheapest {A} (s q x z : A -> R) (y p a e : R) (l : list A) :
  l <> [] -> (0 < e)%R -> e <> 1%R -> (0 < y)%R -> (0 < p)%R -> (0 < a)%R ->
  (forall k, In k l -> 0 < s k /\ 0 < q k /\ 0 < z k /\ x k = y / a * Rpower (s k * p * a / q k) e)%R ->
  let total f := fold_right Rplus 0%R (map f l) in
  let output f := (a * Rpower (total (fun k => s k * Rpower (f k) ((e - 1) / e))) (e / (e - 1)))%R in
  (output x <= output z -> total (fun k => q k * x k) <= total (fun k => q k * z k))%R.
Proof.
  intros N E0 E1 Py Pp Pa H total output I.
  assert (Pya : (0 < y / a)%R) by now apply Rdiv_lt_0_compat.
  assert (Px : forall k, In k l -> (0 < x k)%R).
  { intros k K. destruct (H k K) as (_ & _ & _ & ->). apply Rmult_lt_0_compat; [exact Pya|apply rpower_pos]. }
  assert (R1 : ((e - 1) / e < 1)%R) by (apply Rmult_lt_reg_r with e; [exact E0|]; replace ((e - 1) / e * e)%R with (e - 1)%R by (field; lra); lra).
  assert (R0 : ((e - 1) / e <> 0)%R) by (intros X; apply Rmult_integral in X as [X|X]; [lra|pose proof (Rinv_0_lt_compat _ E0); lra]).
  set (c := (Rpower (y / a) (- / e) / (p * a))%R).
  assert (C : (0 < c)%R) by (apply Rdiv_lt_0_compat; [apply rpower_pos|now apply Rmult_lt_0_compat]).
  apply (@cheapest A s q x z ((e - 1) / e) c l R1 R0 C).
  { intros k K. destruct (H k K) as (H1 & H2 & H3 & H4). pose proof (Px k K) as H5. repeat split; try assumption.
    assert (Pspq : (0 < s k * p * a / q k)%R) by (apply Rdiv_lt_0_compat; [repeat apply Rmult_lt_0_compat|]; assumption).
    unfold c. apply ln_inv.
    - apply Rmult_lt_0_compat; [exact H1|apply rpower_pos].
    - repeat apply Rmult_lt_0_compat; try assumption; try apply rpower_pos. apply Rinv_0_lt_compat. now apply Rmult_lt_0_compat.
    - rewrite ln_mult, ln_rpower, ln_mult, (ln_mult (q k)), ln_div, ln_rpower by solve [repeat first [assumption|apply rpower_pos|apply Rmult_lt_0_compat|apply Rdiv_lt_0_compat]].
      assert (Lx : (ln (x k) = ln (y / a) + e * (ln (s k) + ln p + ln a - ln (q k)))%R).
      { rewrite H4, ln_mult, ln_rpower, (@ln_div (s k * p * a)), !ln_mult by solve [repeat first [assumption|apply rpower_pos|apply Rmult_lt_0_compat|apply Rdiv_lt_0_compat]]. lra. }
      rewrite Lx, ln_mult by assumption. field. lra. }
  fold (total (fun k => s k * Rpower (z k) ((e - 1) / e))%R). fold (total (fun k => s k * Rpower (x k) ((e - 1) / e))%R).
  unfold output in I. set (Z := total (fun k => s k * Rpower (z k) ((e - 1) / e))%R) in *. set (X := total (fun k => s k * Rpower (x k) ((e - 1) / e))%R) in *.
  assert (PZ : (0 < Z)%R) by (apply total_pos; [exact N|]; intros k K; apply Rmult_lt_0_compat; [apply H, K|apply rpower_pos]).
  assert (PX : (0 < X)%R) by (apply total_pos; [exact N|]; intros k K; apply Rmult_lt_0_compat; [apply H, K|apply rpower_pos]).
  apply Rmult_le_reg_l in I; [|exact Pa]. apply ln_le_mono in I; [|apply rpower_pos]. rewrite !ln_rpower in I.
  destruct (Rlt_or_le 1 e) as [G|G].
  - assert (Q : (0 < e / (e - 1))%R) by (apply Rdiv_lt_0_compat; lra). apply Rmult_le_reg_l in I; [|exact Q]. apply ln_le_cancel in I; try assumption.
    apply Rmult_le_pos; [lra|]. left. apply Rinv_0_lt_compat. apply Rdiv_lt_0_compat; lra.
  - assert (Q : (0 < e / (1 - e))%R) by (apply Rdiv_lt_0_compat; lra).
    assert (I' : (e / (1 - e) * ln Z <= e / (1 - e) * ln X)%R) by (replace (e / (1 - e))%R with (- (e / (e - 1)))%R by (field; lra); lra).
    apply Rmult_le_reg_l in I'; [|exact Q]. apply ln_le_cancel in I'; try assumption.
    replace ((Z - X) / ((e - 1) / e))%R with ((X - Z) * (e / (1 - e)))%R by (field; lra). apply Rmult_le_pos; lra.
Qed.

(** ** The equations of the Dixit-Stiglitz aggregate *)
Section DS.
Variables (rho : valuation) (ix : indices) (i : string) (n : nat).
Variables (factor price output output_price epsilon : string) (TFP sh : option string) (x q s : nat -> R) (y p a e : R).
Hypotheses (I : is_name i) (n0 : 0 < n)
  (Hx : unit_at rho ix i n factor x) (Hq : unit_at rho ix i n price q) (Hs : opt_at rho ix i n sh s) (Hy : unit_at rho ix i n output (fun _ => y))
  (Hp : unit_at rho ix i n output_price (fun _ => p)) (Ha : opt_at rho ix i n TFP (fun _ => a)) (He : unit_at rho ix i n epsilon (fun _ => e))
  (Nx : no_eq factor) (Ny : no_eq output) (E0 : e <> 0%R) (E1 : e <> 1%R)
  (Px : forall k, k < n -> (0 < x k /\ 0 < q k /\ 0 < s k)%R) (Pp : (0 < p)%R) (Pa : (0 < a)%R).
Local Notation VF := (VF rho ix i n).

Lemma unit_VF str f : unit_at rho ix i n str f -> VF LPrim (tokenize str) f.
Proof. exact (fun H => H). Qed.
Lemma unit_V_at str f k : unit_at rho ix i n str f -> k < n -> V rho (upd ix i k) LPrim (tokenize str) (f k).
Proof. intros H K. exact (VF_V (unit_VF H) K). Qed.

Lemma ds_kernel_val : VF LExpr (tokenize (ds_kernel factor epsilon sh)) (fun k => s k * Rpower (x k) ((e - 1) / e))%R.
Proof.
  assert (X : VF LPrim (tokenize ("((" ++ epsilon ++ " - 1) / " ++ epsilon ++ ")")) (fun _ => (e - 1) / e)%R).
  { replace ("((" ++ epsilon ++ " - 1) / " ++ epsilon ++ ")")%string with ("(" ++ (("(" ++ (epsilon ++ " - " ++ "1") ++ ")") ++ " / " ++ epsilon) ++ ")")%string by sassoc.
    apply VF_paren, VF_term. apply VF_div with (f := fun _ => (e - 1)%R) (g := fun _ => e).
    - apply VF_factor, VF_prim, VF_paren. apply VF_sub with (f := fun _ => e) (g := fun _ => 1%R); [apply VF_term, VF_factor, VF_prim, He|apply VF_factor, VF_prim, VF_one].
    - apply VF_prim, He.
    - intros; exact E0. }
  assert (W : VF LFactor (tokenize (factor ++ " ** ((" ++ epsilon ++ " - 1) / " ++ epsilon ++ ")")) (fun k => Rpower (x k) ((e - 1) / e))).
  { replace (factor ++ " ** ((" ++ epsilon ++ " - 1) / " ++ epsilon ++ ")")%string with (factor ++ " ** " ++ ("((" ++ epsilon ++ " - 1) / " ++ epsilon ++ ")"))%string by sassoc.
    apply VF_pow with (f := x) (g := fun _ => ((e - 1) / e)%R); [apply Hx|apply VF_prim, X|]. intros k K. now apply Px. }
  unfold ds_kernel. destruct sh as [w|]; cbn [times].
  - replace ((w ++ " * ") ++ factor ++ " ** ((" ++ epsilon ++ " - 1) / " ++ epsilon ++ ")")%string
      with (w ++ " * " ++ (factor ++ " ** ((" ++ epsilon ++ " - 1) / " ++ epsilon ++ ")"))%string by sassoc.
    apply VF_term, VF_mul with (f := s) (g := fun k => Rpower (x k) ((e - 1) / e)); [apply VF_factor, VF_prim, Hs|exact W].
  - apply VF_ext with (f := fun k => Rpower (x k) ((e - 1) / e)); [apply VF_term, VF_factor, W|]. intros k K. cbn [opt_at] in Hs. rewrite Hs by exact K. lra.
Qed.

Lemma sum_inner_pos : (0 < sum_n (fun k => s k * Rpower (x k) ((e - 1) / e)) n)%R.
Proof.
  apply total_pos; [destruct n; [lia|discriminate]|]. intros k K. apply in_seq in K. apply Rmult_lt_0_compat; [apply Px; lia|apply rpower_pos].
Qed.

Lemma ds_production_holds k rhs : k < n -> ds_rhs "numba" i (Z.of_nat n - 1) (ds_kernel factor epsilon sh) epsilon = Ok rhs ->
  (holds rho (upd ix i k) (output ++ " = " ++ times TFP ++ rhs) <-> (y = aggregate a e s x n)%R).
Proof.
  intros K E. unfold ds_rhs in E. change (String.eqb "numba" "numba") with true in E. cbv iota in E. apply ok_eq in E. subst rhs. unfold aggregate.
  set (T := sum_n (fun k => s k * Rpower (x k) ((e - 1) / e))%R n). set (ker := ds_kernel factor epsilon sh).
  replace ("Sum(" ++ ker ++ ", (" ++ i ++ ", 0, " ++ str_of_Z (Z.of_nat n - 1) ++ ")) ** (" ++ epsilon ++ " / (" ++ epsilon ++ " - 1))")%string
    with (Sum_str i n ker ++ " ** " ++ ("(" ++ epsilon ++ " / (" ++ epsilon ++ " - 1))"))%string by (unfold Sum_str; sassoc).
  assert (W : V rho (upd ix i k) LFactor (tokenize (Sum_str i n ker ++ " ** " ++ ("(" ++ epsilon ++ " / (" ++ epsilon ++ " - 1))"))) (Rpower T (e / (e - 1)))).
  { apply V_power, sv_pow; [|apply V_unit_factor, outer_exponent; [exact (@unit_V_at epsilon (fun _ => e) k He K)|exact E1]|exact sum_inner_pos].
    apply V_summation with (ix := ix); [exact I|exact n0|intros; apply upd_upd|apply ds_kernel_val]. }
  apply equation_holds; [exact Ny|apply expr_V, V_unit_expr; exact (@unit_V_at output (fun _ => y) k Hy K)|].
  destruct TFP as [w|]; cbn [times].
  - replace ((w ++ " * ") ++ Sum_str i n ker ++ " ** " ++ "(" ++ epsilon ++ " / (" ++ epsilon ++ " - 1))")%string
      with (w ++ " * " ++ (Sum_str i n ker ++ " ** " ++ ("(" ++ epsilon ++ " / (" ++ epsilon ++ " - 1))")))%string by sassoc.
    apply expr_V, V_term, sv_mul; [apply V_unit_term; exact (@unit_V_at w (fun _ => a) k Ha K)|exact W].
  - cbn [opt_at] in Ha. rewrite (Ha 0 n0), Rmult_1_l. apply expr_V, V_term, V_factor, W.
Qed.

Lemma ds_inner_val k : k < n -> V rho (upd ix i k) LPrim (tokenize ("(" ++ times TFP ++ times sh ++ output_price ++ " / " ++ price ++ ")")) (s k * p * a / q k).
Proof.
  intros K. pose proof (@unit_V_at output_price (fun _ => p) k Hp K) as Vp. pose proof (@unit_V_at price q k Hq K) as Vq.
  assert (Q : q k <> 0%R) by (destruct (Px K) as (_ & X & _); lra).
  replace ("(" ++ times TFP ++ times sh ++ output_price ++ " / " ++ price ++ ")")%string with ("(" ++ ((times TFP ++ times sh ++ output_price) ++ " / " ++ price) ++ ")")%string by sassoc.
  apply sv_paren, V_term, sv_div; [|now apply V_unit_factor|exact Q].
  destruct TFP as [w|]; destruct sh as [w'|]; cbn [times opt_at] in *.
  - replace ((w ++ " * ") ++ (w' ++ " * ") ++ output_price)%string with ((w ++ " * " ++ w') ++ " * " ++ output_price)%string by sassoc.
    replace (s k * p * a)%R with (a * s k * p)%R by ring. apply sv_mul; [|now apply V_unit_factor].
    apply sv_mul; [apply V_unit_term; exact (@unit_V_at w (fun _ => a) k Ha K)|apply V_unit_factor; exact (@unit_V_at w' s k Hs K)].
  - replace ((w ++ " * ") ++ "" ++ output_price)%string with (w ++ " * " ++ output_price)%string by sassoc.
    rewrite (Hs k K). replace (1 * p * a)%R with (a * p)%R by ring. apply sv_mul; [apply V_unit_term; exact (@unit_V_at w (fun _ => a) k Ha K)|now apply V_unit_factor].
  - replace ("" ++ (w' ++ " * ") ++ output_price)%string with (w' ++ " * " ++ output_price)%string by sassoc.
    rewrite (Ha 0 n0), Rmult_1_r. apply sv_mul; [apply V_unit_term; exact (@unit_V_at w' s k Hs K)|now apply V_unit_factor].
  - change ("" ++ "" ++ output_price)%string with output_price. rewrite (Hs k K), (Ha 0 n0), Rmult_1_r, Rmult_1_l. now apply V_unit_term.
Qed.
Lemma inner_pos k : k < n -> (0 < s k * p * a / q k)%R.
Proof. intros K. destruct (Px K) as (_ & H1 & H2). apply Rdiv_lt_0_compat; [repeat apply Rmult_lt_0_compat|]; assumption. Qed.

Lemma ds_demand_holds k : k < n ->
  (holds rho (upd ix i k) (ds_demand factor price output output_price epsilon TFP sh) <->
   x k = (match TFP with
          | Some _ => y / a * Rpower (s k * p * a / q k) e
          | None => y / Rpower (s k * p * a / q k) e
          end)%R).
Proof.
  intros K. pose proof (ds_inner_val K) as W. unfold ds_demand.
  replace (factor ++ " = " ++ output ++ " / " ++ times TFP ++ "(" ++ times TFP ++ times sh ++ output_price ++ " / " ++ price ++ ") ** " ++ epsilon)%string
    with (factor ++ " = " ++ output ++ " / " ++ times TFP ++ (("(" ++ times TFP ++ times sh ++ output_price ++ " / " ++ price ++ ")") ++ " ** " ++ epsilon))%string by sassoc.
  set (inner := ("(" ++ times TFP ++ times sh ++ output_price ++ " / " ++ price ++ ")")%string) in *.
  assert (W' : V rho (upd ix i k) LFactor (tokenize (inner ++ " ** " ++ epsilon)) (Rpower (s k * p * a / q k) e)).
  { apply V_power, sv_pow; [exact W|apply V_unit_factor; exact (@unit_V_at epsilon (fun _ => e) k He K)|now apply inner_pos]. }
  apply equation_holds; [exact Nx|apply expr_V, V_unit_expr; exact (@unit_V_at factor x k Hx K)|].
  destruct TFP as [w|]; cbn [times].
  - replace (output ++ " / " ++ (w ++ " * ") ++ inner ++ " ** " ++ epsilon)%string with ((output ++ " / " ++ w) ++ " * " ++ (inner ++ " ** " ++ epsilon))%string by sassoc.
    apply expr_V, V_term, sv_mul; [|exact W']. apply sv_div; [apply V_unit_term; exact (@unit_V_at output (fun _ => y) k Hy K)|apply V_unit_factor; exact (@unit_V_at w (fun _ => a) k Ha K)|lra].
  - change ("" ++ inner ++ " ** " ++ epsilon)%string with (inner ++ " ** " ++ epsilon)%string.
    apply expr_V, V_term, sv_div; [apply V_unit_term; exact (@unit_V_at output (fun _ => y) k Hy K)|exact W'|]. apply Rgt_not_eq, rpower_pos.
Qed.
End DS.

(** The hypotheses about the strings passed to dixit_stiglitz *)
Lemma ds_call factor price output output_price epsilon i labels coords TFP sh : dget i coords = Some labels -> labels <> [] ->
  exists rhs, ds_rhs "numba" i (Z.of_nat (length labels) - 1) (ds_kernel factor epsilon sh) epsilon = Ok rhs /\
    dixit_stiglitz (One factor) (One price) output output_price epsilon i coords "numba" TFP (option_map One sh) false =
    Ok ((output ++ " = " ++ times TFP ++ rhs)%string, ds_demand factor price output output_price epsilon TFP sh).
Proof.
  intros E N. eexists. split; [reflexivity|]. unfold dixit_stiglitz. cbn [single bind]. unfold dgetitem. rewrite E.
  destruct sh; reflexivity.
Qed.

Lemma c58_meaning__p :
  forall (rho : valuation) (ix : indices) (i : string) (labels : list string) coords (factor price output output_price epsilon : string) (TFP shares : option string)
         (x q s : nat -> R) (y p a e : R),
  let n := length labels in
  is_name i -> dget i coords = Some labels -> labels <> [] ->
  unit_at rho ix i n factor x -> unit_at rho ix i n price q -> opt_at rho ix i n shares s -> unit_at rho ix i n output (fun _ => y) ->
  unit_at rho ix i n output_price (fun _ => p) -> opt_at rho ix i n TFP (fun _ => a) -> unit_at rho ix i n epsilon (fun _ => e) ->
  no_eq factor -> no_eq output -> e <> 0%R -> e <> 1%R ->
  (forall k, k < n -> (0 < x k /\ 0 < q k /\ 0 < s k)%R) -> (0 < p)%R -> (0 < a)%R ->
  exists definition demand,
    dixit_stiglitz (One factor) (One price) output output_price epsilon i coords "numba" TFP (option_map One shares) false = Ok (definition, demand) /\
    (forall k, k < n -> (holds rho (upd ix i k) definition <-> y = aggregate a e s x n)) /\
    (TFP <> None -> forall k, k < n -> (holds rho (upd ix i k) demand <-> x k = (y / a * Rpower (s k * p * a / q k) e)%R)).
Proof.
  intros rho ix i labels coords factor price output output_price epsilon TFP sh x q s y p a e n I Ei Nl Hx Hq Hs Hy Hp Ha He Nx Ny E0 E1 Px Pp Pa.
  assert (n0 : 0 < n) by (unfold n; destruct labels; [congruence|simpl; lia]).
  destruct (@ds_call factor price output output_price epsilon i labels coords TFP sh Ei Nl) as (rhs & Er & Ed). eexists _, _. split; [exact Ed|]. split.
  - intros k K. apply (@ds_production_holds rho ix i n factor price output output_price epsilon TFP sh x q s y p a e I n0 Hx Hq Hs Hy Hp Ha He Ny E0 E1 Px k rhs K Er).
  - intros NT k K. rewrite (@ds_demand_holds rho ix i n factor price output output_price epsilon TFP sh x q s y p a e) by eassumption.
    destruct TFP; [reflexivity|congruence].
Qed.

(** The demand minimises the cost of the aggregate. *)
Lemma c58_minimises__p :
  forall (rho : valuation) (ix : indices) (i : string) (labels : list string) coords (factor price output output_price epsilon TFP : string) (shares : option string)
         (x q s : nat -> R) (y p a e : R) definition demand,
  let n := length labels in
  is_name i -> dget i coords = Some labels -> labels <> [] ->
  unit_at rho ix i n factor x -> unit_at rho ix i n price q -> opt_at rho ix i n shares s -> unit_at rho ix i n output (fun _ => y) ->
  unit_at rho ix i n output_price (fun _ => p) -> unit_at rho ix i n TFP (fun _ => a) -> unit_at rho ix i n epsilon (fun _ => e) ->
  no_eq factor -> no_eq output -> (0 < e)%R -> e <> 1%R ->
  (forall k, k < n -> (0 < x k /\ 0 < q k /\ 0 < s k)%R) -> (0 < p)%R -> (0 < a)%R -> (0 < y)%R ->
  dixit_stiglitz (One factor) (One price) output output_price epsilon i coords "numba" (Some TFP) (option_map One shares) false = Ok (definition, demand) ->
  (forall k, k < n -> holds rho (upd ix i k) definition /\ holds rho (upd ix i k) demand) ->
  aggregate a e s x n = y /\ (sum_n (fun k => q k * x k) n = p * y)%R /\
  forall z, (forall k, k < n -> (0 < z k)%R) -> (y <= aggregate a e s z n)%R -> (sum_n (fun k => q k * x k) n <= sum_n (fun k => q k * z k) n)%R.
Proof.
  intros rho ix i labels coords factor price output output_price epsilon TFP sh x q s y p a e definition demand n I Ei Nl Hx Hq Hs Hy Hp Ha He Nx Ny E0 E1 Px Pp Pa Py Ed H.
  assert (n0 : 0 < n) by (unfold n; destruct labels; [congruence|simpl; lia]).
  destruct (@c58_meaning__p rho ix i labels coords factor price output output_price epsilon (Some TFP) sh x q s y p a e) as (def' & dem' & Ed' & M1 & M2); try assumption; [lra|].
  rewrite Ed in Ed'. injection Ed' as <- <-.
  assert (Y : y = aggregate a e s x n) by (apply (M1 0 n0), H, n0).
  assert (D : forall k, k < n -> x k = (y / a * Rpower (s k * p * a / q k) e)%R) by (intros k K; apply (M2 ltac:(discriminate) k K), H, K).
  split; [now symmetry|].
  set (mk := fun k => mkFactor "" "" "" (x k) (q k) (s k)). set (l := map mk (seq 0 n)).
  assert (SO : forall g, sum_over g l = sum_n (fun k => g (mk k)) n).
  { intros g. unfold l, sum_n, sum_over. induction (seq 0 n) as [|k ks IH]; [reflexivity|]. cbn [map fold_right]. now rewrite IH. }
  assert (Nl' : l <> []) by (unfold l; destruct n; [lia|discriminate]).
  assert (Q : (forall f, In f l -> 0 < qty f /\ 0 < share f /\ 0 < S_Production.price f)%R).
  { intros f Hf. apply in_map_iff in Hf as (k & <- & K). apply in_seq in K. cbn [qty share S_Production.price mk]. destruct (Px k ltac:(lia)) as (? & ? & ?). auto. }
  assert (D' : forall f, In f l -> (qty f = y / a * Rpower (share f * p * a / S_Production.price f) e)%R).
  { intros f Hf. apply in_map_iff in Hf as (k & <- & K). apply in_seq in K. apply D. lia. }
  split.
  - pose proof (@ces_value_iff l y p a e Nl' Q Py Pp Pa ltac:(lra) E1 D') as V1. pose proof (@ces_production_iff l y p a e Nl' Q Py Pp Pa ltac:(lra) E1 D') as V2.
    assert (P0 : y = (a * Rpower (sum_over (fun f => share f * Rpower (qty f) ((e - 1) / e)) l) (e / (e - 1)))%R) by (rewrite SO; exact Y).
    apply V2 in P0. apply V1 in P0. rewrite SO in P0. cbn [qty S_Production.price mk] in P0. rewrite <- P0. ring.
  - intros z Pz Iz. rewrite Y in Iz. apply (@ces_cheapest nat s q x z y p a e (seq 0 n)); try assumption; [destruct n; [lia|discriminate]|].
    intros k K. apply in_seq in K. destruct (Px k ltac:(lia)) as (? & ? & ?). repeat split; try assumption; [apply Pz; lia|apply D; lia].
Qed.

(** Without TFP the demand divides by the relative price where it should multiply. *)
Lemma c58_without_tfp__p :
  forall (rho : valuation) (ix : indices) (i : string) (labels : list string) coords (factor price output output_price epsilon : string) (shares : option string)
         (x q s : nat -> R) (y p e : R) definition demand,
  let n := length labels in
  is_name i -> dget i coords = Some labels -> labels <> [] ->
  unit_at rho ix i n factor x -> unit_at rho ix i n price q -> opt_at rho ix i n shares s -> unit_at rho ix i n output (fun _ => y) ->
  unit_at rho ix i n output_price (fun _ => p) -> unit_at rho ix i n epsilon (fun _ => e) ->
  no_eq factor -> no_eq output -> e <> 0%R -> e <> 1%R ->
  (forall k, k < n -> (0 < x k /\ 0 < q k /\ 0 < s k)%R) -> (0 < p)%R ->
  dixit_stiglitz (One factor) (One price) output output_price epsilon i coords "numba" None (option_map One shares) false = Ok (definition, demand) ->
  forall k, k < n -> (holds rho (upd ix i k) demand <-> x k = (y * Rpower (q k / (s k * p)) e)%R).
Proof.
  intros rho ix i labels coords factor price output output_price epsilon sh x q s y p e definition demand n I Ei Nl Hx Hq Hs Hy Hp He Nx Ny E0 E1 Px Pp Ed k K.
  assert (n0 : 0 < n) by lia.
  destruct (@ds_call factor price output output_price epsilon i labels coords None sh Ei Nl) as (rhs & Er & Ed'). rewrite Ed in Ed'. apply ok_eq, (f_equal snd) in Ed'. cbn [snd] in Ed'. subst demand.
  rewrite (@ds_demand_holds rho ix i n factor price output output_price epsilon None sh x q s y p 1 e); try assumption; try lra; [|now intros].
  destruct (Px k K) as (X & Q & S).
  replace (q k / (s k * p))%R with (/ (s k * p * 1 / q k))%R by (field; repeat split; lra).
  assert (P : (0 < s k * p * 1 / q k)%R) by (apply Rdiv_lt_0_compat; [repeat apply Rmult_lt_0_compat; lra|assumption]).
  replace (Rpower (/ (s k * p * 1 / q k)) e) with (/ Rpower (s k * p * 1 / q k) e)%R; [reflexivity|].
  unfold Rpower. rewrite ln_Rinv by exact P. rewrite <- exp_Ropp. f_equal. ring.
Qed.
