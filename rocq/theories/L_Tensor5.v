(** Lemmas for C57 and C58 with the pytensor backend. *)
From Coq Require Import Ascii Reals Lra Lia ZArith.
From Verif Require Import Py PyStr NdArray M_Primitives M_PyExpr M_Equations M_Production M_Tensor S_PyExpr S_Meaning S_Production S_Layout S_Tensor
  L_PyExpr L_Meaning L_Production2 L_Production3 L_Production4 L_Production5 L_Production6 L_Tensor L_Tensor2 L_Tensor3 L_Tensor4.
Local Open Scope string_scope.
Local Open Scope list_scope.

Lemma meets_in a b r : meets a b r -> forall d, In (Some d) a \/ In (Some d) b -> In (Some d) r.
Proof.
  induction 1 as [|a b r s t u M H IH]; intros d I; [destruct I as [[]|[]]|].
  destruct I as [[E|I]|[E|I]]; try solve [right; apply IH; auto]; left; unfold meet in M; clear - M E; intuition congruence.
Qed.
Lemma joined_in a b r d : joined a b r -> In (Some d) a \/ In (Some d) b -> In (Some d) r.
Proof. intros J I. apply (meets_in J). unfold padded. destruct I as [I|I]; [left|right]; apply in_or_app; now right. Qed.

Section RV.
Variables (C : coords) (objs : list mobj) (rho : valuation).
(** The string is read as an array expression with these values. *)
Definition RV (lvl : level) (s : string) (A : list axis) (v : indices -> R) : Prop :=
  exists e F, G lvl (tokenize s) e /\ reads C objs rho e A F /\ forall ix, within C ix A -> F ix = Some (v ix).

Lemma rv_array0 s v : array0 C objs rho s v -> RV LPrim s [] (fun _ => v).
Proof. intros (e & F & H1 & H2 & H3). exists e, F. split; [exact H1|]. split; [exact H2|]. intros ix _. apply H3. Qed.
Lemma rv_array1 s d f : array1 C objs rho s d f -> RV LPrim s [Some d] (fun ix => f (ix d)).
Proof. intros (e & F & H1 & H2 & H3). exists e, F. split; [exact H1|]. split; [exact H2|]. intros ix W. apply H3, W. now left. Qed.
Lemma rv_factor s A v : RV LPrim s A v -> RV LFactor s A v.
Proof. intros (e & F & H). exists e, F. split; [apply G_power, G_prim, H|apply H]. Qed.
Lemma rv_term s A v : RV LFactor s A v -> RV LTerm s A v.
Proof. intros (e & F & H). exists e, F. split; [apply G_factor, H|apply H]. Qed.
Lemma rv_expr s A v : RV LTerm s A v -> RV LExpr s A v.
Proof. intros (e & F & H). exists e, F. split; [apply G_term, H|apply H]. Qed.
Lemma rv_paren s A v : RV LExpr s A v -> RV LPrim ("(" ++ s ++ ")") A v.
Proof. intros (e & F & H1 & H2). exists e, F. split; [|exact H2]. rewrite tok_last, tok_head by reflexivity. now apply G_paren. Qed.
Lemma rv_ext lvl s A v w : RV lvl s A v -> (forall ix, within C ix A -> v ix = w ix) -> RV lvl s A w.
Proof. intros (e & F & H1 & H2 & H3) E. exists e, F. split; [exact H1|]. split; [exact H2|]. intros ix W. rewrite <- E by exact W. now apply H3. Qed.
Lemma within_joined A B r ix : joined A B r -> within C ix r -> within C ix A /\ within C ix B.
Proof. intros J W. split; intros d I; apply W, (joined_in d J); auto. Qed.
Lemma rv_one : RV LPrim "1" [] (fun _ => 1%R).
Proof. exists (EWord "1"). eexists. split; [apply G_word|]. split; [apply reads_number with (n := 1); reflexivity|]. reflexivity. Qed.
Lemma rv_mul s t A B r v w : RV LTerm s A v -> RV LFactor t B w -> joined A B r -> RV LTerm (s ++ " * " ++ t) r (fun ix => v ix * w ix)%R.
Proof.
  intros (e & F & H1 & H2 & H3) (f & K & H4 & H5 & H6) J. exists (EBin Mul e f). eexists. split; [|split; [exact (reads_op Mul H2 H5 J)|]].
  - rewrite tok_head, tok_last by reflexivity. now apply G_mul.
  - intros ix W. destruct (within_joined J W) as (W1 & W2). cbv beta. now rewrite (H3 ix W1), (H6 ix W2).
Qed.
Lemma rv_sub s t A B r v w : RV LExpr s A v -> RV LTerm t B w -> joined A B r -> RV LExpr (s ++ " - " ++ t) r (fun ix => v ix - w ix)%R.
Proof.
  intros (e & F & H1 & H2 & H3) (f & K & H4 & H5 & H6) J. exists (EBin Sub e f). eexists. split; [|split; [exact (reads_op Sub H2 H5 J)|]].
  - rewrite tok_head, tok_last by reflexivity. now apply G_sub.
  - intros ix W. destruct (within_joined J W) as (W1 & W2). cbv beta. now rewrite (H3 ix W1), (H6 ix W2).
Qed.
Lemma rv_div s t A B r v w : RV LTerm s A v -> RV LFactor t B w -> joined A B r -> (forall ix, within C ix B -> w ix <> 0%R) ->
  RV LTerm (s ++ " / " ++ t) r (fun ix => v ix / w ix)%R.
Proof.
  intros (e & F & H1 & H2 & H3) (f & K & H4 & H5 & H6) J N. exists (EBin Div e f). eexists. split; [|split; [exact (reads_op Div H2 H5 J)|]].
  - rewrite tok_head, tok_last by reflexivity. now apply G_div.
  - intros ix W. destruct (within_joined J W) as (W1 & W2). cbv beta. rewrite (H3 ix W1), (H6 ix W2). cbn [lift2 apply_op].
    destruct (Req_EM_T (w ix) 0) as [E|_]; [exfalso; exact (N ix W2 E)|reflexivity].
Qed.
Lemma rv_pow s t A B r v w : RV LPrim s A v -> RV LFactor t B w -> joined A B r -> (forall ix, within C ix A -> (0 < v ix)%R) ->
  RV LFactor (s ++ " ** " ++ t) r (fun ix => Rpower (v ix) (w ix)).
Proof.
  intros (e & F & H1 & H2 & H3) (f & K & H4 & H5 & H6) J N. exists (EBin Power e f). eexists. split; [|split; [exact (reads_op Power H2 H5 J)|]].
  - rewrite tok_head, tok_last by reflexivity. now apply G_power, G_pow.
  - intros ix W. destruct (within_joined J W) as (W1 & W2). cbv beta. rewrite (H3 ix W1), (H6 ix W2). cbn [lift2 apply_op].
    destruct (Rlt_dec 0 (v ix)) as [_|E]; [reflexivity|exfalso; exact (E (N ix W1))].
Qed.
Lemma rv_total s d v : RV LExpr s [Some d] v -> RV LPrim ("(" ++ s ++ ").sum()") [] (fun ix => sum_n (fun k => v (upd ix d k)) (size C d)).
Proof.
  intros (e & F & H1 & H2 & H3). exists (ECall (EAttr e "sum") ENil). eexists. split; [|split; [apply (@reads_total C objs rho e "sum" Rplus 0%R [Some d] F H2); [repeat constructor; intros []|left; auto]|]].
  - rewrite tok_last, tok_head by reflexivity. change (tokenize "(") with [LP]. change (tokenize ").sum()") with ([RP] ++ [Dot; Word "sum"] ++ LP :: [] ++ [RP]). cbn [app].
    replace (LP :: tokenize s ++ [RP; Dot; Word "sum"; LP; RP]) with (((LP :: tokenize s ++ [RP]) ++ [Dot; Word "sum"]) ++ LP :: [] ++ [RP]) by (cbn; now rewrite <- !app_assoc).
    apply G_call; [|apply G_nil]. now apply G_attr, G_paren.
  - intros ix _. cbn [over_all]. apply over_sum. intros k K. apply H3. intros d' [E|[]]. injection E as <-. now rewrite upd_same.
Qed.
Lemma rv_eq lhs rhs A B dims v w : no_eq lhs -> RV LExpr lhs A v -> RV LExpr rhs B w -> joined A B (map Some dims) -> NoDup dims ->
  exists F, equation_reads C objs rho (lhs ++ " = " ++ rhs) dims F /\ forall ix, (forall d, In d dims -> ix d < size C d) -> F ix = Some (v ix - w ix)%R.
Proof.
  intros N (e & F & H1 & H2 & H3) (f & K & H4 & H5 & H6) J Nd. eexists. split.
  - apply (@eq_reads C objs rho lhs rhs e f); [exact N|exact H1|exact H4|exact Nd|exact (reads_op Sub H2 H5 J)].
  - intros ix W. assert (W' : within C ix (map Some dims)) by (intros d I; apply in_map_iff in I; destruct I as (d' & [= ->] & I); now apply W).
    destruct (within_joined J W') as (W1 & W2). cbv beta. now rewrite (H3 ix W1), (H6 ix W2).
Qed.
End RV.

Section DS.
Variables (C : coords) (objs : list mobj) (rho : valuation) (i : string) (coords : dict (list string)) (labels : list string).
Variables (factor price output output_price epsilon TFP : string) (sh : option string) (x q s : nat -> R) (y p a e : R).
Let n := size C i.
Hypotheses (n0 : 0 < n) (Hc : dget i coords = Some labels)
  (Hx : array1 C objs rho factor i x) (Hq : array1 C objs rho price i q) (Hs : opt_array1 C objs rho sh i s) (Hy : array0 C objs rho output y)
  (Hp : array0 C objs rho output_price p) (Ha : array0 C objs rho TFP a) (He : array0 C objs rho epsilon e)
  (Nx : no_eq factor) (Ny : no_eq output) (E0 : e <> 0%R) (E1 : e <> 1%R)
  (Px : forall k, k < n -> (0 < x k /\ 0 < q k /\ 0 < s k)%R) (Pp : (0 < p)%R) (Pa : (0 < a)%R).
Local Notation RV := (RV C objs rho).

Lemma in_i ix : within C ix [Some i] -> ix i < n.
Proof. intros W. apply W. now left. Qed.
Lemma ds_kernel_rv : RV LExpr (ds_kernel factor epsilon sh) [Some i] (fun ix => s (ix i) * Rpower (x (ix i)) ((e - 1) / e))%R.
Proof.
  pose proof (rv_array0 He) as Re. pose proof (rv_array1 Hx) as Rx.
  assert (X : RV LPrim ("((" ++ epsilon ++ " - 1) / " ++ epsilon ++ ")") [] (fun _ => (e - 1) / e)%R).
  { replace ("((" ++ epsilon ++ " - 1) / " ++ epsilon ++ ")")%string with ("(" ++ (("(" ++ (epsilon ++ " - " ++ "1") ++ ")") ++ " / " ++ epsilon) ++ ")")%string by sassoc.
    apply rv_paren, rv_expr. apply (@rv_div C objs rho _ _ [] [] [] (fun _ => (e - 1)%R) (fun _ => e)); [|now apply rv_factor|align|intros; exact E0].
    apply rv_term, rv_factor, rv_paren. apply (@rv_sub C objs rho _ _ [] [] [] (fun _ => e) (fun _ => 1%R)); [now apply rv_expr, rv_term, rv_factor|apply rv_term, rv_factor, rv_one|align]. }
  assert (W : RV LFactor (factor ++ " ** ((" ++ epsilon ++ " - 1) / " ++ epsilon ++ ")") [Some i] (fun ix => Rpower (x (ix i)) ((e - 1) / e))).
  { replace (factor ++ " ** ((" ++ epsilon ++ " - 1) / " ++ epsilon ++ ")")%string with (factor ++ " ** " ++ ("((" ++ epsilon ++ " - 1) / " ++ epsilon ++ ")"))%string by sassoc.
    apply (@rv_pow C objs rho _ _ [Some i] [] [Some i] (fun ix => x (ix i)) (fun _ => ((e - 1) / e)%R)); [exact Rx|now apply rv_factor|align|].
    intros ix I. apply in_i in I. now apply Px. }
  unfold ds_kernel. destruct sh as [w|]; cbn [times].
  - replace ((w ++ " * ") ++ factor ++ " ** ((" ++ epsilon ++ " - 1) / " ++ epsilon ++ ")")%string
      with (w ++ " * " ++ (factor ++ " ** ((" ++ epsilon ++ " - 1) / " ++ epsilon ++ ")"))%string by sassoc.
    apply rv_expr. apply (@rv_mul C objs rho _ _ [Some i] [Some i] [Some i] (fun ix => s (ix i)) (fun ix => Rpower (x (ix i)) ((e - 1) / e))); [|exact W|align].
    apply rv_term, rv_factor, rv_array1, Hs.
  - eapply rv_ext; [apply rv_expr, rv_term, W|]. intros ix I. apply in_i in I. cbn [opt_array1] in Hs. rewrite (Hs _ I). cbv beta. lra.
Qed.
Lemma upd_i ix k : upd ix i k i = k.
Proof. apply upd_same. Qed.
Lemma inner_total : (0 < sum_n (fun k => s k * Rpower (x k) ((e - 1) / e)) n)%R.
Proof.
  apply total_pos; [destruct n; [lia|discriminate]|]. intros k K. apply in_seq in K. apply Rmult_lt_0_compat; [apply Px; lia|apply rpower_pos].
Qed.

(** The definition by production, by value, and the demands *)
Definition ds_def (value : bool) : string :=
  if value then ds_value factor price output output_price
  else (output ++ " = " ++ times (Some TFP) ++ "(" ++ ds_kernel factor epsilon sh ++ ").sum() ** (" ++ epsilon ++ " / (" ++ epsilon ++ " - 1))")%string.
Lemma ds_call_pytensor value : dixit_stiglitz (One factor) (One price) output output_price epsilon i coords "pytensor" (Some TFP) (option_map One sh) value =
  Ok (ds_def value, ds_demand factor price output output_price epsilon (Some TFP) sh).
Proof. unfold dixit_stiglitz, ds_def. destruct sh; cbn [option_map single bind]; unfold dgetitem; rewrite Hc; cbn [bind]; unfold ds_rhs; change (String.eqb "pytensor" "numba") with false; change (String.eqb "pytensor" "pytensor") with true; cbv iota; cbn [bind]; destruct value; reflexivity. Qed.

Lemma ds_def_reads value : exists F, equation_reads C objs rho (ds_def value) [] F /\
  forall ix, F ix = Some (y - if value then sum_n (fun k => q k * x k) n / p else aggregate a e s x n)%R.
Proof.
  destruct value; unfold ds_def.
  - unfold ds_value. destruct (@rv_eq C objs rho output (("(" ++ (price ++ " * " ++ factor) ++ ").sum()") ++ " / " ++ ("(" ++ output_price ++ ")")) [] [] [] (fun _ => y) (fun ix => sum_n (fun k => q k * x k) n / p)%R Ny) as (F & RF & VF).
    + apply rv_expr, rv_term, rv_factor, rv_array0, Hy.
    + apply rv_expr. refine (@rv_ext C objs rho _ _ _ (fun ix => sum_n (fun k => q (upd ix i k i) * x (upd ix i k i)) (size C i) / p)%R _ _ _).
      * apply (@rv_div C objs rho _ _ [] [] [] (fun ix => sum_n (fun k => q (upd ix i k i) * x (upd ix i k i)) (size C i))%R (fun _ => p)).
        -- apply rv_term, rv_factor. apply (@rv_total C objs rho (price ++ " * " ++ factor) i (fun ix => q (ix i) * x (ix i))%R).
           apply rv_expr, (@rv_mul C objs rho _ _ [Some i] [Some i] [Some i] (fun ix => q (ix i)) (fun ix => x (ix i))); [apply rv_term, rv_factor, rv_array1, Hq|apply rv_factor, rv_array1, Hx|align].
        -- apply rv_factor, rv_paren, rv_expr, rv_term, rv_factor, rv_array0, Hp.
        -- align.
        -- intros; lra.
      * intros ix _. f_equal. apply sum_n_ext. intros k _. now rewrite upd_i.
    + align.
    + constructor.
    + exists F. split; [|intros ix; apply VF; intros d []]. replace (output ++ " = (" ++ price ++ " * " ++ factor ++ ").sum() / (" ++ output_price ++ ")")%string
        with (output ++ " = " ++ ("(" ++ (price ++ " * " ++ factor) ++ ").sum()") ++ " / " ++ ("(" ++ output_price ++ ")"))%string by sassoc. exact RF.
  - pose proof (rv_array0 He) as Re.
    assert (X : RV LPrim ("(" ++ epsilon ++ " / (" ++ epsilon ++ " - 1))") [] (fun _ => e / (e - 1))%R).
    { replace ("(" ++ epsilon ++ " / (" ++ epsilon ++ " - 1))")%string with ("(" ++ (epsilon ++ " / " ++ ("(" ++ (epsilon ++ " - " ++ "1") ++ ")")) ++ ")")%string by sassoc.
      apply rv_paren, rv_expr, (@rv_div C objs rho _ _ [] [] [] (fun _ => e) (fun _ => (e - 1)%R)); [now apply rv_term, rv_factor| |align|intros; lra].
      apply rv_factor, rv_paren, (@rv_sub C objs rho _ _ [] [] [] (fun _ => e) (fun _ => 1%R)); [now apply rv_expr, rv_term, rv_factor|apply rv_term, rv_factor, rv_one|align]. }
    set (ker := ds_kernel factor epsilon sh).
    destruct (@rv_eq C objs rho output (TFP ++ " * " ++ (("(" ++ ker ++ ").sum()") ++ " ** " ++ ("(" ++ epsilon ++ " / (" ++ epsilon ++ " - 1))"))) [] [] [] (fun _ => y) (fun _ => aggregate a e s x n) Ny) as (F & RF & VF).
    + apply rv_expr, rv_term, rv_factor, rv_array0, Hy.
    + apply rv_expr, (@rv_mul C objs rho _ _ [] [] [] (fun _ => a) (fun _ => Rpower (sum_n (fun k => s k * Rpower (x k) ((e - 1) / e)) n) (e / (e - 1)))%R); [apply rv_term, rv_factor, rv_array0, Ha| |align].
      apply (@rv_pow C objs rho _ _ [] [] [] (fun _ => sum_n (fun k => s k * Rpower (x k) ((e - 1) / e)) n)%R (fun _ => (e / (e - 1))%R)); [|now apply rv_factor|align|intros; apply inner_total].
      eapply rv_ext; [apply rv_total, ds_kernel_rv|]. intros ix _. apply sum_n_ext. intros k _. cbv beta. now rewrite upd_i.
    + align.
    + constructor.
    + exists F. split; [|intros ix; apply VF; intros d []]. cbn [times].
      replace (output ++ " = " ++ (TFP ++ " * ") ++ "(" ++ ker ++ ").sum() ** (" ++ epsilon ++ " / (" ++ epsilon ++ " - 1))")%string
        with (output ++ " = " ++ TFP ++ " * " ++ (("(" ++ ker ++ ").sum()") ++ " ** " ++ ("(" ++ epsilon ++ " / (" ++ epsilon ++ " - 1))")))%string by sassoc. exact RF.
Qed.
Lemma ds_demand_reads : exists F, equation_reads C objs rho (ds_demand factor price output output_price epsilon (Some TFP) sh) [i] F /\
  forall ix, ix i < n -> F ix = Some (x (ix i) - y / a * Rpower (s (ix i) * p * a / q (ix i)) e)%R.
Proof.
  pose proof (rv_array0 Ha) as Ra. pose proof (rv_array0 Hp) as Rp. pose proof (rv_array0 Hy) as Ry. pose proof (rv_array1 Hq) as Rq.
  assert (W : RV LPrim ("(" ++ times (Some TFP) ++ times sh ++ output_price ++ " / " ++ price ++ ")") [Some i] (fun ix => s (ix i) * p * a / q (ix i))%R).
  { replace ("(" ++ times (Some TFP) ++ times sh ++ output_price ++ " / " ++ price ++ ")")%string with ("(" ++ ((times (Some TFP) ++ times sh ++ output_price) ++ " / " ++ price) ++ ")")%string by sassoc.
    apply rv_paren, rv_expr. destruct sh as [w|]; cbn [times].
    - apply (@rv_div C objs rho _ _ [Some i] [Some i] [Some i] (fun ix => s (ix i) * p * a)%R (fun ix => q (ix i))); [|now apply rv_factor|align|].
      + replace ((TFP ++ " * ") ++ (w ++ " * ") ++ output_price)%string with ((TFP ++ " * " ++ w) ++ " * " ++ output_price)%string by sassoc.
        refine (@rv_ext C objs rho _ _ _ (fun ix => a * s (ix i) * p)%R _ _ _); [|intros; cbv beta; ring].
        apply (@rv_mul C objs rho _ _ [Some i] [] [Some i] (fun ix => a * s (ix i))%R (fun _ => p)); [|now apply rv_factor|align].
        apply (@rv_mul C objs rho _ _ [] [Some i] [Some i] (fun _ => a) (fun ix => s (ix i))); [now apply rv_term, rv_factor|apply rv_factor, rv_array1, Hs|align].
      + intros ix I. apply in_i in I. destruct (Px I) as (_ & ? & _). lra.
    - refine (@rv_ext C objs rho _ _ _ (fun ix => a * p / q (ix i))%R _ _ _); [|intros ix I; apply in_i in I; cbn [opt_array1] in Hs; rewrite (Hs _ I); cbv beta; f_equal; ring].
      apply (@rv_div C objs rho _ _ [] [Some i] [Some i] (fun ix => a * p)%R (fun ix => q (ix i))); [|now apply rv_factor|align|].
      + replace ((TFP ++ " * ") ++ "" ++ output_price)%string with (TFP ++ " * " ++ output_price)%string by sassoc.
        apply (@rv_mul C objs rho _ _ [] [] [] (fun _ => a) (fun _ => p)); [now apply rv_term, rv_factor|now apply rv_factor|align].
      + intros ix I. apply in_i in I. destruct (Px I) as (_ & ? & _). lra. }
  set (inner := ("(" ++ times (Some TFP) ++ times sh ++ output_price ++ " / " ++ price ++ ")")%string) in *.
  destruct (@rv_eq C objs rho factor ((output ++ " / " ++ TFP) ++ " * " ++ (inner ++ " ** " ++ epsilon)) [Some i] [Some i] [i] (fun ix => x (ix i))
    (fun ix => y / a * Rpower (s (ix i) * p * a / q (ix i)) e)%R Nx) as (F & RF & VF).
  - apply rv_expr, rv_term, rv_factor, rv_array1, Hx.
  - apply rv_expr, (@rv_mul C objs rho _ _ [] [Some i] [Some i] (fun _ => y / a)%R (fun ix => Rpower (s (ix i) * p * a / q (ix i)) e)).
    + apply (@rv_div C objs rho _ _ [] [] [] (fun _ => y) (fun _ => a)); [now apply rv_term, rv_factor|now apply rv_factor|align|intros; lra].
    + apply (@rv_pow C objs rho _ _ [Some i] [] [Some i] (fun ix => s (ix i) * p * a / q (ix i))%R (fun _ => e)); [exact W|apply rv_factor, rv_array0, He|align|].
      intros ix I. apply in_i in I. destruct (Px I) as (_ & ? & ?). apply Rdiv_lt_0_compat; [repeat apply Rmult_lt_0_compat|]; assumption.
    + align.
  - align.
  - repeat constructor; intros [].
  - exists F. split; [|intros ix I; apply VF; intros d [<-|[]]; exact I]. unfold ds_demand.
    replace (factor ++ " = " ++ output ++ " / " ++ times (Some TFP) ++ "(" ++ times (Some TFP) ++ times sh ++ output_price ++ " / " ++ price ++ ") ** " ++ epsilon)%string
      with (factor ++ " = " ++ (output ++ " / " ++ TFP) ++ " * " ++ (inner ++ " ** " ++ epsilon))%string by (unfold inner; cbn [times]; sassoc). exact RF.
Qed.

(** With these demands, zero profit is the same as production. *)
Lemma ds_equivalent : (0 < y)%R -> (forall k, k < n -> x k = (y / a * Rpower (s k * p * a / q k) e)%R) ->
  (y = sum_n (fun k => q k * x k) n / p <-> y = aggregate a e s x n)%R.
Proof.
  intros Py D. set (mk := fun k => mkFactor "" "" "" (x k) (q k) (s k)). set (l := map mk (seq 0 n)).
  assert (SO : forall g, sum_over g l = sum_n (fun k => g (mk k)) n).
  { intros g. unfold l, sum_n, sum_over. induction (seq 0 n) as [|k ks IH]; [reflexivity|]. cbn [map fold_right]. now rewrite IH. }
  assert (Nl' : l <> []) by (unfold l; destruct n; [lia|discriminate]).
  assert (Q : (forall f, In f l -> 0 < qty f /\ 0 < share f /\ 0 < S_Production.price f)%R).
  { intros f Hf. apply in_map_iff in Hf as (k & <- & K). apply in_seq in K. cbn [qty share S_Production.price mk]. destruct (Px (k := k) ltac:(lia)) as (? & ? & ?). auto. }
  assert (D' : forall f, In f l -> (qty f = y / a * Rpower (share f * p * a / S_Production.price f) e)%R).
  { intros f Hf. apply in_map_iff in Hf as (k & <- & K). apply in_seq in K. apply D. lia. }
  pose proof (@ces_value_iff l y p a e Nl' Q Py Pp Pa E0 E1 D') as V1. pose proof (@ces_production_iff l y p a e Nl' Q Py Pp Pa E0 E1 D') as V2.
  rewrite SO in V1, V2. cbn [qty share S_Production.price mk] in V1, V2. unfold aggregate. rewrite V2, <- V1.
  split; intros H; [rewrite H at 1; field; lra|]. rewrite <- H. field. lra.
Qed.
End DS.

Lemma c58_pytensor__p :
  forall number_op C objs data names coords labels (i factor price output output_price epsilon TFP : string) (shares : option string) (use_value_definition : bool)
         (x q s : nat -> R) (y p a e : R),
  let rho := array_values objs data in let n := size C i in
  real_arithmetic number_op -> given C objs data -> dget i coords = Some labels -> 0 < n ->
  array1 C objs rho factor i x -> array1 C objs rho price i q -> opt_array1 C objs rho shares i s -> array0 C objs rho output y ->
  array0 C objs rho output_price p -> array0 C objs rho TFP a -> array0 C objs rho epsilon e ->
  no_eq factor -> no_eq output -> e <> 0%R -> e <> 1%R ->
  (forall k, k < n -> (0 < x k /\ 0 < q k /\ 0 < s k)%R) -> (0 < p)%R -> (0 < a)%R -> (0 < y)%R -> length names = 1 + n ->
  exists definition demand residuals,
    dixit_stiglitz (One factor) (One price) output output_price epsilon i coords "pytensor" (Some TFP) (option_map One shares) use_value_definition = Ok (definition, demand) /\
    pytensor_system number_op C objs [definition; demand] names data = Ok residuals /\
    (all_zero residuals <-> y = aggregate a e s x n /\ forall k, k < n -> x k = (y / a * Rpower (s k * p * a / q k) e)%R).
Proof.
  intros number_op C objs data names coords labels i factor price output output_price epsilon TFP sh value x q s y p a e rho n Ar Gv Hc n0 Hx Hq Hs Hy Hp Ha He Nx Ny E0 E1 Px Pp Pa Py L.
  exists (ds_def factor price output output_price epsilon TFP sh value), (ds_demand factor price output output_price epsilon (Some TFP) sh).
  destruct (@ds_def_reads C objs rho i factor price output output_price epsilon TFP sh x q s y p a e n0 Hx Hq Hs Hy Hp Ha He Ny E0 E1 Px Pp value) as (F1 & R1 & V1).
  destruct (@ds_demand_reads C objs rho i factor price output output_price epsilon TFP sh x q s y p a e Hx Hq Hs Hy Hp Ha He Nx E0 E1 Px Pp Pa) as (F2 & R2 & V2).
  destruct (@system_solutions number_op C objs data [ds_def factor price output output_price epsilon TFP sh value; ds_demand factor price output output_price epsilon (Some TFP) sh] names [([], F1); ([i], F2)] Ar Gv) as (residuals & ES & Z).
  - constructor; [split; [exact R1|]|constructor; [split; [exact R2|]|constructor]]; cbn [fst snd].
    + intros ix _. rewrite V1. discriminate.
    + intros ix W. rewrite V2 by (apply W; now left). discriminate.
  - cbn. unfold n in L. lia.
  - exists residuals. split; [eapply ds_call_pytensor; eassumption|]. split; [exact ES|]. rewrite Z. clear Z ES.
    assert (D : zero_on C [i] F2 <-> forall k, k < n -> x k = (y / a * Rpower (s k * p * a / q k) e)%R).
    { split; intros H.
      - intros k K. specialize (H (upd (fun _ => 0) i k)). rewrite V2 in H by now rewrite upd_same. rewrite upd_same in H.
        assert (H' : Some (x k - y / a * Rpower (s k * p * a / q k) e)%R = Some 0%R) by (apply H; intros d [<-|[]]; now rewrite upd_same). injection H'. lra.
      - intros ix W. assert (I : ix i < n) by (apply W; now left). rewrite V2 by exact I. rewrite <- (H _ I). f_equal. lra. }
    assert (P : zero_on C [] F1 <-> (y = if value then sum_n (fun k => q k * x k) n / p else aggregate a e s x n)%R).
    { split; intros H.
      - specialize (H (fun _ => 0)). rewrite V1 in H. assert (H' := H ltac:(intros d [])). injection H'. unfold n. lra.
      - intros ix _. rewrite V1. f_equal. unfold n in H. lra. }
    assert (Q : (forall k, k < n -> x k = (y / a * Rpower (s k * p * a / q k) e)%R) -> (zero_on C [] F1 <-> y = aggregate a e s x n)).
    { intros Dm. rewrite P. destruct value; [|tauto]. apply (@ds_equivalent C i x q s y p a e n0 E0 E1 Px Pp Pa Py Dm). }
    split.
    + intros H. inversion H as [|? ? H1 H']; subst. inversion H' as [|? ? H2 _]; subst. cbn [fst snd] in H1, H2. pose proof (proj1 D H2) as H3. split; [exact (proj1 (Q H3) H1)|exact H3].
    + intros (H1 & H2). constructor; [exact (proj2 (Q H2) H1)|constructor; [exact (proj2 D H2)|constructor]].
Qed.
