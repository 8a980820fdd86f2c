(** Lemmas for C124. *)
From Coq Require Import Reals Lra Classical.
From Verif Require Import Py PyStr NdArray M_SymExpr M_Calculus S_Calculus L_Calculus S_Reduce M_Lambdify S_Lambdify L_Lambdify L_Lambdify2 M_Utilities
  M_Euler M_Newton S_Euler S_Converge S_Newton S_Kantorovich L_Euler L_Euler3 L_Newton L_Converge L_Converge2
  L_Kantorovich S_Trace L_Trace L_Trace2 L_Trace3 L_Trace4 L_Trace5 S_NewtonNear L_NewtonNear L_SmallShock S_PriceLevel L_PriceLevel S_Walras L_Walras S_Stationary.
Local Open Scope string_scope.
Local Open Scope list_scope.
Local Open Scope R_scope.

(** ** A solver of linear systems that is right for regular matrices *)
Fixpoint pivot (M : list (list R)) : option (R * list R * list (list R)) :=
  match M with
  | [] => None
  | row :: M' =>
      match row with
      | [] => None
      | p :: r => if Req_EM_T p 0 then match pivot M' with Some (q, s, rest) => Some (q, s, row :: rest) | None => None end else Some (p, r, M')
      end
  end.
Fixpoint kernel_vector (n : nat) (M : list (list R)) : list R :=
  match n with
  | O => []
  | S n' => match pivot M with
            | None => 1 :: zeros n'
            | Some (p, r, rest) => let u := kernel_vector n' (map (eliminate p r) rest) in - (dot r u / p) :: u
            end
  end.
Fixpoint border (b : list R) (M : list (list R)) : list (list R) :=
  match b, M with q :: b', row :: M' => (- q :: row) :: border b' M' | _, _ => [] end.
Definition gauss (M : list (list R)) (b : list R) : list R :=
  match kernel_vector (S (length M)) (border b M) with
  | [] => []
  | t :: u => vscale (/ t) u
  end.

Lemma pivot_some M p r rest : pivot M = Some (p, r, rest) -> p <> 0 /\ length M = S (length rest) /\ In (p :: r) M /\
  (forall s, In s rest -> In s M) /\ (forall s, In s M -> s = p :: r \/ In s rest).
Proof.
  revert p r rest. induction M as [|[|q s] M IH]; intros p r rest; cbn [pivot]; try discriminate. destruct (Req_EM_T q 0) as [->|N].
  - destruct (pivot M) as [((q' & s') & rest')|]; [|discriminate]. intros E. injection E as <- <- <-. destruct (IH _ _ _ eq_refl) as (H1 & H2 & H3 & H4 & H5).
    split; [auto|]. split; [cbn [length]; congruence|]. split; [now right|]. cbn [In]. split.
    + intros t [<-|Ht]; auto.
    + intros t [<-|Ht]; auto. destruct (H5 t Ht); auto.
  - intros E. injection E as <- <- <-. split; [auto|]. split; [reflexivity|]. split; [now left|]. cbn [In]. split; [auto|]. intros t [<-|Ht]; auto.
Qed.
Lemma pivot_none M n : pivot M = None -> (forall r, In r M -> length r = S n) -> forall r, In r M -> hd 0 r = 0.
Proof.
  induction M as [|[|q s] M IH]; cbn [pivot]; intros E H r Hr; [destruct Hr|specialize (H [] (or_introl eq_refl)); discriminate|].
  destruct (Req_EM_T q 0) as [->|N]; [|discriminate]. destruct (pivot M) as [((q' & s') & rest')|] eqn:EP; [discriminate|].
  destruct Hr as [<-|Hr]; [reflexivity|]. apply IH; auto. intros t Ht. apply H. now right.
Qed.
Lemma kernel_right : forall n (M : list (list R)), (length M < n)%nat -> (forall r, In r M -> length r = n) ->
  length (kernel_vector n M) = n /\ kernel_vector n M <> zeros n /\ forall r, In r M -> dot r (kernel_vector n M) = 0.
Proof.
  induction n as [|n IH]; intros M L H; [lia|]. cbn [kernel_vector]. destruct (pivot M) as [((p & r) & rest)|] eqn:EP.
  - destruct (pivot_some M EP) as (Np & LM & I0 & I1 & I2). assert (L0 := H _ I0). injection L0 as L0.
    destruct (IH (map (eliminate p r) rest)) as (Lu & Nu & Z).
    + rewrite map_length. lia.
    + intros s Hs. apply in_map_iff in Hs as (t & <- & Ht). assert (Lt := H t (I1 t Ht)). destruct t as [|q t]; [discriminate|]. injection Lt as Lt.
      cbn [eliminate]. rewrite vsub_length; [auto|]. rewrite vscale_length. congruence.
    + set (u := kernel_vector n (map (eliminate p r) rest)) in *. split; [cbn; congruence|]. split; [unfold zeros; cbn; intros E; injection E as _ E; now apply Nu|].
      intros s Hs. destruct (I2 s Hs) as [->|Hr]; [rewrite dot_cons; field; auto|]. assert (Ls := H s Hs). destruct s as [|q s]; [discriminate|]. injection Ls as Ls.
      rewrite <- eliminate_dot by (auto; congruence). apply Z. now apply in_map.
  - split; [cbn; now rewrite zeros_length|]. split; [unfold zeros; cbn; intros E; injection E as E; lra|].
    intros r Hr. assert (Lr := H r Hr). assert (H0 := @pivot_none M n EP H r Hr). destruct r as [|q r]; [discriminate|]. cbn [hd] in H0. subst q. rewrite dot_cons, dot_zeros. ring.
Qed.

Lemma bordered_in M : forall b r, In r (border b M) -> exists q row, r = - q :: row /\ In row M.
Proof. induction M as [|m M IH]; intros [|q b] r H; try now destruct H. destruct H as [<-|H]; [exists q, m; cbn; auto|]. destruct (IH b r H) as (q' & row & -> & Hr). exists q', row. cbn. auto. Qed.
Lemma bordered_zero M t u : forall b, length b = length M -> (forall r, In r (border b M) -> dot r (t :: u) = 0) -> mv M u = vscale t b.
Proof.
  induction M as [|m M IH]; intros [|q b] L H; try discriminate; [reflexivity|]. injection L as L. cbn [border] in H.
  assert (H0 := H _ (or_introl eq_refl)). rewrite dot_cons in H0. change (mv (m :: M) u) with (dot m u :: mv M u). change (vscale t (q :: b)) with (t * q :: vscale t b).
  f_equal; [lra|]. apply IH; auto. intros r Hr. apply H. now right.
Qed.
Lemma bordered_length M : forall b, length b = length M -> length (border b M) = length M.
Proof. induction M as [|m M IH]; intros [|q b] L; try discriminate; [reflexivity|]. cbn in *. now rewrite IH by lia. Qed.

Lemma gauss_right n : right_solver gauss n.
Proof.
  intros M (LM & RM) NS b Lb. unfold gauss. rewrite LM.
  destruct (@kernel_right (S n) (border b M)) as (Lk & Nk & Z).
  - rewrite bordered_length by congruence. lia.
  - intros r Hr. apply bordered_in in Hr as (q & row & -> & Hr). cbn. now rewrite RM.
  - destruct (kernel_vector (S n) (border b M)) as [|t u]; [discriminate|]. injection Lk as Lu.
    assert (E := @bordered_zero M t u b (eq_trans Lb (eq_sym LM)) Z).
    assert (Nt : t <> 0).
    { intros ->. apply Nk. unfold zeros. cbn. f_equal. apply NS; [auto|now rewrite repeat_length|]. rewrite E. apply vec_ext; [rewrite vscale_length, mv_length; congruence|].
      intros i _. rewrite nth_vscale. change (repeat 0 n) with (zeros n). rewrite nth_mv_zeros. ring. }
    split; [now rewrite vscale_length|]. rewrite mv_vscale, E. apply vec_ext; [now rewrite !vscale_length|]. intros i _. rewrite !nth_vscale. field. auto.
Qed.

Lemma c118_solver__p :
  exists solve, forall n, right_solver solve n.
Proof. exists gauss. apply gauss_right. Qed.

(** ** The gradient of the loss is the transposed Jacobian times the residuals *)
Lemma squares_deriv {A} (f : A -> R -> R) (d : A -> R) a l : (forall e, In e l -> derivable_pt_lim (f e) a (d e)) ->
  derivable_pt_lim (fun t => / 2 * rsum (map (fun e => f e t * f e t) l)) a (rsum (map (fun e => f e a * d e) l)).
Proof.
  induction l as [|e l IH]; intros H; cbn [map rsum].
  - apply deriv_ext with (f := fun _ => / 2 * 0); [reflexivity|]. apply derivable_pt_lim_const.
  - apply deriv_ext with (f := fun t => / 2 * (f e t * f e t) + / 2 * rsum (map (fun e => f e t * f e t) l)); [intros t; ring|].
    apply derivable_pt_lim_plus; [|apply IH; intros; apply H; now right].
    replace (f e a * d e) with (/ 2 * (d e * f e a + f e a * d e)) by field.
    apply (@derivable_pt_lim_scal (fun t => f e t * f e t)). apply derivable_pt_lim_mult; apply H; now left.
Qed.
Lemma dot_map_plus {A} (p q : A -> R) l : forall u, dot (map (fun y => p y + q y) l) u = dot (map p l) u + dot (map q l) u.
Proof. induction l as [|y l IH]; intros [|b u]; cbn [map]; try (unfold dot; cbn; ring). rewrite !dot_cons, IH. ring. Qed.
Lemma gradient_dot {A B} (a : A -> R) (b : B -> A -> R) vs u : forall eqs,
  dot (map (fun y => rsum (map (fun e => a e * b y e) eqs)) vs) u = dot (map a eqs) (map (fun e => dot (map (fun y => b y e) vs) u) eqs).
Proof.
  induction eqs as [|e eqs IH]; cbn [map rsum].
  - transitivity 0; [|reflexivity]. revert u. induction vs as [|y vs IH]; intros [|c u]; cbn [map]; try reflexivity. rewrite dot_cons, IH. ring.
  - rewrite dot_map_plus, IH, dot_cons. f_equal. clear IH. revert u. induction vs as [|y vs IH]; intros [|c u]; cbn [map]; try (unfold dot; cbn; ring). rewrite !dot_cons, IH. ring.
Qed.

Section Stationary.
Context (vs ps : list string) (eqs : list sexpr) (x th : list R).
Hypothesis SQ : length eqs = length vs.
Hypothesis SM : Forall (smooth (state_of (vs ++ ps) (x ++ th)) no_arrays) eqs.
Notation state := (state_of (vs ++ ps) (x ++ th)).

Definition loss_gradient : list R := map (fun y => rsum (map (fun e => val state no_arrays e * val state no_arrays (diff y e)) eqs)) vs.
Lemma gradient_unique G : gradient_at vs ps eqs x th G -> G = loss_gradient.
Proof.
  unfold gradient_at, loss_gradient. intros H. rewrite Forall_forall in SM. set (v := state_of _ _) in *. clearbody v. clear SQ. induction H as [|y d l G Hd _ IH]; [reflexivity|].
  cbn [map]. rewrite <- IH. f_equal. eapply uniqueness_limite; [exact Hd|]. unfold half_squares.
  pose proof (@squares_deriv _ (fun e t => val (set_sym v y t) no_arrays e) (fun e => val v no_arrays (diff y e)) (v y) eqs) as Q. cbn beta in Q.
  rewrite L_Calculus.set_sym_same in Q. apply Q. intros e He. apply deriv_val. auto.
Qed.
Lemma gradient_times u : dot loss_gradient u = dot (values_at vs ps eqs x th) (mv (Am vs ps eqs x th) u).
Proof. unfold loss_gradient, values_at, mv, Am. rewrite map_map. apply gradient_dot. Qed.
End Stationary.

Definition sign_of (r : R) : R := if Rle_dec 0 r then 1 else -1.
Lemma signs v : dot v (map sign_of v) = abs_sum v.
Proof.
  induction v as [|a v IH]; [reflexivity|]. cbn [map]. rewrite dot_cons, IH. unfold abs_sum. cbn [fold_right]. f_equal.
  unfold sign_of. destruct (Rle_dec 0 a); [rewrite Rabs_pos_eq|rewrite Rabs_left1]; lra.
Qed.
Lemma signs_bound v : vbd 1 (map sign_of v).
Proof.
  intros i. revert v. induction i as [|i IH]; intros [|a v]; cbn [map nth]; auto; try (rewrite Rabs_R0; lra).
  unfold sign_of. destruct (Rle_dec 0 a); [rewrite Rabs_pos_eq|rewrite Rabs_left1]; lra.
Qed.

Lemma c124_close__p :
  forall variables parameters equations J,
    length equations = length variables -> is_matrix (length variables) (length variables) J -> nonsingular J (length variables) ->
    exists C, 0 <= C /\ forall x theta G,
      Forall (smooth (state_of (variables ++ parameters) (x ++ theta)) no_arrays) equations ->
      derivatives_at variables parameters equations x theta J -> gradient_at variables parameters equations x theta G ->
      abs_sum (values_at variables parameters equations x theta) <= C * abs_sum G.
Proof.
  intros vs ps eqs J SQ MJ NS. destruct (@inverse_bound gauss J (length vs) MJ NS (gauss_right MJ NS)) as (C & HC & B).
  exists (INR (length vs) * C). split; [apply Rmult_le_pos; [apply pos_INR|lra]|]. intros x th G SM D HG.
  assert (EJ := @derivatives_unique vs ps eqs x th J SM D). rewrite (gradient_unique SM HG) in *. set (G0 := loss_gradient vs ps eqs x th).
  set (F := values_at vs ps eqs x th). assert (LF : length F = length vs) by (unfold F, values_at; now rewrite map_length).
  set (s := map sign_of F). assert (Ls : length s = length vs) by (unfold s; now rewrite map_length).
  destruct (gauss_right MJ NS s Ls) as (Lu & Eu). set (u := gauss J s) in *.
  assert (BU : vbd C u). { replace C with (C * 1) by ring. apply B; [auto|]. rewrite Eu. apply signs_bound. }
  assert (E : abs_sum F = dot G0 u). { unfold G0. rewrite gradient_times. rewrite <- EJ, Eu. symmetry. apply signs. }
  assert (LG : length G0 = length vs) by (unfold G0, loss_gradient; now rewrite map_length).
  pose proof (dot_bound (abs_vbd G0) BU) as Q. rewrite LG, <- E in Q. pose proof (Rle_abs (abs_sum F)). replace (INR (length vs) * C * abs_sum G0) with (INR (length vs) * (abs_sum G0 * C)) by ring. lra.
Qed.

Lemma c124_stationary__p :
  forall variables parameters equations x theta J G,
    length equations = length variables ->
    Forall (smooth (state_of (variables ++ parameters) (x ++ theta)) no_arrays) equations ->
    derivatives_at variables parameters equations x theta J -> nonsingular J (length variables) ->
    gradient_at variables parameters equations x theta G -> Forall (fun d => d = 0) G ->
    Forall (fun r => r = 0) (values_at variables parameters equations x theta).
Proof.
  intros vs ps eqs x th J G SQ SM D NS HG Z. assert (EJ := @derivatives_unique vs ps eqs x th J SM D).
  assert (MJ : is_matrix (length vs) (length vs) J).
  { rewrite EJ. unfold Am. split; [now rewrite map_length|]. intros r Hr. apply in_map_iff in Hr as (e & <- & _). apply map_length. }
  destruct (@c124_close__p vs ps eqs J SQ MJ NS) as (C & HC & B). specialize (B x th G SM D HG). assert (ZG : abs_sum G = 0).
  { clear - Z. induction Z as [|d G -> _ IH]; [reflexivity|]. unfold abs_sum in *. cbn [fold_right]. rewrite IH, Rabs_R0. ring. }
  rewrite ZG, Rmult_0_r in B. pose proof (abs_pos (values_at vs ps eqs x th)). rewrite (@abs_zero (values_at vs ps eqs x th)) by lra.
  apply Forall_forall. intros r Hr. now apply repeat_spec in Hr.
Qed.

Lemma c124_numba__p :
  forall cse, eliminates cse -> forall variables parameters equations,
    let names := variables ++ parameters in
    NoDup names -> (forall n, In n names -> is_name n = true /\ ~ In n reserved) ->
    (forall e, In e equations -> no_reduction e /\ indexed_exprs e = [] /\ forall s, In s (atoms e) -> In s names) ->
    length equations = length variables ->
    exists f g, compile_numba_error_function cse equations variables parameters = Ok f /\
      compile_numba_gradient_function cse (squared_loss equations) variables parameters = Ok g /\
      forall J, is_matrix (length variables) (length variables) J -> nonsingular J (length variables) ->
      exists C, 0 <= C /\ forall x theta, length x = length variables -> length theta = length parameters ->
        Forall (smooth (state_of names (x ++ theta)) no_arrays) equations -> derivatives_at variables parameters equations x theta J ->
        exists l G, f x theta = Ok (OScalar l) /\ g x theta = Ok (OVec G) /\ gradient_at variables parameters equations x theta G /\
          abs_sum (values_at variables parameters equations x theta) <= C * abs_sum G /\
          (Forall (fun d => d = 0) G -> l = 0 /\ Forall (fun r => r = 0) (values_at variables parameters equations x theta)).
Proof.
  intros cse EL vs ps eqs names ND NM HE SQ. destruct (@c80_loss__p cse EL vs ps eqs ND NM HE) as (f & g & Ef & Eg & H). exists f, g. split; [exact Ef|]. split; [exact Eg|].
  intros J MJ NS. destruct (@c124_close__p vs ps eqs J SQ MJ NS) as (C & HC & B). exists C. split; [exact HC|]. intros x th LX LT SM D.
  destruct (H x th no_arrays LX LT) as (El & G & EG & LG & HG). set (v := state_of names (x ++ th)) in *. exists (/ 2 * rsum (map (fun e => numval v no_arrays e * numval v no_arrays e) eqs)), G.
  split; [exact El|]. split; [exact EG|]. assert (GR : gradient_at vs ps eqs x th G).
  { unfold gradient_at. fold names. fold v. assert (SM' := SM). rewrite Forall_forall in SM'. clear - LG HG SM SM'. change (state_of (vs ++ ps) (x ++ th)) with v in HG. clearbody v. clear names. revert G LG HG. induction vs as [|y l IH]; intros [|d G] L HG; try discriminate; constructor.
    - destruct (HG 0%nat y eq_refl) as (d' & E & HD). injection E as <-. specialize (HD SM).
      pose proof (@squares_deriv _ (fun e t => numval (set_sym v y t) no_arrays e) (fun e => numval v no_arrays (diff y e)) (v y) eqs) as Q.
      pose proof (@squares_deriv _ (fun e t => val (set_sym v y t) no_arrays e) (fun e => val v no_arrays (diff y e)) (v y) eqs) as Q'. cbn beta in Q, Q'.
      rewrite L_Calculus.set_sym_same in Q, Q'. rewrite (uniqueness_limite _ _ _ _ HD (Q (fun e He => @numval_deriv v no_arrays y e (SM' e He)))).
      replace (rsum (map (fun e => numval v no_arrays e * numval v no_arrays (diff y e)) eqs)) with (rsum (map (fun e => val v no_arrays e * val v no_arrays (diff y e)) eqs)).
      + unfold half_squares. apply Q'. intros e He. apply deriv_val. auto.
      + f_equal. apply map_ext_in. intros e He. rewrite !numval_val; auto. now apply smooth_diff, SM'.
    - apply IH; [cbn in L; lia|]. intros j z Hj. exact (HG (S j) z Hj). }
  split; [exact GR|]. split; [now apply B|]. intros Z. assert (S0 := @c124_stationary__p vs ps eqs x th J G SQ SM D NS GR Z). split; [|exact S0].
  unfold values_at in S0. fold names in S0. fold v in S0. rewrite Forall_forall in S0, SM. replace (rsum (map _ eqs)) with 0; [ring|]. clear - S0 SM. induction eqs as [|e l IH]; [reflexivity|].
  cbn [map rsum]. rewrite <- IH; [|intros r Hr; apply SM; now right|intros r Hr; apply S0; now right]. rewrite numval_val by (apply SM; now left). rewrite (S0 (val v no_arrays e)) by now left. ring.
Qed.

(** Without regularity a stationary point need not be a solution. *)
Definition st_eq : sexpr := SBin OAdd (SBin OMul (SSym "x") (SSym "x")) (SSym "a").
Lemma c124_stuck_refuted__p :
  exists variables parameters equations x theta G,
    Forall (smooth (state_of (variables ++ parameters) (x ++ theta)) no_arrays) equations /\
    gradient_at variables parameters equations x theta G /\ Forall (fun d => d = 0) G /\
    (exists y, Forall (fun r => r = 0) (values_at variables parameters equations y theta)) /\
    ~ Forall (fun r => r = 0) (values_at variables parameters equations x theta).
Proof.
  exists ["x"], ["a"], [st_eq], [0], [-1], [0]. split; [repeat constructor|]. split; [|split; [repeat constructor|split]].
  - constructor; [|constructor]. pose proof (@squares_deriv _ (fun e t => val (set_sym (state_of ["x"; "a"] [0; -1]) "x" t) no_arrays e) (fun e => val (state_of ["x"; "a"] [0; -1]) no_arrays (diff "x" e)) 0 [st_eq]) as Q.
    cbn beta in Q. match type of Q with _ -> derivable_pt_lim _ _ ?d => replace 0 with d at 2 by (cbn; ring) end. apply Q. intros e [<-|[]]. apply (@deriv_val (state_of ["x"; "a"] [0; -1])). repeat constructor.
  - exists [1]. constructor; [cbn; ring|constructor].
  - intros Z. inversion Z as [|? ? Z1 _]. cbn in Z1. lra.
Qed.

Lemma gradient_holds vs ps eqs x th : Forall (smooth (state_of (vs ++ ps) (x ++ th)) no_arrays) eqs -> gradient_at vs ps eqs x th (loss_gradient vs ps eqs x th).
Proof.
  intros SM. unfold gradient_at, loss_gradient. rewrite Forall_forall in SM. set (v := state_of _ _) in *. clearbody v. induction vs as [|y l IH]; constructor; [|exact IH].
  unfold half_squares. pose proof (@squares_deriv _ (fun e t => val (set_sym v y t) no_arrays e) (fun e => val v no_arrays (diff y e)) (v y) eqs) as Q. cbn beta in Q.
  rewrite L_Calculus.set_sym_same in Q. apply Q. intros e He. apply deriv_val. auto.
Qed.
