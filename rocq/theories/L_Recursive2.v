(** C51: systems on which the recursive calibration goes wrong, and a solver
    for affine equations. *)
From Coq Require Import Reals Lra.
From Verif Require Import Py PyStr M_SymExpr M_Calculus S_Reduce M_Recursive S_Recursive L_Reduce L_NumbaStep L_Recursive.
Local Open Scope string_scope.
Local Open Scope list_scope.

Lemma one_symbol e x : (forall s, In s (atoms e) -> s = x) -> free_symbols e = [] \/ free_symbols e = [x].
Proof.
  intros H. assert (N : NoDup (free_symbols e)) by apply NoDup_nodup. assert (I : forall s, In s (free_symbols e) -> s = x) by (intros s Hs; apply H; now apply free_in).
  destruct (free_symbols e) as [|a [|b l]]; auto.
  - right. f_equal. apply I. now left.
  - exfalso. inversion N; subst. apply H2. left. rewrite (I a), (I b); cbn; auto.
Qed.
(** A symbol on which the truth of an equation depends occurs in it *)
Lemma depends e v w x : (forall s, s <> x -> v s = w s) -> holds v e -> ~ holds w e -> In x (atoms e).
Proof.
  intros D H N. destruct (in_dec String.string_dec x (atoms e)) as [I|I]; auto. exfalso. apply N. unfold holds in *. rewrite <- H.
  symmetry. apply value_ext. intros s Hs. apply D. intros ->. auto.
Qed.
Lemma few_not e x y : x <> y -> In x (atoms e) -> In y (atoms e) -> few e = false.
Proof.
  intros N X Y. unfold few. apply free_in in X, Y. destruct (free_symbols e) as [|a [|b l]]; auto; [destruct X|].
  exfalso. apply N. destruct X as [<-|[]], Y as [<-|[]]. reflexivity.
Qed.

Lemma c51_no_solution_refuted__p :
  exists e, (forall v, ~ holds v e) /\
    forall simplify evalf solve, good_simplify simplify -> sound_solver solve ->
    forall max_iter, exists result, recursive_solve_symbolic simplify evalf solve [e] [] (S max_iter) = Ok result.
Proof.
  exists (SFun FExp (SSym "x")). assert (P : forall v, ~ holds v (SFun FExp (SSym "x"))).
  { intros v H. unfold holds in H. cbn in H. assert (Q := exp_pos (v "x")). lra. }
  split; auto. intros simplify evalf solve GS SS m. unfold recursive_solve_symbolic. cbn [passes length]. rewrite one_pass_eq. cbn [map fill dget fold_left bind].
  set (e := simplify (SFun FExp (SSym "x"))).
  assert (A : forall s, In s (atoms e) -> s = "x") by (intros s Hs; apply GS in Hs; cbn in Hs; intuition).
  unfold try_equation. unfold few. cbn [filter]. destruct (one_symbol e A) as [E|E]; rewrite !E; cbn; eauto.
Qed.

Lemma c51_contradiction_refuted__p :
  exists e known, (forall v, agrees v known -> ~ holds v e) /\
    forall simplify evalf solve, good_simplify simplify ->
    forall max_iter, recursive_solve_symbolic simplify evalf solve [e] known (S max_iter) = Ok known.
Proof.
  exists (SBin OSub (SSym "x") (SNum 1)), [("x", SNum 2)]. split.
  - intros v A H. specialize (A "x" (SNum 2) eq_refl). unfold holds in H. cbn in H, A. lra.
  - intros simplify evalf solve GS m. unfold recursive_solve_symbolic. cbn [passes length]. rewrite one_pass_eq. cbn [map fill dget fold_left bind String.eqb Ascii.eqb Bool.eqb].
    set (e := simplify (SBin OSub (SNum 2) (SNum 1))).
    assert (E : free_symbols e = []).
    { destruct (free_symbols e) as [|s l] eqn:F; auto. exfalso. assert (I : In s (atoms e)) by (apply free_in; rewrite F; now left). apply GS in I. destruct I. }
    unfold try_equation. unfold few. cbn [filter]. rewrite !E. reflexivity.
Qed.

Lemma c51_overwritten_refuted__p :
  exists e1 e2, (exists v, holds v e1 /\ holds v e2) /\
    forall simplify evalf solve, good_simplify simplify -> good_evalf evalf ->
      solve (simplify e1) "x" = [SNum 1] -> solve (simplify e2) "x" = [SNum (-1); SNum 1] ->
    forall max_iter, exists result, recursive_solve_symbolic simplify evalf solve [e1; e2] [] (S (S max_iter)) = Ok result /\
      forall v, agrees v result -> ~ holds v e1.
Proof.
  set (e1 := SBin OSub (SSym "x") (SNum 1)). set (e2 := SBin OSub (SBin OMul (SSym "x") (SSym "x")) (SNum 1)).
  exists e1, e2. split; [exists (fun _ => 1%R); unfold e1, e2, holds; cbn; lra|].
  intros simplify evalf solve GS GE S1 S2 m. exists [("x", evalf (SNum (-1)))]. split.
  - assert (F : forall e v w, (forall s, In s (atoms e) -> s = "x") -> holds v e -> ~ holds w e -> free_symbols (simplify e) = ["x"]).
    { intros e v w A Hv Hw. destruct (@one_symbol (simplify e) "x") as [E|E]; auto.
      - intros s Hs. apply GS in Hs. auto.
      - exfalso. apply free_nil in E. apply Hw. apply (proj1 (GS e)). apply (proj1 (GS e)) in Hv. unfold holds in *. rewrite <- Hv. now apply value_const. }
    assert (F1 : free_symbols (simplify e1) = ["x"]).
    { apply (F e1 (fun _ => 1%R) (fun _ => 0%R)); unfold e1, holds; cbn; [intuition|lra|lra]. }
    assert (F2 : free_symbols (simplify e2) = ["x"]).
    { apply (F e2 (fun _ => 1%R) (fun _ => 0%R)); unfold e2, holds; cbn; [intuition|lra|lra]. }
    unfold recursive_solve_symbolic. cbn [passes length]. rewrite one_pass_eq. cbn [map].
    replace (fill [] e1) with e1 by reflexivity. replace (fill [] e2) with e2 by reflexivity. cbn [fold_left].
    unfold try_equation at 2 4. rewrite !F1, !S1. cbn [ps_known ps_found ps_remove]. unfold try_equation. rewrite !F2, !S2. cbn [ps_known ps_found ps_remove].
    cbn [filter]. unfold few. rewrite F1, F2. cbn. reflexivity.
  - intros v A H. specialize (A "x" _ eq_refl). destruct (@GE (SNum (-1)) eq_refl) as (_ & V). rewrite V in A. cbn in A. unfold e1, holds in H. cbn in H. lra.
Qed.

Lemma c51_early_stop_refuted__p :
  exists e1 e2 known,
    (forall v, agrees v known -> (holds v e1 <-> v "x" = 1%R)) /\
    (forall v, v "x" = 1%R -> (holds v e2 <-> v "y" = 1%R)) /\
    forall simplify evalf solve, good_simplify simplify ->
    forall max_iter, recursive_solve_symbolic simplify evalf solve [e1; e2] known max_iter = Err ValueError.
Proof.
  set (e1 := SBin OSub (SSym "x") (SSym "k")). set (e2 := SBin OSub (SSym "y") (SSym "x")).
  exists e1, e2, [("k", SNum 1)]. split; [|split].
  - intros v A. specialize (A "k" _ eq_refl). unfold e1, holds. cbn in *. lra.
  - intros v A. unfold e2, holds. cbn in *. lra.
  - intros simplify evalf solve GS [|m]; [reflexivity|].
    set (s1 := simplify (SBin OSub (SSym "x") (SNum 1))).
    assert (F1 : free_symbols s1 = ["x"]).
    { destruct (@one_symbol s1 "x") as [E|E]; auto.
      - intros s Hs. apply GS in Hs. cbn in Hs. intuition.
      - exfalso. apply free_nil in E. assert (H1 : holds (fun _ => 1%R) s1) by (apply GS; unfold holds; cbn; lra).
        assert (H0 : holds (fun _ => 0%R) s1) by (unfold holds in *; rewrite <- H1; now apply value_const). apply (proj1 (proj1 (GS (SBin OSub (SSym "x") (SNum 1))) _)) in H0. unfold holds in H0. cbn in H0. lra. }
    assert (F2 : few (simplify e2) = false).
    { apply (@few_not _ "x" "y"); [discriminate| |].
      - apply (@depends _ (fun _ => 1%R) (fun s => if String.eqb s "x" then 0%R else 1%R)).
        + intros s Ns. apply String.eqb_neq in Ns. now rewrite Ns.
        + apply GS. unfold e2, holds. cbn. lra.
        + intros H. apply (proj1 (proj1 (GS e2) _)) in H. unfold e2, holds in H. cbn in H. lra.
      - apply (@depends _ (fun _ => 1%R) (fun s => if String.eqb s "y" then 0%R else 1%R)).
        + intros s Ns. apply String.eqb_neq in Ns. now rewrite Ns.
        + apply GS. unfold e2, holds. cbn. lra.
        + intros H. apply (proj1 (proj1 (GS e2) _)) in H. unfold e2, holds in H. cbn in H. lra. }
    unfold recursive_solve_symbolic. cbn [passes length]. rewrite one_pass_eq. cbn [map].
    replace (simplify (fill [("k", SNum 1)] e1)) with s1 by reflexivity. replace (fill [("k", SNum 1)] e2) with e2 by reflexivity. cbn [fold_left].
    assert (T2 : forall st, try_equation evalf solve st (simplify e2) = st).
    { intros st. unfold try_equation. unfold few in F2. destruct (free_symbols (simplify e2)) as [|a [|b l]]; auto; discriminate. }
    rewrite !T2. unfold try_equation. rewrite !F1. cbn [filter]. rewrite F2. unfold few. rewrite F1. cbn. reflexivity.
Qed.

(** * A solver for affine equations *)
(** e = a*x + b *)
Fixpoint affine (x : string) (e : sexpr) : option (sexpr * sexpr) :=
  match e with
  | SSym s => if String.eqb s x then Some (SNum 1, SNum 0) else None
  | SBin OAdd a b => match affine x a, affine x b with Some (a1, b1), Some (a2, b2) => Some (SBin OAdd a1 a2, SBin OAdd b1 b2) | _, _ => None end
  | SBin OSub a b => match affine x a, affine x b with Some (a1, b1), Some (a2, b2) => Some (SBin OSub a1 a2, SBin OSub b1 b2) | _, _ => None end
  | _ => match atoms e with [] => Some (SNum 0, e) | _ => None end
  end.
Definition affine_solve (e : sexpr) (x : string) : list sexpr :=
  match affine x e with Some (a, b) => [SBin ODiv (SBin OSub (SNum 0) b) a] | None => [] end.

(** The example: y - (x + x), x - k, z - x with k = 1 *)
Definition exr_eqs : list sexpr :=
  [SBin OSub (SSym "y") (SBin OAdd (SSym "x") (SSym "x")); SBin OSub (SSym "x") (SSym "k"); SBin OSub (SSym "z") (SSym "x")].
Definition exr_v (s : string) : R := if String.eqb s "y" then 2%R else 1%R.
Definition same (e : sexpr) : sexpr := e.
Lemma same_good : good_simplify same /\ good_evalf same.
Proof. split; [split; unfold same; tauto|]. intros e C. unfold same. auto. Qed.

(** A symbol, or a number that has its value *)
Definition leaf (s : string) (e : sexpr) : Prop := e = SSym s \/ (constant e /\ value exr_v e = exr_v s).
Definition exr_shape (e : sexpr) : Prop :=
  (exists a b c, e = SBin OSub a (SBin OAdd b c) /\ leaf "y" a /\ leaf "x" b /\ leaf "x" c) \/
  (exists a b, e = SBin OSub a b /\ leaf "x" a /\ leaf "k" b) \/
  (exists a b, e = SBin OSub a b /\ leaf "z" a /\ leaf "x" b).
Lemma leaf_put known s e : (forall s c, dget s known = Some c -> constant c) -> agrees exr_v known -> leaf s e -> leaf s (put known e).
Proof.
  intros K A [->|(C & V)].
  - cbn. destruct (dget s known) eqn:E; [|now left]. right. split; [eapply K; eauto|]. symmetry. now apply A.
  - right. rewrite put_fill, fill_const; auto.
Qed.
Lemma exr_reduced e : reduced same exr_v exr_eqs e -> exr_shape e.
Proof.
  induction 1 as [e H|e known H IH K A].
  - destruct H as [<-|[<-|[<-|[]]]]; [left|right; left|right; right]; repeat eexists; now left.
  - unfold same. destruct IH as [(a & b & c & -> & ? & ? & ?)|[(a & b & -> & ? & ?)|(a & b & -> & ? & ?)]]; [left|right; left|right; right]; cbn [put].
    + exists (put known a), (put known b), (put known c). auto using leaf_put.
    + exists (put known a), (put known b). auto using leaf_put.
    + exists (put known a), (put known b). auto using leaf_put.
Qed.

Lemma affine_value x e : forall p q, affine x e = Some (p, q) -> constant p /\ constant q /\ forall v, value v e = (value v p * v x + value v q)%R.
Proof.
  assert (C : forall e p q, match atoms e with [] => Some (SNum 0, e) | _ => None end = Some (p, q) -> constant p /\ constant q /\ forall v, value v e = (value v p * v x + value v q)%R).
  { intros e0 p q H. destruct (atoms e0) eqn:A; [|discriminate]. injection H as <- <-. repeat split; auto. intros v. cbn. lra. }
  induction e; intros p q H; try (now apply C in H).
  - cbn in H. destruct (String.eqb_spec s x); [|discriminate]. injection H as <- <-. subst. repeat split; auto. intros v. cbn. lra.
  - assert (B : forall o', (o' = OAdd \/ o' = OSub) -> match affine x e1, affine x e2 with Some (a1, b1), Some (a2, b2) => Some (SBin o' a1 a2, SBin o' b1 b2) | _, _ => None end = Some (p, q) ->
       constant p /\ constant q /\ forall v, bin_val o' (value v e1) (value v e2) = (value v p * v x + value v q)%R).
    { intros o' O' H'. destruct (affine x e1) as [(a1 & b1)|]; [|discriminate]. destruct (affine x e2) as [(a2 & b2)|]; [|discriminate]. injection H' as <- <-.
      destruct (IHe1 _ _ eq_refl) as (C1 & D1 & V1). destruct (IHe2 _ _ eq_refl) as (C2 & D2 & V2). unfold constant in *. cbn. rewrite C1, D1, C2, D2. repeat split; auto.
      intros v. rewrite V1, V2. destruct O'; subst; cbn; lra. }
    destruct o; try (now apply C in H); apply B in H; auto.
Qed.
Lemma affine_const x e : constant e -> affine x e <> None.
Proof.
  unfold constant. induction e; cbn [atoms]; intros C; try discriminate.
  - apply app_eq_nil in C as (C1 & C2). specialize (IHe1 C1). specialize (IHe2 C2). cbn. rewrite C1, C2. destruct (affine x e1) as [(? & ?)|]; [|tauto]. destruct (affine x e2) as [(? & ?)|]; [|tauto]. destruct o; cbn; congruence.
  - cbn. rewrite C. congruence.
  - cbn. rewrite C. congruence.
Qed.
Lemma affine_bin x o a b (O : o = OAdd \/ o = OSub) : affine x a <> None -> affine x b <> None -> affine x (SBin o a b) <> None.
Proof.
  intros A B. cbn. destruct (affine x a) as [(? & ?)|]; [|tauto]. destruct (affine x b) as [(? & ?)|]; [|tauto]. destruct O; subst; congruence.
Qed.
Lemma exr_solver e x : exr_shape e -> (forall s, In s (atoms e) <-> s = x) ->
  exists r rest, affine_solve e x = r :: rest /\ constant r /\ value exr_v r = exr_v x.
Proof.
  intros Sh A. set (v' := fun s => if String.eqb s x then (exr_v s + 1)%R else exr_v s).
  assert (Vx : v' x = (exr_v x + 1)%R) by (unfold v'; now rewrite String.eqb_refl).
  assert (L : forall s a, leaf s a -> (forall s, In s (atoms a) -> s = x) -> affine x a <> None /\ ((s = x /\ a = SSym x) \/ (constant a /\ value v' a = exr_v s /\ value exr_v a = exr_v s))).
  { intros s a [->|(C & V)] I.
    - assert (s = x) by (apply I; now left). subst s. split; auto. cbn. rewrite String.eqb_refl. congruence.
    - split; [now apply affine_const|]. right. rewrite <- V. split; auto. split; auto. now apply value_const. }
  assert (NC : ~ constant e). { intros C. assert (In x (atoms e)) by now apply A. rewrite C in H. destruct H. }
  assert (G : affine x e <> None /\ value exr_v e = 0%R /\ value v' e <> 0%R).
  { destruct Sh as [(a & b & c & -> & La & Lb & Lc)|[(a & b & -> & La & Lb)|(a & b & -> & La & Lb)]].
    - destruct (L "y" a La) as (N1 & D1); [intros s Hs; apply A; cbn; rewrite !in_app_iff; auto|].
      destruct (L "x" b Lb) as (N2 & D2); [intros s Hs; apply A; cbn; rewrite !in_app_iff; auto|].
      destruct (L "x" c Lc) as (N3 & D3); [intros s Hs; apply A; cbn; rewrite !in_app_iff; auto|].
      split; [repeat apply affine_bin; auto|].
      destruct D1 as [(X1 & ->)|(C1 & W1 & U1)], D2 as [(X2 & ->)|(C2 & W2 & U2)], D3 as [(X3 & ->)|(C3 & W3 & U3)]; subst; try discriminate; cbn [value bin_val];
        rewrite ?Vx, ?W1, ?W2, ?W3, ?U1, ?U2, ?U3; unfold exr_v in *; cbn; try (split; lra).
      exfalso. apply NC. unfold constant in *. cbn. now rewrite C1, C2, C3.
    - destruct (L "x" a La) as (N1 & D1); [intros s Hs; apply A; cbn; rewrite !in_app_iff; auto|].
      destruct (L "k" b Lb) as (N2 & D2); [intros s Hs; apply A; cbn; rewrite !in_app_iff; auto|].
      split; [repeat apply affine_bin; auto|].
      destruct D1 as [(X1 & ->)|(C1 & W1 & U1)], D2 as [(X2 & ->)|(C2 & W2 & U2)]; subst; try discriminate; cbn [value bin_val];
        rewrite ?Vx, ?W1, ?W2, ?U1, ?U2; unfold exr_v in *; cbn; try (split; lra).
      exfalso. apply NC. unfold constant in *. cbn. now rewrite C1, C2.
    - destruct (L "z" a La) as (N1 & D1); [intros s Hs; apply A; cbn; rewrite !in_app_iff; auto|].
      destruct (L "x" b Lb) as (N2 & D2); [intros s Hs; apply A; cbn; rewrite !in_app_iff; auto|].
      split; [repeat apply affine_bin; auto|].
      destruct D1 as [(X1 & ->)|(C1 & W1 & U1)], D2 as [(X2 & ->)|(C2 & W2 & U2)]; subst; try discriminate; cbn [value bin_val];
        rewrite ?Vx, ?W1, ?W2, ?U1, ?U2; unfold exr_v in *; cbn; try (split; lra).
      exfalso. apply NC. unfold constant in *. cbn. now rewrite C1, C2. }
  destruct G as (N & H0 & H1). unfold affine_solve. destruct (affine x e) as [(p & q)|] eqn:E; [|tauto]. destruct (affine_value _ _ E) as (Cp & Cq & V).
  eexists _, []. split; [reflexivity|]. split; [unfold constant in *; cbn; now rewrite Cp, Cq|]. cbn [value bin_val].
  assert (Vp := V v'). assert (V0 := V exr_v). rewrite (value_const v' exr_v Cp), (value_const v' exr_v Cq), Vx in Vp.
  assert (P : value exr_v p <> 0%R) by (intros P; rewrite P in *; lra).
  field_simplify_eq; auto. lra.
Qed.
Lemma affine_numbers e x r : In r (affine_solve e x) -> constant r.
Proof.
  unfold affine_solve. destruct (affine x e) as [(p & q)|] eqn:E; [|intros []]. destruct (affine_value _ _ E) as (Cp & Cq & _). intros [<-|[]].
  unfold constant in *. cbn. now rewrite Cp, Cq.
Qed.
