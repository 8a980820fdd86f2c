(** Values of joined strings. *)
From Coq Require Import Ascii Reals ZArith Lra.
From Verif Require Import Py PyStr M_PyExpr S_PyExpr L_PyExpr S_Meaning.
Local Open Scope string_scope.
Local Open Scope list_scope.

Section V.
Variables (rho : valuation) (ix : indices).

Definition V (lvl : level) (ts : list token) (v : R) : Prop := exists e, G lvl ts e /\ eval rho ix e = Some v.

Lemma V_prim ts v : V LPrim ts v -> V LPower ts v.
Proof. intros (e & H & E). exists e. split; [now apply G_prim|exact E]. Qed.
Lemma V_power ts v : V LPower ts v -> V LFactor ts v.
Proof. intros (e & H & E). exists e. split; [now apply G_power|exact E]. Qed.
Lemma V_factor ts v : V LFactor ts v -> V LTerm ts v.
Proof. intros (e & H & E). exists e. split; [now apply G_factor|exact E]. Qed.
Lemma V_term ts v : V LTerm ts v -> V LExpr ts v.
Proof. intros (e & H & E). exists e. split; [now apply G_term|exact E]. Qed.
Lemma V_unit_factor ts v : V LPrim ts v -> V LFactor ts v.
Proof. intros H. apply V_power, V_prim, H. Qed.
Lemma V_unit_term ts v : V LPrim ts v -> V LTerm ts v.
Proof. intros H. apply V_factor, V_unit_factor, H. Qed.
Lemma V_unit_expr ts v : V LPrim ts v -> V LExpr ts v.
Proof. intros H. apply V_term, V_unit_term, H. Qed.

Lemma V_paren ts v : V LExpr ts v -> V LPrim (LP :: ts ++ [RP]) v.
Proof. intros (e & H & E). exists e. split; [now apply G_paren|exact E]. Qed.
Lemma V_add a x b y : V LExpr a x -> V LTerm b y -> V LExpr (a ++ Plus :: b) (x + y).
Proof. intros (e & H & E) (e' & H' & E'). exists (EBin Add e e'). split; [now apply G_add|]. cbn [eval]. now rewrite E, E'. Qed.
Lemma V_sub a x b y : V LExpr a x -> V LTerm b y -> V LExpr (a ++ Minus :: b) (x - y).
Proof. intros (e & H & E) (e' & H' & E'). exists (EBin Sub e e'). split; [now apply G_sub|]. cbn [eval]. now rewrite E, E'. Qed.
Lemma V_mul a x b y : V LTerm a x -> V LFactor b y -> V LTerm (a ++ Star :: b) (x * y).
Proof. intros (e & H & E) (e' & H' & E'). exists (EBin Mul e e'). split; [now apply G_mul|]. cbn [eval]. now rewrite E, E'. Qed.
Lemma V_div a x b y : V LTerm a x -> V LFactor b y -> y <> 0%R -> V LTerm (a ++ Slash :: b) (x / y).
Proof.
  intros (e & H & E) (e' & H' & E') N. exists (EBin Div e e'). split; [now apply G_div|]. cbn [eval]. rewrite E, E'. cbn.
  destruct (Req_EM_T y 0); [contradiction|reflexivity].
Qed.
Lemma V_pow a x b y : V LPrim a x -> V LFactor b y -> (0 < x)%R -> V LPower (a ++ Pow :: b) (Rpower x y).
Proof.
  intros (e & H & E) (e' & H' & E') N. exists (EBin Power e e'). split; [now apply G_pow|]. cbn [eval]. rewrite E, E'. cbn.
  destruct (Rlt_dec 0 x); [reflexivity|contradiction].
Qed.
Lemma V_num w n : number w = Some n -> V LPrim [Word w] (IZR (Z.of_nat n)).
Proof. intros H. exists (EWord w). split; [apply G_word|]. cbn [eval]. now rewrite H. Qed.

Lemma V_sum : forall (l : list (list token)) (vs : list R) a x, V LExpr a x -> Forall2 (V LTerm) l vs ->
  V LExpr (a ++ flat_map (fun ts => Plus :: ts) l) (x + fold_right Rplus 0%R vs).
Proof.
  induction l as [|ts l IH]; intros vs a x H F; inversion F as [|t v l' vs' Hv Fv]; subst; cbn [flat_map fold_right].
  - rewrite app_nil_r, Rplus_0_r. exact H.
  - rewrite <- Rplus_assoc. change ((Plus :: ts) ++ flat_map (fun ts0 => Plus :: ts0) l) with (Plus :: ts ++ flat_map (fun ts0 => Plus :: ts0) l).
    replace (a ++ Plus :: ts ++ flat_map (fun ts0 => Plus :: ts0) l) with ((a ++ Plus :: ts) ++ flat_map (fun ts0 => Plus :: ts0) l)
      by (rewrite <- app_assoc; reflexivity).
    apply IH; [|exact Fv]. now apply V_add.
Qed.
Lemma V_prod : forall (l : list (list token)) (vs : list R) a x, V LTerm a x -> Forall2 (V LFactor) l vs ->
  V LTerm (a ++ flat_map (fun ts => Star :: ts) l) (x * fold_right Rmult 1%R vs).
Proof.
  induction l as [|ts l IH]; intros vs a x H F; inversion F as [|t v l' vs' Hv Fv]; subst; cbn [flat_map fold_right].
  - rewrite app_nil_r, Rmult_1_r. exact H.
  - rewrite <- Rmult_assoc. change ((Star :: ts) ++ flat_map (fun ts0 => Star :: ts0) l) with (Star :: ts ++ flat_map (fun ts0 => Star :: ts0) l).
    replace (a ++ Star :: ts ++ flat_map (fun ts0 => Star :: ts0) l) with ((a ++ Star :: ts) ++ flat_map (fun ts0 => Star :: ts0) l)
      by (rewrite <- app_assoc; reflexivity).
    apply IH; [|exact Fv]. now apply V_mul.
Qed.

Lemma V_value lvl s v : V lvl (tokenize s) v -> lvl = LExpr -> meaning rho ix s = Some v.
Proof. intros (e & H & E) ->. unfold meaning. rewrite (parse_complete H). exact E. Qed.
End V.

Lemma expr_V rho ix s v : expr_val rho ix s v <-> V rho ix LExpr (tokenize s) v.
Proof. reflexivity. Qed.
Lemma unit_V rho ix s v : unit_val rho ix s v <-> V rho ix LPrim (tokenize s) v.
Proof. reflexivity. Qed.
Lemma unit_expr rho ix s v : unit_val rho ix s v -> expr_val rho ix s v.
Proof. intros H. apply expr_V, V_unit_expr, H. Qed.
Lemma expr_meaning rho ix s v : expr_val rho ix s v -> meaning rho ix s = Some v.
Proof. intros H. exact (@V_value rho ix LExpr s v H eq_refl). Qed.

(** ** Strings *)
Lemma no_eq_find seen : forall s, no_eq s -> find_eq seen s = None.
Proof.
  intros s. revert seen. induction s as [|c s IH]; intros seen H; [reflexivity|]. unfold no_eq in H. cbn [contains_char] in H.
  apply orb_false_iff in H as (H1 & H2). cbn [find_eq].
  rewrite H1. cbn [andb]. now apply IH.
Qed.
Lemma no_eq_app a b : no_eq a -> no_eq b -> no_eq (a ++ b).
Proof. unfold no_eq. intros H1 H2. now rewrite contains_char_app, H1, H2. Qed.

Lemma ends_with_space s : ends_with "axis" (s ++ " ") = false.
Proof.
  destruct (ends_with "axis" (s ++ " ")) eqn:E; [|reflexivity]. apply ends_with_spec in E as (t & E). exfalso.
  assert (L : forall a c d : ascii, forall x y, (x ++ String c "")%string = (y ++ String d "")%string -> c = d).
  { intros _ c d x. induction x as [|e x IH]; intros y H.
    - destruct y as [|e' y]; [now injection H|]. cbn in H. injection H as _ H. destruct y; discriminate.
    - destruct y as [|e' y]; cbn in H; injection H as _ H; [destruct x; discriminate|]. now apply IH in H. }
  change "axis" with ("axi" ++ "s")%string in E. rewrite <- sapp_assoc in E. apply (L " "%char) in E. discriminate.
Qed.

Lemma tok_space s : tokenize (s ++ " ") = tokenize s.
Proof. rewrite tok_head by reflexivity. apply app_nil_r. Qed.
Lemma tok_space_l s : tokenize (" " ++ s) = tokenize s.
Proof. now rewrite tok_last. Qed.

Lemma equation_tokens lhs rhs : no_eq lhs ->
  tokenize (normalize_eq (lhs ++ " = " ++ rhs)) = tokenize lhs ++ Minus :: LP :: tokenize rhs ++ [RP].
Proof.
  intros H. replace (lhs ++ " = " ++ rhs)%string with ((lhs ++ " ") ++ "=" ++ (" " ++ rhs))%string by (rewrite sapp_assoc; reflexivity).
  rewrite normalize_tokens.
  - now rewrite tok_space, tok_space_l.
  - apply no_eq_find, no_eq_app; [exact H|reflexivity].
  - apply ends_with_space.
Qed.

(** An equation holds iff its sides have the same value. *)
Lemma equation_holds rho ix lhs rhs x y : no_eq lhs -> expr_val rho ix lhs x -> expr_val rho ix rhs y ->
  (holds rho ix (lhs ++ " = " ++ rhs) <-> x = y).
Proof.
  intros N X Y. unfold holds.
  assert (E : meaning rho ix (normalize_eq (lhs ++ " = " ++ rhs)) = Some (x - y)%R).
  { apply V_value with (lvl := LExpr); [|reflexivity]. rewrite equation_tokens by exact N.
    apply V_sub; [exact X|]. apply V_unit_term, V_paren. exact Y. }
  rewrite E. split; [intros H; injection H; lra|intros ->; f_equal; lra].
Qed.

Lemma join_tokens sep t : clean_head sep = true -> clean_last sep = true -> sep <> "" -> tokenize sep = [t] -> forall x l,
  tokenize (join sep (x :: l)) = tokenize x ++ flat_map (fun ts => t :: ts) (map tokenize l).
Proof.
  intros C1 C2 N T x l. revert x. induction l as [|y l IH]; intros x; [cbn; now rewrite app_nil_r|].
  change (join sep (x :: y :: l)) with (x ++ sep ++ join sep (y :: l))%string.
  rewrite tok_head by (destruct sep; [congruence|exact C1]). rewrite tok_last by exact C2. rewrite IH, T. reflexivity.
Qed.

(** ** Values of composed strings *)
Section SV.
Variables (rho : valuation) (ix : indices).
Local Notation V := (V rho ix).

Lemma sv_paren a x : V LExpr (tokenize a) x -> V LPrim (tokenize ("(" ++ a ++ ")")) x.
Proof. intros H. rewrite tok_last, tok_head by reflexivity. apply (V_paren H). Qed.
Lemma sv_add a x b y : V LExpr (tokenize a) x -> V LTerm (tokenize b) y -> V LExpr (tokenize (a ++ " + " ++ b)) (x + y).
Proof. intros H1 H2. rewrite tok_head, tok_last by reflexivity. apply (V_add H1 H2). Qed.
Lemma sv_sub a x b y : V LExpr (tokenize a) x -> V LTerm (tokenize b) y -> V LExpr (tokenize (a ++ " - " ++ b)) (x - y).
Proof. intros H1 H2. rewrite tok_head, tok_last by reflexivity. apply (V_sub H1 H2). Qed.
Lemma sv_mul a x b y : V LTerm (tokenize a) x -> V LFactor (tokenize b) y -> V LTerm (tokenize (a ++ " * " ++ b)) (x * y).
Proof. intros H1 H2. rewrite tok_head, tok_last by reflexivity. apply (V_mul H1 H2). Qed.
Lemma sv_div a x b y : V LTerm (tokenize a) x -> V LFactor (tokenize b) y -> y <> 0%R -> V LTerm (tokenize (a ++ " / " ++ b)) (x / y).
Proof. intros H1 H2 N. rewrite tok_head, tok_last by reflexivity. apply (V_div H1 H2 N). Qed.
Lemma sv_pow a x b y : V LPrim (tokenize a) x -> V LFactor (tokenize b) y -> (0 < x)%R -> V LPower (tokenize (a ++ " ** " ++ b)) (Rpower x y).
Proof. intros H1 H2 N. rewrite tok_head, tok_last by reflexivity. apply (V_pow H1 H2 N). Qed.
Lemma sv_one : V LPrim (tokenize "1") 1.
Proof. exact (@V_num rho ix "1" 1 eq_refl). Qed.
Lemma sv_sum x v l vs : V LTerm (tokenize x) v -> Forall2 (fun s => V LTerm (tokenize s)) l vs ->
  V LExpr (tokenize (join " + " (x :: l))) (v + fold_right Rplus 0%R vs).
Proof.
  intros H F. rewrite (@join_tokens " + " Plus eq_refl eq_refl ltac:(discriminate) eq_refl). apply V_sum; [now apply V_term|].
  clear H. induction F; cbn [map]; constructor; auto.
Qed.
Lemma sv_prod x v l vs : V LTerm (tokenize x) v -> Forall2 (fun s => V LFactor (tokenize s)) l vs ->
  V LTerm (tokenize (join " * " (x :: l))) (v * fold_right Rmult 1%R vs).
Proof.
  intros H F. rewrite (@join_tokens " * " Star eq_refl eq_refl ltac:(discriminate) eq_refl). apply V_prod; [exact H|].
  clear H. induction F; cbn [map]; constructor; auto.
Qed.
End SV.

(** Re-association of a string *)
Ltac sassoc := rewrite ?sapp_assoc; reflexivity.
