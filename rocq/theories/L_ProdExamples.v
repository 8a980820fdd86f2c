(** The economy of the examples of C55-C60. *)
From Coq Require Import Ascii Reals Lra Lia ZArith.
From Verif Require Import Py PyStr M_PyExpr S_PyExpr L_PyExpr S_Meaning L_Meaning M_Production S_Production L_Production L_Production2 L_Production4 L_Production5 L_Production6.
Local Open Scope string_scope.
Local Open Scope list_scope.

(** Capital and labour, one of each at price one, make one unit of output, sold
    at price two; [s] is the share or coefficient of each. *)
Definition ex_env (s : R) : valuation := env
  [("K", 1%R); ("L", 1%R); ("X", 1%R); ("r", 1%R); ("w", 1%R); ("q", 1%R); ("a", s); ("b", s); ("Y", 1%R); ("P", 2%R); ("A", 1%R); ("eps", 2%R)].
Definition ix0 : indices := fun _ => 0.
Definition ex_factors (s : R) : list factor := [mkFactor "K" "r" "a" 1 1 s; mkFactor "L" "w" "b" 1 1 s].
(** The same, written in another way *)
Definition ex_factors' (s : R) : list factor := [mkFactor "K" "(2 - w)" "a + r - 1" 1 1 s; mkFactor "(L)" "w" "b" 1 1 s].

Lemma word_unit rho ix w v : tokenize w = [Word w] -> eval rho ix (EWord w) = Some v -> unit_val rho ix w v.
Proof. intros T E. exists (EWord w). split; [unfold is_unit; rewrite T; apply G_word|exact E]. Qed.
Ltac unit_tac := apply word_unit; [reflexivity|cbv -[IZR]; reflexivity].

Lemma ex_ok s : Forall (factor_ok (ex_env s) ix0) (ex_factors s).
Proof.
  repeat constructor; cbn [f_name f_price f_share qty price share]; try unit_tac; try (apply unit_expr; unit_tac); lra.
Qed.
Lemma ex_pos s : (0 < s)%R -> (forall f, In f (ex_factors s) -> 0 < qty f /\ 0 < share f)%R.
Proof. intros P f [<-|[<-|[]]]; cbn [qty share]; lra. Qed.
Lemma ex_Y s : unit_val (ex_env s) ix0 "Y" 1. Proof. unit_tac. Qed.
Lemma ex_P s : unit_val (ex_env s) ix0 "P" 2. Proof. unit_tac. Qed.
Lemma ex_A s : unit_val (ex_env s) ix0 "A" 1. Proof. unit_tac. Qed.
Lemma ex_eps s : unit_val (ex_env s) ix0 "eps" 2. Proof. unit_tac. Qed.

Lemma ex_ok' s : Forall (factor_ok (ex_env s) ix0) (ex_factors' s).
Proof.
  repeat constructor; cbn [f_name f_price f_share qty price share]; try unit_tac; try (apply unit_expr; unit_tac); try lra.
  - replace 1%R with (2 - 1)%R by lra. apply unit_V. change "(2 - w)" with ("(" ++ ("2" ++ " - " ++ "w") ++ ")")%string.
    apply sv_paren, sv_sub; [apply V_unit_expr|apply V_unit_term]; apply unit_V; unit_tac.
  - replace s with (s + 1 - 1)%R by lra. apply expr_V. change "a + r - 1" with (("a" ++ " + " ++ "r") ++ " - " ++ "1")%string.
    apply sv_sub; [apply sv_add; [apply V_unit_expr|apply V_unit_term]; apply unit_V|apply V_unit_term; apply unit_V]; unit_tac || (replace (s + 1 - 1)%R with s by lra; unit_tac).
  - apply unit_V. change "(L)" with ("(" ++ "L" ++ ")")%string. apply sv_paren, V_unit_expr, unit_V. unit_tac.
Qed.
Lemma ex_same s : Forall2 same_values (ex_factors s) (ex_factors' s).
Proof. repeat constructor. Qed.

Lemma word_at rho ix i n w f : tokenize w = [Word w] -> (forall k, k < n -> eval rho (upd ix i k) (EWord w) = Some (f k)) -> unit_at rho ix i n w f.
Proof. intros T E. exists (EWord w). split; [unfold is_unit; rewrite T; apply G_word|exact E]. Qed.
Lemma word_at2 rho ix c d m n w f : tokenize w = [Word w] -> (forall i k, i < m -> k < n -> eval rho (at2 ix c d i k) (EWord w) = Some (f i k)) -> unit_at2 rho ix c d m n w f.
Proof. intros T E. exists (EWord w). split; [unfold is_unit; rewrite T; apply G_word|exact E]. Qed.

Lemma rpower_1_l r : Rpower 1 r = 1%R.
Proof. unfold Rpower. now rewrite ln_1, Rmult_0_r, exp_0. Qed.
