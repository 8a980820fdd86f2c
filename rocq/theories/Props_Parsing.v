(** C54: equations become left minus right. *)
From Coq Require Import Reals Lra.
From Verif Require Import Py PyStr M_PyExpr S_PyExpr L_PyExpr S_Meaning L_Meaning S_Production L_Production6 L_Tensor6.
Local Open Scope string_scope.
Local Open Scope list_scope.

(** The strings that are read are those of the grammar, as the trees of the grammar. *)
Theorem c54_grammar :
  forall (s : string) (e : pexpr), parse s = Some e <-> is_expr s e.
Proof. exact @c54_grammar__p. Qed.
Print Assumptions c54_grammar.
Example c54_grammar_ex : is_expr "-a ** b * c" (EBin Mul (ENeg (EBin Power (EWord "a") (EWord "b"))) (EWord "c")) /\
  ~ (exists e, is_expr "(axis=0)" e) /\ ~ (exists e, is_expr "a + * b" e).
Proof. split; [apply c54_grammar; reflexivity|]. split; intros (e & H); apply c54_grammar in H; discriminate. Qed.

Theorem c54_difference :
  forall (lhs rhs : string) (el er : pexpr), is_expr lhs el -> is_expr rhs er -> only_axis_eq lhs -> ends_with "axis" lhs = false ->
  parse (normalize_eq (lhs ++ "=" ++ rhs)) = Some (EBin Sub el er) /\
  forall rho ix v w, eval rho ix el = Some v -> eval rho ix er = Some w -> meaning rho ix (normalize_eq (lhs ++ "=" ++ rhs)) = Some (v - w)%R.
Proof. exact @c54_difference__p. Qed.
Print Assumptions c54_difference.
(** 2 - 3 = 5 - 4 is read as (2 - 3) - (5 - 4), which is -2. *)
Example c54_difference_ex : forall rho ix, meaning rho ix (normalize_eq "2 - 3 = 5 - 4") = Some (-2)%R.
Proof.
  intros rho ix. change "2 - 3 = 5 - 4" with ("2 - 3 " ++ "=" ++ " 5 - 4")%string.
  assert (N : forall w, G LTerm [Word w] (EWord w)) by (intros w; apply G_factor, G_power, G_prim, G_word).
  destruct (@c54_difference "2 - 3 " " 5 - 4" (EBin Sub (EWord "2") (EWord "3")) (EBin Sub (EWord "5") (EWord "4"))) as (_ & H).
  - exact (G_sub (G_term (N "2")) (N "3")).
  - exact (G_sub (G_term (N "5")) (N "4")).
  - apply only_axis_none. reflexivity.
  - reflexivity.
  - rewrite (H rho ix (2 - 3)%R (5 - 4)%R eq_refl eq_refl). f_equal. lra.
Qed.

Theorem c54_unchanged :
  forall s : string, only_axis_eq s -> normalize_eq s = s.
Proof. exact @c54_unchanged__p. Qed.
Print Assumptions c54_unchanged.
Example c54_unchanged_ex : normalize_eq "X.sum(axis=0) - Y" = "X.sum(axis=0) - Y".
Proof. apply c54_unchanged. apply only_axis_none. reflexivity. Qed.

(** The text put around each equation calls ravel on the value of the whole equation. *)
Theorem c54_ravel :
  forall (s : string) (e : pexpr), is_expr s e -> parse (wrap_in_ravel s) = Some (ECall (EAttr e "ravel") ENil).
Proof. exact @c54_ravel__p. Qed.
Print Assumptions c54_ravel.
Example c54_ravel_ex : parse (wrap_in_ravel "X - psi * VC") = Some (ECall (EAttr (EBin Sub (EWord "X") (EBin Mul (EWord "psi") (EWord "VC"))) "ravel") ENil).
Proof. apply c54_ravel, parse_sound. reflexivity. Qed.

(** Every "=" that is not directly preceded by "axis" splits, also that of
    another keyword argument or of axis followed by a space; the result is read as
    another expression. *)
Theorem c54_keywords_refuted :
  exists s e, is_expr s e /\ normalize_eq s <> s /\ parse (normalize_eq s) <> Some e.
Proof. exact @c54_keywords_refuted__p. Qed.
Print Assumptions c54_keywords_refuted.
Theorem c54_spaced_axis_refuted :
  exists s e, is_expr s e /\ normalize_eq s <> s /\ parse (normalize_eq s) <> Some e.
Proof. exact @c54_spaced_axis_refuted__p. Qed.
Print Assumptions c54_spaced_axis_refuted.
