(** C109: the forms of text that the sympy backends read as written. *)
From Coq Require Import Ascii ZArith.
From Verif Require Import Py PyStr NdArray M_Primitives M_PyExpr M_Expand M_SymExpr M_Simplify M_Parse S_Meaning S_Parse S_Parse2 L_Parse5.
Local Open Scope string_scope.
Local Open Scope list_scope.

(** C109 *)
Theorem c109_read :
  forall (names : dict sexpr) (dims : list string) (e : pexpr),
    (plain_form (dkeys names) dims e -> exists t, forall other, sympy_of other names dims e = Ok t) /\
    (~ plain_form (dkeys names) dims e -> sympy_of (fun _ => Err ValueError) names dims e = Err ValueError).
Proof. exact @c109_read__p. Qed.
Print Assumptions c109_read.

(** 2 * Sum(x, (i, 0, 1)) is read; x.replace({i:j}) is left to sympy *)
Definition rd_names : dict sexpr := [("x", SIx "x" [IVar "i"; IVar "j"])].
Definition rd_read : pexpr := EBin Mul (EWord "2") (sum_over (EWord "x") "i" "0" "1").
Definition rd_other : pexpr := ECall (EAttr (EWord "x") "replace") (ECons (EDict (ECons (EPair (EWord "i") (EWord "j")) ENil)) ENil).
Example c109_read_ex :
  plain_form (dkeys rd_names) ["i"; "j"] rd_read /\
  (forall other, sympy_of other rd_names ["i"; "j"] rd_read = Ok (SBin OMul (SNum 2) (SRed RSum (SIx "x" [IVar "i"; IVar "j"]) [("i", (0, 1))]))) /\
  ~ plain_form (dkeys rd_names) ["i"; "j"] rd_other /\ sympy_of (fun _ => Err ValueError) rd_names ["i"; "j"] rd_other = Err ValueError.
Proof.
  split; [|split; [reflexivity|]].
  - apply pf_op; [now apply pf_number with 2|]. apply pf_reduction; [auto|cbn; intuition discriminate|cbn; intuition discriminate| |].
    + apply pf_name; [reflexivity|cbn; auto|cbn; intuition discriminate].
    + apply pl_more with 0 1; [cbn; auto|reflexivity|reflexivity|constructor].
  - assert (N : ~ plain_form (dkeys rd_names) ["i"; "j"] rd_other) by (intros H; inversion H). split; [exact N|]. exact (proj2 (c109_read rd_names _ _) N).
Qed.
