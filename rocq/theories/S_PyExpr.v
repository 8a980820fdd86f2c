(** Specification vocabulary for C54-C60: Python's grammar of arithmetic
    expressions, as a relation, independent of the parser of the model. *)
From Verif Require Import Py PyStr M_PyExpr.
Local Open Scope string_scope.
Local Open Scope list_scope.

Inductive level := LExpr | LTerm | LFactor | LPower | LPrim | LItem | LArgs.

(** [G lvl ts e]: the tokens [ts] form the tree [e] at this level of the grammar:
    sum, product, signed factor, power, primary, argument, argument list *)
Inductive G : level -> list token -> pexpr -> Prop :=
| G_term ts e : G LTerm ts e -> G LExpr ts e
| G_add a ea b eb : G LExpr a ea -> G LTerm b eb -> G LExpr (a ++ Plus :: b) (EBin Add ea eb)
| G_sub a ea b eb : G LExpr a ea -> G LTerm b eb -> G LExpr (a ++ Minus :: b) (EBin Sub ea eb)
| G_factor ts e : G LFactor ts e -> G LTerm ts e
| G_mul a ea b eb : G LTerm a ea -> G LFactor b eb -> G LTerm (a ++ Star :: b) (EBin Mul ea eb)
| G_div a ea b eb : G LTerm a ea -> G LFactor b eb -> G LTerm (a ++ Slash :: b) (EBin Div ea eb)
| G_power ts e : G LPower ts e -> G LFactor ts e
| G_neg ts e : G LFactor ts e -> G LFactor (Minus :: ts) (ENeg e)
| G_prim ts e : G LPrim ts e -> G LPower ts e
| G_pow a ea b eb : G LPrim a ea -> G LFactor b eb -> G LPower (a ++ Pow :: b) (EBin Power ea eb)
| G_word w : G LPrim [Word w] (EWord w)
| G_paren ts e : G LExpr ts e -> G LPrim (LP :: ts ++ [RP]) e
| G_attr ts e w : G LPrim ts e -> G LPrim (ts ++ [Dot; Word w]) (EAttr e w)
| G_call f ef a ea : G LPrim f ef -> G LArgs a ea -> G LPrim (f ++ LP :: a ++ [RP]) (ECall ef ea)
| G_index f ef a ea : G LPrim f ef -> G LArgs a ea -> G LPrim (f ++ LB :: a ++ [RB]) (EIndex ef ea)
| G_tuple a ea b eb : G LItem a ea -> G LArgs b eb -> G LPrim (LP :: a ++ Comma :: b ++ [RP]) (ETuple (ECons ea eb))
| G_list a ea : G LArgs a ea -> G LPrim (LB :: a ++ [RB]) (EList ea)
| G_dict a ea : G LArgs a ea -> G LPrim (LC :: a ++ [RC]) (EDict ea)
| G_nil : G LArgs [] ENil
| G_one a ea : G LItem a ea -> G LArgs a (ECons ea ENil)
| G_cons a ea b eb : G LItem a ea -> G LArgs b eb -> G LArgs (a ++ Comma :: b) (ECons ea eb)
| G_item ts e : G LExpr ts e -> G LItem ts e
| G_colon : G LItem [Colon] EColon
| G_kw w ts e : G LExpr ts e -> G LItem (Word w :: Equal :: ts) (EKw w e)
| G_pair a ea b eb : G LExpr a ea -> G LExpr b eb -> G LItem (a ++ Colon :: b) (EPair ea eb).

(** The string [s] is an expression with tree [e]; it is a unit if no operator
    around it can tear it apart: a name, a number, a call, an indexed name or
    anything in parentheses. *)
Definition is_expr (s : string) (e : pexpr) : Prop := G LExpr (tokenize s) e.
Definition is_unit (s : string) (e : pexpr) : Prop := G LPrim (tokenize s) e.
